(** C89: using a handle of one BddMgr together with a handle of another. *)
From stdpp Require Import strings.
From Verif Require Import Prelude ComputeCache Arena Bdd BssAlg BssMgr SpecBdd SpecBss SpecBssMgr BssLook SpecBssLook Mixed PropsBssMgr.

Global Set Default Goal Selector "!".
Local Open Scope string_scope.

(** The expected property, for handles [f] of [w] and [g] of [w2]: eq tells whether they denote the same function of the named variables,
    and a connective gives the function it should or panics.  Missing: everything but the case of a constant [g], as the property is
    false otherwise ([c89_refuted]): a handle carries a node number, which is looked up in the manager of the first operand without
    asking whether the second one belongs to it (bdd.rs:444-476). *)
Theorem c89_constant_partial w H f F w2 H2 g (G : nfun) b o : bss_held w H → (f, F) ∈ H → bss_held w2 H2 → (g, G) ∈ H2 → (∀ e, G e = b) →
  (w_eq f g = true ↔ ∀ e, F e = G e) ∧
  ∃ w' r, w_bin o w f g = Some (w', r) ∧ bdd_valid (w_bdd w') r ∧ (∀ e, bss_value (w_bdd w') e r (tvb (bop2_fun o (F e) (G e)))) ∧
    ∀ k K, (k, K) ∈ H → bdd_valid (w_bdd w') k ∧ ∀ e, bss_value (w_bdd w') e k (tvb (K e)).
Proof. exact (mixed_l w H f F w2 H2 g G b o). Qed.
Print Assumptions c89_constant_partial.

(** One manager defines a, another one b: the two variables compare equal, and a & b, computed without complaint, is a. *)
Theorem c89_refuted : ∃ w H f F w2 H2 g (G : nfun), bss_held w H ∧ (f, F) ∈ H ∧ bss_held w2 H2 ∧ (g, G) ∈ H2 ∧
  w_eq f g = true ∧ (∃ e, F e ≠ G e) ∧
  ∃ w' r e, w_and w f g = Some (w', r) ∧ bss_value (w_bdd w') e r (tvb (negb (F e && G e))).
Proof.
  destruct (w_defvar w_new "a") as [w f] eqn:Ew. destruct (w_defvar w_new "b") as [w2 g] eqn:Ew2.
  assert (w_eq f g = true) as He.
  { change f with (w, f).2. rewrite <- Ew. change g with (w2, g).2. rewrite <- Ew2. vm_compute. reflexivity. }
  exists w, [(f, λ e : env, e "a")], f, (λ e : env, e "a"), w2, [(g, λ e : env, e "b")], g, (λ e : env, e "b").
  assert (Hh : bss_held w [(f, λ e : env, e "a")]) by (eapply sh_step; [apply sh_new|by apply st_defvar]).
  split; [done|]. split; [apply elem_of_list_here|].
  split; [eapply sh_step; [apply sh_new|by apply st_defvar]|]. split; [apply elem_of_list_here|]. split; [done|]. split.
  { by exists (λ x, bool_decide (x = "a")). }
  apply Nat.eqb_eq in He as <-.
  destruct (w_and w f f) as [[w' r]|] eqn:Ea.
  - exists w', r, (λ x, bool_decide (x = "a")). split; [done|].
    assert (Hh' : bss_held w' ((r, λ e : env, e "a" && e "a") :: [(f, λ e : env, e "a")])).
    { eapply sh_step; [exact Hh|]. apply (st_bin BAnd w _ f (λ e : env, e "a") f (λ e : env, e "a")); [apply elem_of_list_here..|done]. }
    destruct (PropsBssMgr.c08_handles w' _ r _ Hh' (elem_of_list_here _ _)) as [_ Hv]. apply Hv.
  - destruct (c08_no_panic w _ Hh) as (_ & _ & _ & _ & Hb & _). destruct (Hb BAnd f f) as [x Hx]; [apply elem_of_list_here..|].
    cbn [w_bin] in Hx. congruence.
Qed.
Print Assumptions c89_refuted.

(** The variable c of a manager with the variables b, c, and the constant true of that manager, used with the variable a of another:
    the first panics (c has node 4, and the first manager has nodes 0 to 3), the second is a. *)
Example c89_ex : let '(w, a) := w_defvar w_new "a" in let '(w2, b) := w_defvar w_new "b" in let '(w2, c) := w_defvar w2 "c" in
  (w_eq a b, w_eq a c, snd <$> w_and w a c, ('(_, t) ← w_one w2; '(_, r) ← w_and w a t; Some (w_eq a r)), ('(_, t) ← w_one w2; '(_, r) ← w_or w a t; Some r)) =
  (true, false, None, Some true, Some 1).
Proof. vm_compute. done. Qed.
