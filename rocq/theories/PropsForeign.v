(** Property C103: handles of one BddMgr given to the operations of another. *)
From stdpp Require Import strings.
From Verif Require Import Prelude ComputeCache Arena Bdd BssAlg BssMgr SpecBdd SpecBss SpecBssMgr SpecForeign BssMgrProofs BssMgrMain ForeignProofs.

(** The binary operations (bss/src/bdd.rs:444-460) take the forest of [self] and, of the other operand, only its number; [eq]
    (474-476) compares numbers.  So [f.and(&g)], for [f] of manager [w] and [g] of any manager, is [w_and w f g] (BssMgr.v). *)

(** ** C103 *)
(** If the number is also that of a handle held on the manager of [self], the call is the one on that handle: no panic, and
    everything held stays right. *)
Theorem c103_alias o w H v K f F g G G' : bss_held w H → (f, F) ∈ H → bss_held v K → (g, G) ∈ K → (g, G') ∈ H →
  ∃ w' r, w_bin o w f g = Some (w', r) ∧ bss_held w' ((r, λ e, bop2_fun o (F e) (G' e)) :: H).
Proof.
  intros Hw Hf _ _ Hg. destruct (held_progress w H Hw) as (_ & _ & _ & _ & Hb & _).
  destruct (Hb o f g) as [[w' r] Hr]; [by apply (elem_of_list_fmap_1 fst) in Hf|by apply (elem_of_list_fmap_1 fst) in Hg|].
  exists w', r. split; [done|]. eapply sh_step; [done|]. by apply (st_bin o w H f F g G').
Qed.
Print Assumptions c103_alias.

(** If the number is that of any node in use in the forest of [self] ([bdd_valid]: in range and not free), held or not, the call
    does not panic, and the handles of this manager stay right through every further history, whether the result is kept or
    dropped at some point. *)
Theorem c103_live o w H v K f F g G : bss_held w H → (f, F) ∈ H → bss_held v K → (g, G) ∈ K → bdd_valid (w_bdd w) g →
  ∃ w' r, w_bin o w f g = Some (w', r) ∧
    ∀ w1 H1, bss_later w' H w1 H1 →
      (∀ h M, (h, M) ∈ H1 → bdd_valid (w_bdd w1) h ∧ ∀ e, bss_value (w_bdd w1) e h (tvb (M e))) ∧
      ∀ w2 H2, bss_later (w_drop w1 r) H1 w2 H2 →
        ∀ h M, (h, M) ∈ H2 → bdd_valid (w_bdd w2) h ∧ ∀ e, bss_value (w_bdd w2) e h (tvb (M e)).
Proof. intros Hw Hf _ _. exact (bin_harmless o w H f F g Hw Hf). Qed.
Print Assumptions c103_live.
(** A number beyond the forest of [self] panics.  What is left is a free slot: see [c103_sound_refuted]. *)
Theorem c103_beyond o w H v K f F g G : bss_held w H → (f, F) ∈ H → bss_held v K → (g, G) ∈ K →
  length (ar_nodes (b_ar (w_bdd w))) ≤ g → w_bin o w f g = None.
Proof. intros Hw Hf _ _. exact (bin_beyond o w H f F g Hw Hf). Qed.
Print Assumptions c103_beyond.

(** ** Witnesses *)
(** own: x, y and not x are held; x & y has been dropped and collected, so that its slot is free *)
Definition ex_own : option (bmgr * nat * nat * nat) :=
  let '(w, x) := w_defvar w_new "x" in
  let '(w, y) := w_defvar w "y" in
  '(w, n) ← w_not w x;
  '(w, f) ← w_and w x y;
  '(w, _) ← w_gc (w_drop w f) [];
  Some (w, x, y, n).
(** other: a & b, which has the number of the free slot above *)
Definition ex_other : option (bmgr * nat * nat) :=
  let '(w, a) := w_defvar w_new "a" in
  let '(w, b) := w_defvar w "b" in
  '(w, _) ← w_not w a;
  '(w, f) ← w_and w a b;
  Some (w, a, f).
Lemma ex_own_held w x y n : ex_own = Some (w, x, y, n) →
  bss_held w [(n, λ e : env, negb (e "x")); (y, λ e : env, e "y"); (x, λ e : env, e "x")]%string.
Proof.
  unfold ex_own. pose proof sh_new as H0. revert H0. generalize w_new. intros w0 H0.
  destruct (w_defvar w0 "x") as [w1 x'] eqn:E1. apply (st_defvar _ _), (sh_step _ _ _ _ H0) in E1.
  destruct (w_defvar w1 "y") as [w2 y'] eqn:E2. apply (st_defvar _ _), (sh_step _ _ _ _ E1) in E2.
  destruct (w_not w2 x') as [[w3 n']|] eqn:E3; [|done]. cbn [mbind option_bind].
  eapply (st_not _ _ x' (λ e, e "x"%string)), (sh_step _ _ _ _ E2) in E3; [|by repeat constructor].
  destruct (w_and w3 x' y') as [[w4 f]|] eqn:E4; [|done]. cbn [mbind option_bind].
  eapply (st_bin BAnd _ _ x' (λ e, e "x"%string) y' (λ e, e "y"%string)), (sh_step _ _ _ _ E3) in E4; [|by repeat constructor..].
  eapply sh_step in E4; [|eapply (st_drop _ _ f); reflexivity].
  destruct (w_gc (w_drop w4 f) []) as [[w5 k]|] eqn:E5; [|done]. cbn [mbind option_bind].
  eapply st_gc in E5; [|by apply Forall_nil]. apply (sh_step _ _ _ _ E4) in E5.
  intros [= <- <- <- <-]. exact E5.
Qed.
Lemma ex_other_held w a f : ex_other = Some (w, a, f) →
  ∃ K, bss_held w K ∧ (a, λ e : env, e "a"%string) ∈ K ∧ (f, λ e : env, e "a" && e "b")%string ∈ K.
Proof.
  unfold ex_other. pose proof sh_new as H0. revert H0. generalize w_new. intros w0 H0.
  destruct (w_defvar w0 "a") as [w1 a'] eqn:E1. apply (st_defvar _ _), (sh_step _ _ _ _ H0) in E1.
  destruct (w_defvar w1 "b") as [w2 b'] eqn:E2. apply (st_defvar _ _), (sh_step _ _ _ _ E1) in E2.
  destruct (w_not w2 a') as [[w3 n']|] eqn:E3; [|done]. cbn [mbind option_bind].
  eapply (st_not _ _ a' (λ e, e "a"%string)), (sh_step _ _ _ _ E2) in E3; [|by repeat constructor].
  destruct (w_and w3 a' b') as [[w4 f']|] eqn:E4; [|done]. cbn [mbind option_bind].
  eapply (st_bin BAnd _ _ a' (λ e, e "a"%string) b' (λ e, e "b"%string)), (sh_step _ _ _ _ E3) in E4; [|by repeat constructor..].
  intros [= <- <- <-]. eexists. split; [exact E4|]. split; [|left]. do 3 right. left.
Qed.

(** eq answers true for x of one manager and a of another. *)
Theorem c103_eq_refuted : ∃ w H v K f F g G, bss_held w H ∧ bss_held v K ∧ (f, F) ∈ H ∧ (g, G) ∈ K ∧ f = g ∧ ∃ e, F e ≠ G e.
Proof.
  assert (Hr : ('(_, x, _, _) ← ex_own; '(_, a, _) ← ex_other; Some (bool_decide (x = a))) = Some true) by (vm_compute; reflexivity).
  destruct ex_own as [[[[w x] y] n]|] eqn:E1; [|done]. destruct ex_other as [[[v a] f]|] eqn:E2; [|done].
  cbn [mbind option_bind] in Hr. injection Hr as Hr%bool_decide_eq_true. apply ex_own_held in E1. apply ex_other_held in E2 as (K & HK & Ha & _).
  eexists w, _, v, K, x, _, a, _. sp; [exact E1|exact HK|right; right; left|exact Ha|exact Hr|].
  by exists (λ s, String.eqb s "x").
Qed.
Print Assumptions c103_eq_refuted.

(** The other manager's operand is not what is combined: y and a, for a of another manager, comes out as y & x. *)
Theorem c103_operand_refuted : ∃ w H v K f F g G w' r, bss_held w H ∧ bss_held v K ∧ (f, F) ∈ H ∧ (g, G) ∈ K ∧
  w_and w f g = Some (w', r) ∧ ¬ ∀ e, bss_value (w_bdd w') e r (tvb (F e && G e)).
Proof.
  assert (Hr : ('(_, x, _, _) ← ex_own; '(_, a, _) ← ex_other; Some (bool_decide (x = a))) = Some true) by (vm_compute; reflexivity).
  destruct ex_own as [[[[w x] y] n]|] eqn:E1; [|done]. destruct ex_other as [[[v a] f]|] eqn:E2; [|done].
  cbn [mbind option_bind] in Hr. injection Hr as Hr%bool_decide_eq_true. apply ex_own_held in E1. apply ex_other_held in E2 as (K & HK & Ha & _).
  destruct (c103_alias BAnd w _ v K y (λ e, e "y"%string) a _ (λ e, e "x"%string) E1 ltac:(right; left) HK Ha) as (w' & r & Hw & Hh).
  { rewrite <- Hr. right. right. left. }
  eexists w, _, v, K, y, (λ e, e "y"%string), a, _, w', r. sp; [exact E1|exact HK|right; left|exact Ha|exact Hw|].
  intros Hv. specialize (Hv (λ s, negb (String.eqb s "x"))).
  pose proof (wk_held _ _ (held_wok _ _ Hh) r _ ltac:(left)) as [_ Hd]. specialize (Hd (λ s, negb (String.eqb s "x"))).
  pose proof (sv_fun _ _ _ _ _ Hv Hd) as Hc. done.
Qed.
Print Assumptions c103_operand_refuted.

(** The manager is not left sound.  One call (not x) & g, with g of another manager, whose result is dropped at once; from then
    on the manager's own handles give (x | y) & not x = false. *)
Theorem c103_sound_refuted : ∃ w H v K g G n N x X y Y w1 r1 w2 h w3 r e,
  bss_held w H ∧ bss_held v K ∧ (g, G) ∈ K ∧ (n, N) ∈ H ∧ (x, X) ∈ H ∧ (y, Y) ∈ H ∧
  w_and w n g = Some (w1, r1) ∧ w_or (w_drop w1 r1) x y = Some (w2, h) ∧ w_and w2 h n = Some (w3, r) ∧
  (X e || Y e) && N e = true ∧ bss_value (w_bdd w3) e r TZero.
Proof.
  assert (Hr : ('(w, x, y, n) ← ex_own; '(_, _, g) ← ex_other; '(w, r) ← w_and w n g; '(w, h) ← w_or (w_drop w r) x y; '(w, r) ← w_and w h n;
     ar_nodes (b_ar (w_bdd w)) !! r) = Some (Term TZero)) by (vm_compute; reflexivity).
  destruct ex_own as [[[[w x] y] n]|] eqn:E1; [|done]. destruct ex_other as [[[v a] g]|] eqn:E2; [|done].
  cbn [mbind option_bind] in Hr. apply ex_own_held in E1. apply ex_other_held in E2 as (K & HK & _ & Hg).
  destruct (w_and w n g) as [[w1 r1]|] eqn:F1; [|done]. cbn [mbind option_bind] in Hr.
  destruct (w_or (w_drop w1 r1) x y) as [[w2 h]|] eqn:F2; [|done]. cbn [mbind option_bind] in Hr.
  destruct (w_and w2 h n) as [[w3 r]|] eqn:F3; [|done]. cbn [mbind option_bind] in Hr.
  eexists w, _, v, K, g, _, n, (λ e : env, negb (e "x"%string)), x, (λ e : env, e "x"%string), y, (λ e : env, e "y"%string), w1, r1, w2, h, w3, r, (λ s, negb (String.eqb s "x")).
  sp; [exact E1|exact HK|exact Hg|left|right; right; left|right; left|exact F1|exact F2|exact F3|done|].
  by apply sv_term.
Qed.
Print Assumptions c103_sound_refuted.
(** without the foreign call the same calls give a node of their own, not the false terminal *)
Example c103_ex_without : ('(w, x, y, n) ← ex_own; '(w, h) ← w_or w x y; '(w, r) ← w_and w h n; Some (bool_decide (r = bdd_zero))) = Some false.
Proof. vm_compute. done. Qed.
(** [c103_live] and [c103_beyond] at work: a & b of the other manager, given to a manager that has x only, is out of range; given to
    one where x & y has been dropped but not collected, it is in range and in use *)
Definition ex_small : option (bmgr * nat) := let '(w, x) := w_defvar w_new "x" in Some (w, x).
Definition ex_kept : option (bmgr * nat) :=
  let '(w, x) := w_defvar w_new "x" in
  let '(w, y) := w_defvar w "y" in
  '(w, n) ← w_not w x;
  '(w, f) ← w_and w x y;
  Some (w_drop w f, x).
Example c103_ex_beyond : ('(w, x) ← ex_small; '(_, _, g) ← ex_other; Some (length (ar_nodes (b_ar (w_bdd w))), g, bool_decide (w_and w x g = None)))
  = Some (4, 6, true).
Proof. vm_compute. done. Qed.
Example c103_ex_live : ('(w, x) ← ex_kept; '(_, _, g) ← ex_other; '(w', r) ← w_xor w x g;
  Some (length (ar_nodes (b_ar (w_bdd w))), ar_free (b_ar (w_bdd w)), g, r)) = Some (7, [], 6, 7).
Proof. vm_compute. done. Qed.
