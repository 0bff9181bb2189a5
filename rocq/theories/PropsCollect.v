(** Properties C66, C68: what the collectors of BddMgr and ZddMgr keep, and what [gc] reports. *)
From stdpp Require Import strings.
From Verif Require Import Prelude ComputeCache Arena Bdd BssAlg BssMgr SpecBdd SpecBss SpecBssMgr Zdd ZddAlg ZddMgr SpecZdd SpecZddMgr SpecCollect Collect
  PropsBssMgr.

(** ** C66 *)
(** An explicit [gc] keeps the constants and everything reachable from a held handle or a variable, and nothing
    else, whatever subset of the held handles is passed; [live_node_count] is the number of slots in use. *)
Theorem c66_gc w H keep : bss_held w H → Forall (λ f, f ∈ H.*1) keep →
  ∃ w' n, w_gc w keep = Some (w', n) ∧ bss_held w' H ∧ no_garbage w' H.*1 ∧ counts_live w' ∧
    n + bdd_live_node_count (w_bdd w') = length (ar_nodes (b_ar (w_bdd w))).
Proof. exact (explicit_gc w H keep). Qed.
Print Assumptions c66_gc.

(** Once every handle is dropped, [gc] leaves three constants and one node per variable. *)
Theorem c66_release w : bss_held w [] →
  ∃ w' n, w_gc w [] = Some (w', n) ∧ bdd_live_node_count (w_bdd w') = 3 + size (w_vars w).
Proof. exact (release w). Qed.
Print Assumptions c66_release.

(** After a call that makes a handle, fewer slots are in use than the threshold; and if the call collected, the slots in
    use are exactly those needed for what is held now. *)
Theorem c66_auto w H c w' r : bss_held w H → Forall (λ f, f ∈ H.*1) (wcall_args c) →
  wcall_run c w = Some (w', r) → bounded w w' (r :: H.*1).
Proof. exact (call_bounded w H c w' r). Qed.
Print Assumptions c66_auto.
Theorem c66_count w H : bss_held w H → counts_live w.
Proof. exact (λ Hh, live_count w H (BssMgrMain.held_wok w H Hh)). Qed.
Print Assumptions c66_count.

(** The same for ZddMgr, alone or inside a BssMgr ([singleton] only exists on the former). *)
Theorem c66_zdd_auto w H c w' r : zdd_in_use w H → ((∃ x, c = YSingleton x) → zdd_held w H) →
  Forall (λ f, f ∈ H.*1) (ycall_args c) → ycall_run c w = Some (w', r) → z_bounded w w' (r :: H.*1).
Proof. exact (z_call_bounded w H c w' r). Qed.
Print Assumptions c66_zdd_auto.
Theorem c66_zdd_count w H : zdd_in_use w H → z_counts_live w.
Proof. exact (z_counts w H). Qed.
Print Assumptions c66_zdd_count.

(** [ex_w] (held: [c08_ex_held]) collects at every call; dropping the handles one by one and collecting releases
    the nodes of each function *)
Example c66_ex : (r ← ex_w; let '(w, f, g) := r in
    '(w1, n1) ← w_gc w [f]; '(w2, n2) ← w_gc (w_drop w1 g) []; '(w3, n3) ← w_gc (w_drop w2 f) [];
    Some (map (λ w, bdd_live_node_count (w_bdd w)) [w; w1; w2; w3], [n1; n2; n3], size (w_vars w))) =
  Some ([11; 11; 8; 6], [0; 3; 5], 3).
Proof. vm_compute. done. Qed.
Example c66_ex_auto : (r ← ex_w; let '(w, f, g) := r in
    '(w, _) ← wcall_run (WBin BOr f g) (w_drop w g); '(w', _) ← wcall_run (WNot f) w; '(w'', _) ← wcall_run (WDual f) w';
    Some (map (λ w, (bdd_live_node_count (w_bdd w), w_thr w)) [w; w'; w''])) = Some [(12, 14); (12, 24); (14, 24)].
Proof. vm_compute. done. Qed.

(** ** C68 *)
(** Claimed: [gc] returns the number of slots it reclaimed.  True only of a manager without free slots ... *)
Theorem c68_reclaimed_partial w H keep w' n : bss_held w H → Forall (λ f, f ∈ H.*1) keep →
  bdd_live_node_count (w_bdd w) = length (ar_nodes (b_ar (w_bdd w))) →
  w_gc w keep = Some (w', n) → n = bdd_live_node_count (w_bdd w) - bdd_live_node_count (w_bdd w').
Proof.
  intros Hh Hk Hf E. destruct (explicit_gc w H keep Hh Hk) as (w1 & n1 & E1 & _ & _ & _ & Hn). rewrite E in E1.
  injection E1 as <- <-. lia.
Qed.
Print Assumptions c68_reclaimed_partial.
(** ... refuted in general: slots that were free before are counted again. *)
Definition ex_again : option (bmgr * nat * bmgr * nat * bmgr * nat) :=
  let '(w, x) := w_defvar w_new "x" in
  '(w, r) ← w_not w x; let w := w_drop w r in
  '(w1, n1) ← w_gc w []; '(w2, n2) ← w_gc w1 []; Some (w, x, w1, n1, w2, n2).
Example c68_ex : (r ← ex_again; let '(w, x, w1, n1, w2, n2) := r in
    Some (map (λ w, bdd_live_node_count (w_bdd w)) [w; w1; w2], [n1; n2])) = Some ([5; 4; 4], [1; 1]).
Proof. vm_compute. done. Qed.
Theorem c68_reclaimed_refuted : ∃ w H w' n, bss_held w H ∧ w_gc w [] = Some (w', n) ∧
  bdd_live_node_count (w_bdd w') = bdd_live_node_count (w_bdd w) ∧ n = 1.
Proof.
  pose proof c68_ex as Hx. unfold ex_again in Hx. revert Hx. pose proof sh_new as H0. revert H0. generalize w_new. intros w0 H0.
  destruct (w_defvar w0 "x") as [w1 x] eqn:E1. apply (st_defvar _ _), (sh_step _ _ _ _ H0) in E1.
  destruct (w_not w1 x) as [[w2 r]|] eqn:E2; [|done]. cbn [mbind option_bind].
  eapply (st_not _ _ x (λ e, e "x"%string)), (sh_step _ _ _ _ E1) in E2; [|by repeat constructor].
  eapply sh_step in E2; [|eapply (st_drop _ _ r); reflexivity].
  destruct (w_gc (w_drop w2 r) []) as [[w3 n1]|] eqn:E3; [|done]. cbn [mbind option_bind].
  eapply st_gc, (sh_step _ _ _ _ E2) in E3; [|by constructor].
  destruct (w_gc w3 []) as [[w4 n2]|] eqn:E4; [|done]. cbn [mbind option_bind map].
  intros [= _ Hl3 Hl4 _ ->]. eexists w3, _, w4, _. split; [exact E3|]. split; [done|]. split; [congruence|done].
Qed.
Print Assumptions c68_reclaimed_refuted.
