(** Properties C61, C62: what the inspecting methods of an MddNode tell about its function. *)
From Coq Require Import ZArith.
From stdpp Require Import strings.
From Verif Require Import Prelude ComputeCache Arena Bdd Mdd MtMdd MtMdd2 BssMgr MssMgr MssAlg SpecMdd SpecBssMgr SpecMss SpecMssAlg MssMgrProofs MssMgrVar MssRpn MssAlgMain MssLook SpecMssLook MssLookProofs.

(** ** C61 *)
(** is_boolean and is_value tell the kind of the values. *)
Theorem c61_kind I w H x F : mdd_held I w H → (x, Some F) ∈ H →
  (g_is_boolean x = true ↔ ∀ e, states (declared w) e → ∃ b, F e = VB b) ∧
  (g_is_value x = true ↔ ∀ e, states (declared w) e → ∃ t, F e = VI t) ∧ g_is_value x = negb (g_is_boolean x).
Proof. exact (held_kind I w H x F). Qed.
Print Assumptions c61_kind.

(** is_zero and is_one decide whether the function is constantly false, constantly true; value gives a number
    exactly if the function is constantly that number. *)
Theorem c61_constants I w H x F : mdd_held I w H → (x, Some F) ∈ H →
  ∃ z o, g_is_zero w x = Some z ∧ g_is_one w x = Some o ∧
    (z = true ↔ always (declared w) F (VB false)) ∧ (o = true ↔ always (declared w) F (VB true)) ∧
    ∃ v, g_const w x = Some v ∧ ∀ k, v = Some k ↔ always (declared w) F (VI (VVal k)).
Proof. exact (held_consts I w H x F). Qed.
Print Assumptions c61_constants.

(** get_level and get_label give the variable declared last among those the function depends on, and nothing
    exactly for a constant; get_header gives the same number as get_level. *)
Theorem c61_top I w H x F : mdd_held I w H → (x, Some F) ∈ H →
  (∀ l, g_level w x = Some l ↔ ∃ s, mtop_var (declared w) F l s) ∧
  (∀ s, g_label w x = Some s ↔ ∃ l, mtop_var (declared w) F l s) ∧
  (g_level w x = None ↔ mconstant (declared w) F) ∧ (g_label w x = None ↔ mconstant (declared w) F) ∧
  g_header w x = g_level w x.
Proof. exact (held_mtop I w H x F). Qed.
Print Assumptions c61_top.

(** A function depends on declared variables only. *)
Theorem c61_declared I w H x F s : mdd_held I w H → (x, Some F) ∈ H → mneeds (declared w) F s → s ∈ (declared w).*1.
Proof. exact (λ Hm Hx, held_mneeds I w H x F Hm Hx s). Qed.
Print Assumptions c61_declared.

(** get_children gives one cofactor for each state of the top variable, not all the same; creating a node from the
    header and the children gives the handle back. *)
Theorem c61_children I w H x F : mdd_held I w H → (x, Some F) ∈ H →
  (mconstant (declared w) F → g_children w x = Some (w, None)) ∧
  ∀ s, g_label w x = Some s → ∃ w' xs, g_children w x = Some (w', Some xs) ∧ (¬ ∃ y, Forall (eq y) xs) ∧
    (∃ n, (s, n) ∈ declared w ∧ length xs = n) ∧
    mdd_held I w' (imap (λ i y, (y, Some (λ e, F (menv_set e s i)))) xs ++ H) ∧
    ∃ h w'', g_header w x = Some h ∧ g_create_node w' h xs = Some (w'', x).
Proof. exact (held_mchildren I w H x F). Qed.
Print Assumptions c61_children.

(** get_node compares as the functions do, and so does get_id for handles of the same kind. *)
Theorem c61_eq I w H x F y G : mdd_held I w H → (x, Some F) ∈ H → (y, Some G) ∈ H →
  (g_same x y = true ↔ ∀ e, states (declared w) e → F e = G e) ∧
  (g_is_boolean x = g_is_boolean y → g_id x = g_id y ↔ ∀ e, states (declared w) e → F e = G e).
Proof.
  intros Hm Hx Hy. assert (Heq : x = y ↔ ∀ e, states (declared w) e → F e = G e).
  { pose proof (held_gok I w H Hm) as Hk. setoid_rewrite states_mrange.
    exact (mden_eq I w H x F y G Hk (gk_held _ _ _ Hk _ _ Hx) (gk_held _ _ _ Hk _ _ Hy)). }
  split; [unfold g_same; by rewrite bool_decide_eq_true|]. intros Hb. rewrite <- Heq. destruct x, y; cbn in *; naive_solver.
Qed.
Print Assumptions c61_eq.

(** The variables with an entry in bmeas (C33) are those the function depends on. *)
Theorem c61_occurs I w H x F s : mdd_held I w H → (x, Some F) ∈ H → m_occurs w x s ↔ mneeds (declared w) F s.
Proof. exact (λ Hm Hx, held_occurs I w H x F Hm Hx s). Qed.
Print Assumptions c61_occurs.

(** x (three states) + y (two states), and (x + y) >= 2 *)
Definition ex_look : option (mmgr * mnode * mnode) :=
  '(w, x) ← g_defvar g_new "x" 3; '(w, y) ← g_defvar w "y" 2;
  '(w, f) ← g_bin (mm_bin i32_checked (OArith VAdd)) w x y;
  '(w, t) ← g_value w 2; '(w, g) ← g_bin (mm_bin i32_checked (OCmp Gte)) w f t;
  Some (w, f, g).
Example c61_ex : (r ← ex_look; let '(w, f, g) := r in
    '(w', cs) ← g_children w f; cs ← cs; '(w'', f') ← g_create_node w' 1 cs;
    '(w3, z) ← g_bin (mm_bin i32_checked (OArith VSub)) w'' f f;
    Some (g_level w f, g_label w g, g_header w g, (length cs, g_same f f'), (g_const w3 z, g_level w3 z, g_is_zero w3 z, g_is_boolean g))) =
  Some (Some 1, Some "y"%string, Some 1, (2, true), (Some (Some 0%Z), None, Some false, true)).
Proof. vm_compute. done. Qed.
Example c61_ex_needs : mtop_var [("x"%string, 3); ("y"%string, 2)] (λ e : menv, VI (VVal (Z.of_nat (e "x"%string + e "y"%string)))) 1 "y".
Proof.
  unfold mtop_var. sp; [done| |].
  - exists (λ _, 0), 0, 1. sp; [..|by vm_compute]; intros s n Hs; unfold menv_set; case_decide; set_solver by lia.
  - intros l' y Hl _. apply lookup_lt_Some in Hl. cbn in Hl. lia.
Qed.

(** ** C62 *)
(** is_undet would tell whether the function is constantly undetermined; it does not: it is false for the handle
    that undet_value returns. *)
Theorem c62_undet_refuted : ∃ I w H x F, mdd_held I w H ∧ (x, Some F) ∈ H ∧ always (declared w) F (VI VUndet) ∧ g_is_undet w x = Some false.
Proof.
  assert (Hs : match g_undet_value g_new with Some _ => true | None => false end = true) by (vm_compute; reflexivity).
  destruct (g_undet_value g_new) as [[w x]|] eqn:E; [|done].
  pose proof (dh_step _ _ _ _ _ (dh_new i32_checked) (ds_undet_value _ _ _ _ _ E)) as Hm.
  eexists i32_checked, w, _, x, _. sp; [exact Hm|left|done|]. exact (held_not_undet _ _ _ _ _ Hm ltac:(left)).
Qed.
Print Assumptions c62_undet_refuted.
(** What it does tell: false for every handle whose values are promised, whatever they are. *)
Theorem c62_undet_partial I w H x F : mdd_held I w H → (x, Some F) ∈ H → g_is_undet w x = Some false.
Proof. exact (held_not_undet I w H x F). Qed.
Print Assumptions c62_undet_partial.

(** get_id2 would be different for different functions; it is not: the undetermined value and false share (0, 0). *)
Theorem c62_id2_refuted : ∃ I w H x F y G, mdd_held I w H ∧ (x, Some F) ∈ H ∧ (y, Some G) ∈ H ∧ g_id2 x = g_id2 y ∧
  ∀ e, F e ≠ G e.
Proof.
  assert (Hid : ('(w, x) ← g_undet_value g_new; '(w, y) ← g_boolean w false; Some (g_id2 x, g_id2 y)) = Some ((0, 0), (0, 0))) by (vm_compute; reflexivity).
  destruct (g_undet_value g_new) as [[w x]|] eqn:E; [|done]. cbn [mbind option_bind] in Hid.
  pose proof (dh_step _ _ _ _ _ (dh_new i32_checked) (ds_undet_value _ _ _ _ _ E)) as Hm.
  destruct (g_boolean w false) as [[w' y]|] eqn:E'; [|done]. cbn [mbind option_bind] in Hid. apply (inj Some), pair_equal_spec in Hid as [H1 H2].
  pose proof (dh_step _ _ _ _ _ Hm (ds_boolean _ _ _ _ _ _ E')) as Hm'.
  eexists i32_checked, w', _, x, _, y, _. sp; [exact Hm'|right; left|left|congruence|done].
Qed.
Print Assumptions c62_id2_refuted.
(** It is if neither of the numbers is 0. *)
Theorem c62_id2_partial I w H x F y G : mdd_held I w H → (x, Some F) ∈ H → (y, Some G) ∈ H → g_id x ≠ 0 → g_id y ≠ 0 →
  g_id2 x = g_id2 y ↔ ∀ e, states (declared w) e → F e = G e.
Proof.
  intros Hm Hx Hy H1 H2. rewrite <- (proj1 (c61_eq I w H x F y G Hm Hx Hy)). unfold g_same. rewrite bool_decide_eq_true.
  destruct x, y; cbn in *; naive_solver.
Qed.
Print Assumptions c62_id2_partial.
Example c62_ex : (r ← ex_look; let '(w, f, g) := r in Some (g_id2 f, g_id2 g, g_is_undet w f)) = Some ((8, 0), (0, 8), Some false).
Proof. vm_compute. done. Qed.
