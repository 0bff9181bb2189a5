(** C76: if-then-else against the formula it replaced (binary and multi-state managers). *)
From Coq Require Import String.
From Verif Require Import Prelude ComputeCache Arena Bdd Mdd MtMdd MtMdd2 SpecBdd BddMain SpecMdd MddMain MmMain.
From Verif Require Import PropsMdd SpecIte IteProofs IteProofsM.

(** ** BDD manager *)
(** For operands that are nowhere undetermined, ite and the formula are the same node. *)
Theorem c76_bdd_partial m f g h : bdd_reachable m → bdd_levels_distinct m →
  bdd_valid m f → bdd_valid m g → bdd_valid m h →
  (∀ rho id, id ∈ [f; g; h] → ¬ bdd_value m rho id TUndet) →
  ∃ m1 r m2, bdd_ite m f g h = Some (m1, r) ∧ bdd_if_formula m1 f g h = Some (m2, r).
Proof. exact (λ Hm, bdd_ite_formula m f g h (reachable_wf _ Hm)). Qed.
Print Assumptions c76_bdd_partial.

(** variables x, y, z at levels 0, 1, 2; "if z then y else x" is node 6 either way *)
Definition ex_ite : list bdd_call :=
  [CHeader 0 "x"; CHeader 1 "y"; CHeader 2 "z"; CNode 0 0 1; CNode 1 0 1; CNode 2 0 1].
Example c76_bdd_ex : (m ← bdd_run bdd_new ex_ite; '(m1, r) ← bdd_ite m 5 4 3; '(m2, s) ← bdd_if_formula m1 5 4 3;
    Some (bool_decide (bdd_levels_distinct m), r, s)) = Some (true, 6, 6).
Proof. vm_compute. done. Qed.

(** With undetermined operands they differ: "if x then true else undetermined" is true where x holds, the formula is undetermined there;
    "if undetermined then false else false" is undetermined, the formula is false. *)
Theorem c76_bdd_refuted : ∃ m f g h m1 r m2 s rho, bdd_reachable m ∧ bdd_levels_distinct m ∧
  bdd_valid m f ∧ bdd_valid m g ∧ bdd_valid m h ∧ (∀ rho, ¬ bdd_value m rho f TUndet) ∧
  bdd_ite m f g h = Some (m1, r) ∧ bdd_if_formula m1 f g h = Some (m2, s) ∧
  bdd_value m1 rho r TOne ∧ bdd_value m2 rho s TUndet.
Proof.
  assert (H : (m ← bdd_run bdd_new ex_ite; '(m1, r) ← bdd_ite m 3 1 2; '(m2, s) ← bdd_if_formula m1 3 1 2;
      Some (bool_decide (bdd_levels_distinct m ∧ bdd_valid m 3 ∧ bdd_valid m 1 ∧ bdd_valid m 2),
            take 4 (ar_nodes (b_ar m)), ar_nodes (b_ar m1) !! r, ar_nodes (b_ar m1) !! 1, h_level <$> ar_headers (b_ar m1) !! 0,
            ar_nodes (b_ar m2) !! s)) =
    Some (true, [Term TZero; Term TOne; Term TUndet; NT 0 [0; 1]], Some (NT 0 [2; 1]), Some (Term TOne), Some 0, Some (Term TUndet)))
    by (vm_compute; reflexivity).
  destruct (bdd_run bdd_new ex_ite) as [m|] eqn:E; [|done]. cbn [mbind option_bind] in H.
  destruct (bdd_ite m 3 1 2) as [[m1 r]|] eqn:E1; [|done]. cbn [mbind option_bind] in H.
  destruct (bdd_if_formula m1 3 1 2) as [[m2 s]|] eqn:E2; [|done]. cbn [mbind option_bind] in H.
  injection H as H0 H1 M5 M1 Mh H3. rewrite bool_decide_eq_true in H0. destruct H0 as (? & ? & ? & ?).
  assert (Hn4 : ∀ i, i < 4 → ar_nodes (b_ar m) !! i = [Term TZero; Term TOne; Term TUndet; NT 0 [0; 1]] !! i).
  { intros i Hi. by rewrite <- H1, lookup_take. }
  pose proof (Hn4 3 ltac:(lia)) as N3. pose proof (Hn4 0 ltac:(lia)) as N0. pose proof (Hn4 1 ltac:(lia)) as N1. cbn in N3, N0, N1.
  exists m, 3, 1, 2, m1, r, m2, s, (λ _, true). sp; try done.
  - eexists; eassumption.
  - intros rho Hv. inversion Hv as [? ? Hn|? h lo hi hd ? Hn Hh Hv']; subst; [congruence|]. rewrite N3 in Hn. injection Hn as <- <- <-.
    destruct (rho (h_level hd)); inversion Hv' as [? ? Hn|? ? ? ? ? ? Hn]; congruence.
  - destruct (ar_headers (b_ar m1) !! 0) as [hd|] eqn:Hh; [|done]. eapply bv_node; [exact M5|exact Hh|]. by apply bv_term.
  - by apply bv_term.
Qed.
Print Assumptions c76_bdd_refuted.

(** ** MDD manager *)
Theorem c76_mdd_partial m f g h : mdd_reachable m → levels_distinct (d_ar m) →
  node_valid (d_ar m) f → node_valid (d_ar m) g → node_valid (d_ar m) h →
  (∀ rho id, in_range (d_ar m) rho → id ∈ [f; g; h] → ¬ node_value (d_ar m) rho id TUndet) →
  ∃ m1 r m2, mdd_ite m f g h = Some (m1, r) ∧ mdd_if_formula m1 f g h = Some (m2, r).
Proof. exact (λ Hm, mdd_ite_formula m f g h (mreachable_wf _ Hm)). Qed.
Print Assumptions c76_mdd_partial.

(** x with 3 states, y with 2: "if x = 1 then y > 0 else y = 0" *)
Example c76_mdd_ex : (m ← mdd_run mdd_new [DHeader 0 "x" 3; DHeader 1 "y" 2; DNode 0 [0; 1; 0]; DNode 1 [0; 1]; DNode 1 [1; 0]];
    '(m1, r) ← mdd_ite m 3 4 5; '(m2, s) ← mdd_if_formula m1 3 4 5;
    Some (bool_decide (levels_distinct (d_ar m)), bool_decide (3 < r), bool_decide (r = s))) = Some (true, true, true).
Proof. vm_compute. done. Qed.

(** With an undetermined operand they differ, even when the condition is the constant true: "if true then true else undetermined" is
    true, the formula is undetermined. *)
Theorem c76_mdd_refuted : ∃ m f g h m1 r m2 s, mdd_reachable m ∧ levels_distinct (d_ar m) ∧
  node_valid (d_ar m) f ∧ node_valid (d_ar m) g ∧ node_valid (d_ar m) h ∧
  mdd_ite m f g h = Some (m1, r) ∧ mdd_if_formula m1 f g h = Some (m2, s) ∧
  ∀ rho, node_value (d_ar m) rho f TOne ∧ node_value (d_ar m1) rho r TOne ∧ node_value (d_ar m2) rho s TUndet.
Proof.
  assert (H : ('(m1, r) ← mdd_ite mdd_new 1 1 2; '(m2, s) ← mdd_if_formula m1 1 1 2;
      Some (ar_nodes (d_ar m1) !! r, ar_nodes (d_ar m2) !! s)) = Some (Some (Term TOne), Some (Term TUndet))) by (vm_compute; reflexivity).
  destruct (mdd_ite mdd_new 1 1 2) as [[m1 r]|] eqn:E1; [|done]. cbn [mbind option_bind] in H.
  destruct (mdd_if_formula m1 1 1 2) as [[m2 s]|] eqn:E2; [|done]. cbn [mbind option_bind] in H.
  injection H as H0 H1.
  exists mdd_new, 1, 1, 2, m1, r, m2, s. sp; try done.
  - by exists [].
  - constructor.
  - split; [cbn; lia|apply not_elem_of_nil].
  - split; [cbn; lia|apply not_elem_of_nil].
  - split; [cbn; lia|apply not_elem_of_nil].
  - intros rho. sp; by apply nv_term.
Qed.
Print Assumptions c76_mdd_refuted.

(** ** Combined manager: the value if-then-else, for a condition that is nowhere undetermined; the branches may be *)
Theorem c76_value_partial I m f g h : mm_reachable I m → levels_distinct (t_ar (mm_v m)) →
  mm_valid m (NBool f) → mm_valid m (NVal g) → mm_valid m (NVal h) →
  (∀ rho, mm_range m rho → ¬ mm_bool m rho (NBool f) TUndet) →
  ∃ m1 r m2, mm_ite m (NBool f) (NVal g) (NVal h) = Some (m1, r) ∧ mm_if_formula I m1 f g h = Some (m2, r).
Proof. exact (λ Hm, mm_ite_formula I m f g h (mm_reachable_wf _ _ Hm)). Qed.
Print Assumptions c76_value_partial.

(** x with 2 states: node 3 of the boolean forest is "x = 1", node 3 of the value forest is x (values 0 and 1), undetermined is node 0 *)
Definition ex_vite : list mm_call :=
  [XHeader 0 "x" 2; XValue 0; XValue 1; XNode 0 [NVal 1; NVal 2]; XNode 0 [NBool 0; NBool 1]; XNode 0 [NBool 2; NBool 1]].
Example c76_value_ex : (m ← mm_run i32_checked mm_new ex_vite;
    '(m1, r) ← mm_ite m (NBool 3) (NVal 2) (NVal 0); '(m2, s) ← mm_if_formula i32_checked m1 3 2 0;
    Some (bool_decide (levels_distinct (t_ar (mm_v m))), r, s)) = Some (true, NVal 4, NVal 4).
Proof. vm_compute. done. Qed.

(** With a condition that is undetermined at x = 0 and true at x = 1: "if c then 1 else 1" is 1 at x = 0, the formula undetermined. *)
Theorem c76_value_refuted : ∃ m f g h m1 r m2 s rho, mm_reachable i32_checked m ∧ levels_distinct (t_ar (mm_v m)) ∧
  mm_valid m (NBool f) ∧ mm_valid m (NVal g) ∧ mm_valid m (NVal h) ∧
  mm_ite m (NBool f) (NVal g) (NVal h) = Some (m1, r) ∧ mm_if_formula i32_checked m1 f g h = Some (m2, s) ∧
  mm_bool m rho (NBool f) TUndet ∧ mm_int m1 rho r (VVal 1) ∧ mm_int m2 rho s VUndet.
Proof.
  assert (H : (m ← mm_run i32_checked mm_new ex_vite;
      '(m1, r) ← mm_ite m (NBool 4) (NVal 2) (NVal 2); '(m2, s) ← mm_if_formula i32_checked m1 4 2 2;
      Some (bool_decide (levels_distinct (t_ar (mm_v m)) ∧ mm_valid m (NBool 4) ∧ mm_valid m (NVal 2)),
            ar_nodes (d_ar (mm_b m)) !! 4, ar_nodes (d_ar (mm_b m)) !! 2, h_level <$> ar_headers (d_ar (mm_b m)) !! 0,
            r, ar_nodes (t_ar (mm_v m1)) !! 2, s, walk (t_ar (mm_v m2)) (λ _, 0) 9 (node_id s))) =
    Some (true, Some (NT 0 [2; 1]), Some (Term TUndet), Some 0, NVal 2, Some (Term (VVal 1)), NVal 4, Some VUndet)) by (vm_compute; reflexivity).
  destruct (mm_run i32_checked mm_new ex_vite) as [m|] eqn:E; [|done]. cbn [mbind option_bind] in H.
  destruct (mm_ite m (NBool 4) (NVal 2) (NVal 2)) as [[m1 r]|] eqn:E1; [|done]. cbn [mbind option_bind] in H.
  destruct (mm_if_formula i32_checked m1 4 2 2) as [[m2 s]|] eqn:E2; [|done]. cbn [mbind option_bind] in H.
  injection H as H0 N4 N2 Hh -> M2 -> K. rewrite bool_decide_eq_true in H0. destruct H0 as (? & ? & ?).
  exists m, 4, 2, 2, m1, (NVal 2), m2, (NVal 4), (λ _, 0). sp; try done.
  - eexists; eassumption.
  - destruct (ar_headers (d_ar (mm_b m)) !! 0) as [hd|] eqn:Hd; [|done].
    exists 4. split; [done|]. eapply nv_node; [exact N4|exact Hd|done|]. by apply nv_term.
  - exists 2. split; [done|]. by apply nv_term.
  - exists 4. split; [done|]. exact (walk_value _ (λ _, 0) 9 4 _ K).
Qed.
Print Assumptions c76_value_refuted.
