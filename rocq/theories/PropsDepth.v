(** C94: how deep the recursions nest. *)
From Coq Require Import String.
From stdpp Require Import strings.
From Verif Require Import Prelude ComputeCache Arena Bdd BssAlg Zdd ZddAlg Mdd MtMdd MtMdd2 Zmdd ZmddAlg MssAlg MddMinsol MssConv
  SpecBdd SpecZdd SpecMdd SpecZmdd SpecBss SpecMinsol SpecDepth Depth BddMain ZddMain MddMain MmMain.
From Verif Require Import ZmddMain PropsBdd PropsZdd PropsMdd PropsZmdd PropsBss PropsMinsol PropsMssAlg.
From Verif Require Import BssMgr SpecBssMgr BssMgrProofs BssMgrMain MssMgr SpecMss SpecMssAlg MssMgrProofs MssRpn MmProofs.

Local Ltac at_bound m := let E := fresh "E" in intros E; eapply nests_of; [intros; by apply m | exact E].

(** *** The operations of the five managers *)
Theorem c94_bdd m f g h : bdd_reachable m → bdd_valid m f → bdd_valid m g → bdd_valid m h →
  let d := S (levels (b_ar m)) in
  nests (λ n, bdd_not_f n m f) d ∧ nests (λ n, bdd_and_f n m f g) d ∧ nests (λ n, bdd_or_f n m f g) d ∧
  nests (λ n, bdd_xor_f n m f g) d ∧ nests (λ n, bdd_ite_f n m f g h) d.
Proof.
  intros Hm Hf Hg Hh d.
  destruct (c02_not m f Hm Hf) as (? & ? & H1 & _). destruct (c03_ite m f g h Hm Hf Hg Hh) as (? & ? & H5 & _).
  destruct (c02_connectives m And f g Hm Hf Hg) as (? & ? & H2 & _).
  destruct (c02_connectives m Or f g Hm Hf Hg) as (? & ? & H3 & _).
  destruct (c02_connectives m Xor f g Hm Hf Hg) as (? & ? & H4 & _).
  sp; [revert H1; at_bound not_mono | revert H2; at_bound and_mono | revert H3; at_bound or_mono | revert H4; at_bound xor_mono
    | revert H5; at_bound ite_mono].
Qed.
Print Assumptions c94_bdd.

Theorem c94_zdd m f g : zdd_reachable m → zdd_valid m f → zdd_valid m g →
  let d := S (levels (z_ar m)) in
  nests (λ n, zdd_union_f n m f g) d ∧ nests (λ n, zdd_intersect_f n m f g) d ∧ nests (λ n, zdd_setdiff_f n m f g) d ∧
  nests (λ n, zdd_product_f n m f g) d ∧ nests (λ n, zdd_divide_f n m f g) d.
Proof.
  intros Hm Hf Hg d.
  assert (H : ∀ o, ∃ r, zdd_op o m f g = Some r).
  { intros o. destruct (zframe_l m (SpecZdd.ZOp o f g) Hm (conj Hf Hg)) as (m' & r & E & _); [done |]. exists (m', r). exact E. }
  destruct (H Zdd.ZUnion) as (? & H1), (H Zdd.ZIntersect) as (? & H2), (H Zdd.ZSetdiff) as (? & H3), (H Zdd.ZProduct) as (? & H4), (H Zdd.ZDivision) as (? & H5).
  sp; [revert H1; at_bound zunion_mono | revert H2; at_bound zinter_mono | revert H3; at_bound zdiff_mono | revert H4; at_bound zprod_mono
    | revert H5; at_bound zdiv_mono].
Qed.
Print Assumptions c94_zdd.

Theorem c94_mdd m f g h : mdd_reachable m → node_valid (d_ar m) f → node_valid (d_ar m) g → node_valid (d_ar m) h →
  let d := S (levels (d_ar m)) in
  nests (λ n, mdd_not_f n m f) d ∧ (∀ o, o ∈ [MAnd; MOr; MXOr; MReplace] → nests (λ n, mdd_bin_f o n m f g) d) ∧ nests (λ n, mdd_ite_f n m f g h) d.
Proof.
  intros Hm Hf Hg Hh d.
  destruct (c25_not m f Hm Hf) as (? & ? & H1 & _). destruct (c25_ite m f g h Hm Hf Hg Hh) as (? & ? & H3 & _).
  sp; [revert H1; at_bound mnot_mono | | revert H3; at_bound mite_mono].
  intros o Ho. assert (H2 : ∃ r, mdd_bin_f o d m f g = Some r).
  { repeat (apply elem_of_cons in Ho as [-> | Ho]); [| | | | by apply elem_of_nil in Ho].
    - destruct (c25_connectives m And f g Hm Hf Hg) as (m' & r & H2 & _). exists (m', r); exact H2.
    - destruct (c25_connectives m Or f g Hm Hf Hg) as (m' & r & H2 & _). exists (m', r); exact H2.
    - destruct (c25_connectives m Xor f g Hm Hf Hg) as (m' & r & H2 & _). exists (m', r); exact H2.
    - destruct (c25_replace m f g Hm Hf Hg) as (m' & r & H2 & _). exists (m', r); exact H2. }
  destruct H2 as (? & H2). revert H2. at_bound mbin_mono.
Qed.
Print Assumptions c94_mdd.

(** arithmetic: when the call returns (with overflow checks it may panic instead) *)
Theorem c94_mtmdd I m o f g r : mt_bin I o m f g = Some r → nests (λ n, mt_bin_f I o n m f g) (S (levels (t_ar m))).
Proof. at_bound tbin_mono. Qed.
Print Assumptions c94_mtmdd.

Theorem c94_mixed I m f g h c : mm_reachable I m → node_valid (d_ar (mm_b m)) c →
  node_valid (t_ar (mm_v m)) f → node_valid (t_ar (mm_v m)) g →
  (∀ o, nests (λ n, mm_cmp_f o n m f g) (S (levels (t_ar (mm_v m))))) ∧
  nests (λ n, mm_vif_f n m c f) (S (levels (d_ar (mm_b m)))) ∧
  (node_valid (t_ar (mm_v m)) h → nests (λ n, mm_vite_f n m c g h) (S (levels (d_ar (mm_b m))))).
Proof.
  intros Hm Hc Hf Hg. pose proof (mm_reachable_wf I m Hm) as Hw. sp.
  - intros o. destruct (cmp_val I o m f g Hw Hf Hg) as (? & ? & H1 & _). revert H1; at_bound cmp_mono.
  - destruct (mm_vif_l I m c f Hw Hc Hf) as (? & ? & H1 & _). revert H1; at_bound vif_mono.
  - intros Hh. destruct (mm_vite_l I m c g h Hw Hc Hg Hh) as (? & ? & H1 & _). cbn [mm_ite] in H1. unfold as_val, mm_vite_op in H1.
    destruct (mm_vite_f _ m c g h) as [r|] eqn:E; [| done]. revert E; at_bound vite_mono.
Qed.
Print Assumptions c94_mixed.

Theorem c94_zmdd m f g v : zm_reachable m → node_valid (t_ar m) f → node_valid (t_ar m) g →
  let d := S (levels (t_ar m)) in
  nests (λ n, zm_intersect_f n m f g) d ∧ nests (λ n, zm_setdiff_f n m f g) d ∧ nests (λ n, zm_set_baseline_f n m f v) d.
Proof.
  intros Hm Hf Hg d. destruct (c39_intersect m f g Hm Hf Hg) as (? & ? & H1 & _).
  destruct (c39_setdiff m f g Hm Hf Hg) as (? & ? & H2 & _). destruct (zm_base_l' m f v (zm_reachable_wf m Hm) Hf) as (? & ? & H3 & _).
  sp; [revert H1; at_bound zminter_mono | revert H2; at_bound zmdiff_mono | revert H3; at_bound base_mono].
Qed.
Print Assumptions c94_zmdd.

(** *** Analyses of binary systems; a threshold gate nests once per operand *)
Theorem c94_bss m f ss : bss_reachable m → bdd_valid m f →
  let d := S (levels (b_ar m)) in
  nests (λ n, dual_f n m f ∅) d ∧ nests (λ n, bdd_count_f n (b_ar m) ss f ∅) d ∧
  (bdd_levels_distinct m → bdd_determined m f → nests (λ n, minsol_f n m f ∅ ∅) d) ∧
  (∀ k xs, Forall (bdd_valid m) xs →
     nests (λ n, kofn_rec n m xs k 0 (length xs) (replicate ((k + 1) * (length xs + 1)) None)) (S (length xs))).
Proof.
  intros Hm Hf d. destruct (c12_dual m f Hm Hf) as (? & ? & H1 & _). sp.
  - unfold bdd_dual in H1. by eapply nests_bind; [intros; by apply dual_mono | exact H1].
  - destruct (c13_count_defined m ss f _ Hm Hf eq_refl) as (L & Hnd & HL).
    pose proof (c13_count m ss f _ L Hm Hf eq_refl Hnd HL) as H2. unfold bdd_count in H2.
    by eapply nests_bind; [intros; by apply count_mono | exact H2].
  - intros Hd Ht. destruct (c17_minpath m zdd_new f Hm Hd ltac:(by exists []) Hf Ht) as (? & ? & ? & H3 & _).
    unfold minpath in H3. destruct (bdd_minsol m f) as [p|] eqn:E; [| done]. unfold bdd_minsol in E.
    by eapply nests_bind; [intros; by apply minsol_mono | exact E].
  - intros k xs Hx. destruct (c11_kofn m k xs Hm Hx) as (? & ? & H4 & _). unfold kofn in H4.
    by eapply nests_bind; [intros; by apply kofn_mono | exact H4].
Qed.
Print Assumptions c94_bss.

Theorem c94_bss_prob {R : Type} (rO rI : R) (radd rmul rsub : R → R → R) m pv ss f p :
  bdd_prob rO rI radd rmul rsub m pv ss f = Some p → nests (λ n, prob_f rO rI radd rmul rsub n (b_ar m) f pv ss ∅) (S (levels (b_ar m))).
Proof. intros H. by eapply nests_bind; [intros; by apply prob_mono | exact H]. Qed.
Print Assumptions c94_bss_prob.

(** *** Through the managers: the number of levels is the number of declared variables *)
Theorem c94_variables : (∀ w H, bss_held w H → levels (b_ar (w_bdd w)) = size (w_vars w)) ∧
  (∀ I w H, mdd_held I w H → levels (d_ar (mm_b (g_mm w))) = size (g_vars w) ∧ levels (t_ar (mm_v (g_mm w))) = size (g_vars w)).
Proof.
  split.
  - intros w H Hh. pose proof (held_wok w H Hh) as Hk. rewrite (levels_len _ (wk_lvl _ _ Hk)). symmetry. apply (wk_size _ _ Hk).
  - intros I w H Hh. pose proof (held_gok I w H Hh) as Hk. pose proof (gk_wf _ _ _ Hk) as Hw.
    pose proof (mmw_h _ _ Hw) as He.
    assert (E : levels (d_ar (mm_b (g_mm w))) = size (g_vars w)).
    { rewrite (levels_len _ (gk_lvl _ _ _ Hk)). symmetry. apply (gk_size _ _ _ Hk). }
    split; [done |]. unfold levels in *. by rewrite <- He in E.
Qed.
Print Assumptions c94_variables.

(** so an operation on handles nests at most once per declared variable and once more, however many nodes the diagrams have *)
Theorem c94_handles w H f F g G h K : bss_held w H → (f, F) ∈ H → (g, G) ∈ H → (h, K) ∈ H →
  let d := S (size (w_vars w)) in
  nests (λ n, bdd_not_f n (w_bdd w) f) d ∧ nests (λ n, bdd_and_f n (w_bdd w) f g) d ∧ nests (λ n, bdd_or_f n (w_bdd w) f g) d ∧
  nests (λ n, bdd_xor_f n (w_bdd w) f g) d ∧ nests (λ n, bdd_ite_f n (w_bdd w) f g h) d.
Proof.
  intros Hh Hf Hg Hk. cbv zeta. rewrite <- (proj1 c94_variables w H Hh).
  pose proof (held_wok w H Hh) as Hw. pose proof (wk_wf _ _ Hw) as Hb.
  destruct (wk_held _ _ Hw f F Hf) as [Vf _], (wk_held _ _ Hw g G Hg) as [Vg _], (wk_held _ _ Hw h K Hk) as [Vh _].
  destruct (exec_ok _ (CNot f) Hb Vf) as (? & ? & H1 & _).
  destruct (exec_ok _ (CConn And f g) Hb (conj Vf Vg)) as (? & ? & H2 & _).
  destruct (exec_ok _ (CConn Or f g) Hb (conj Vf Vg)) as (? & ? & H3 & _).
  destruct (exec_ok _ (CConn Xor f g) Hb (conj Vf Vg)) as (? & ? & H4 & _).
  destruct (exec_ok _ (CIte f g h) Hb (conj Vf (conj Vg Vh))) as (? & ? & H5 & _).
  sp; [revert H1; at_bound not_mono | revert H2; at_bound and_mono | revert H3; at_bound or_mono | revert H4; at_bound xor_mono
    | revert H5; at_bound ite_mono].
Qed.
Print Assumptions c94_handles.

(** *** Analyses of multi-state systems, whenever they return (C32, C36, C37, C43 and C50 say when); counting goes down level by
    level instead of edge by edge *)
Theorem c94_mss_prob {R : Type} (rO rI : R) (radd rmul : R → R → R) I w H x pv ss p : mdd_held I w H →
  g_prob rO rI radd rmul w x pv ss = Some p →
  let d := S (size (g_vars w)) in
  match x with
  | NVal f => nests (λ n, nprob_f rO rI radd rmul (vhit ss) n (t_ar (mm_v (g_mm w))) pv f ∅) d
  | NBool f => nests (λ n, nprob_f rO rI radd rmul (bhit ss) n (d_ar (mm_b (g_mm w))) pv f ∅) d
  end.
Proof.
  intros Hh Hp. cbv zeta. destruct (proj2 c94_variables I w H Hh) as [E1 E2]. destruct x as [f | f]; [rewrite <- E2 | rewrite <- E1];
    (eapply nests_bind; [intros; by apply nprob_mono | exact Hp]).
Qed.
Print Assumptions c94_mss_prob.

Theorem c94_mss_size I w H x s : mdd_held I w H → g_size w x = Some s →
  let d := S (size (g_vars w)) in
  match x with
  | NVal f => nests (λ n, nsize_f n (t_ar (mm_v (g_mm w))) f ∅) d
  | NBool f => nests (λ n, nsize_f n (d_ar (mm_b (g_mm w))) f ∅) d
  end.
Proof.
  intros Hh Hp. cbv zeta. destruct (proj2 c94_variables I w H Hh) as [E1 E2]. destruct x as [f | f]; [rewrite <- E2 | rewrite <- E1];
    (eapply nests_bind; [intros; by apply nsize_mono | exact Hp]).
Qed.
Print Assumptions c94_mss_size.

Theorem c94_mss_count I w H x ss l c : mdd_held I w H → g_level w x = Some l → g_count w x ss = Some c →
  let d := S (S (size (g_vars w))) in
  match x with
  | NVal f => ∃ t, nests (λ n, ncount_f true (vhit ss) n (t_ar (mm_v (g_mm w))) t (Some l) f ∅) d
  | NBool f => ∃ t, nests (λ n, ncount_f false (bhit ss) n (d_ar (mm_b (g_mm w))) t (Some l) f ∅) d
  end.
Proof.
  intros Hh Hl Hp. cbv zeta. pose proof (held_gok I w H Hh) as Hk. pose proof (mmw_h _ _ (gk_wf _ _ _ Hk)) as He.
  rewrite (gk_size _ _ _ Hk).
  destruct x as [f | f]; cbn [g_level g_count] in *; unfold ncount, nlevel in *.
  - destruct (ar_node_level _ f) as [[l' |] |]; try done. cbn in Hl. injection Hl as ->. cbn [mbind option_bind] in Hp.
    destruct (l2h_table _) as [t |]; [| done]. cbn [mbind option_bind] in Hp. exists t.
    rewrite He in Hp. eapply nests_bind; [intros; by apply ncount_mono | exact Hp].
  - destruct (ar_node_level _ f) as [[l' |] |]; try done. cbn in Hl. injection Hl as ->. cbn [mbind option_bind] in Hp.
    destruct (l2h_table _) as [t |]; [| done]. cbn [mbind option_bind] in Hp. exists t.
    eapply nests_bind; [intros; by apply ncount_mono | exact Hp].
Qed.
Print Assumptions c94_mss_count.

(** minimal path vectors ([top = false]) and maximal cut vectors ([top = true]) *)
Theorem c94_mss_minpath I w H x r : mdd_held I w H → mdd_minsol I (g_mm w) x = Some r →
  let d := S (size (g_vars w)) in
  match x with
  | NVal f => nests (λ n, sol_f (vforest I) false vwithout_arm vsol_leaf n (mm_v (g_mm w), ∅, ∅) f) d
  | NBool f => nests (λ n, sol_f bforest false bwithout_arm bminsol_leaf n (mm_b (g_mm w), ∅, ∅) f) d
  end.
Proof.
  intros Hh Hp. cbv zeta. destruct (proj2 c94_variables I w H Hh) as [E1 E2].
  destruct x as [f | f]; cbn [mdd_minsol] in Hp; unfold sol in Hp; [rewrite <- E2 | rewrite <- E1].
  - destruct (sol_f _ _ _ _ _ _ f) as [q |] eqn:E in Hp; [| done]. eapply nests_of; [intros; by apply sol_mono | exact E].
  - destruct (sol_f _ _ _ _ _ _ f) as [q |] eqn:E in Hp; [| done]. eapply nests_of; [intros; by apply sol_mono | exact E].
Qed.
Print Assumptions c94_mss_minpath.

(** *** Examples *)
(** three variables: the dual of (x0 & x1) | x2 and if-then-else need the four nested calls, and get no other answer with more;
    so does a threshold gate with three operands *)
Example c94_ex_bdd : (m ← bdd_run bdd_new ex_calls;
    Some (levels (b_ar m), map (λ n, (snd <$> dual_f n m 7 ∅, snd <$> bdd_ite_f n m 7 3 4)) [3; 4; 5; 100])) =
  Some (3, [(None, None); (Some 12, Some 11); (Some 12, Some 11); (Some 12, Some 11)]).
Proof. vm_compute. done. Qed.
Example c94_ex_kofn : (m ← bdd_run bdd_new ex_calls;
    Some (map (λ n, snd <$> kofn_rec n m [3; 4; 5] 2 0 3 (replicate 12 None)) [3; 4; 5; 100])) = Some [None; Some 14; Some 14; Some 14].
Proof. vm_compute. done. Qed.
(** x + y >= 1 for two-state x and y (PropsMssAlg): two variables, three calls for the size *)
Example c94_ex_mss : ('(w, x) ← ex_or; match x with NBool f =>
      Some (levels (d_ar (mm_b (g_mm w))), size (g_vars w), map (λ n, snd <$> nsize_f n (d_ar (mm_b (g_mm w))) f ∅) [2; 3; 100])
    | _ => None end) = Some (2, 2, [None; Some (2, 2, 5)%N; Some (2, 2, 5)%N]).
Proof. vm_compute. done. Qed.
