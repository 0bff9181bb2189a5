(** C74: an operation leaves no garbage. *)
From stdpp Require Import strings.
From Verif Require Import Prelude Arena Bdd Zdd Mdd MtMdd MtMdd2 SpecBdd SpecZdd SpecMdd SpecTidy TidyMain TidyMain2 TidyMain3 MmMain.
From Verif Require PropsBdd PropsZdd PropsMdd.
Local Open Scope string_scope.

Theorem c74_bdd m c m' r : bdd_reachable m → bdd_legal m c → bdd_direct c → bdd_exec m c = Some (m', r) →
  only_adds (b_ar m) (b_ar m') [r] ∧ grows_by_result (b_ar m) (b_ar m') r.
Proof. exact (bdd_no_garbage m c m' r). Qed.
Print Assumptions c74_bdd.
Theorem c74_zdd m c m' r : zdd_reachable m → zdd_legal m c → zdd_direct c → zdd_exec m c = Some (m', r) →
  only_adds (z_ar m) (z_ar m') [r] ∧ grows_by_result (z_ar m) (z_ar m') r.
Proof. exact (zdd_no_garbage m c m' r). Qed.
Print Assumptions c74_zdd.
Theorem c74_mdd m c m' r : mdd_reachable m → mdd_legal m c → mdd_direct c → mdd_exec m c = Some (m', r) →
  only_adds (d_ar m) (d_ar m') [r] ∧ grows_by_result (d_ar m) (d_ar m') r.
Proof. exact (mdd_no_garbage m c m' r). Qed.
Print Assumptions c74_mdd.
Theorem c74_mtmdd I m c m' r : mt_reachable I m → mt_legal m c → mt_direct c → mt_exec I m c = Some (m', r) →
  only_adds (t_ar m) (t_ar m') [r] ∧ grows_by_result (t_ar m) (t_ar m') r.
Proof. exact (mt_no_garbage I m c m' r). Qed.
Print Assumptions c74_mtmdd.

(** So a collection straight after a direct call, from a manager that held nothing superfluous, frees nothing. *)
Theorem c74_bdd_collect m c m' r roots : bdd_reachable m → bdd_legal m c → bdd_direct c → bdd_exec m c = Some (m', r) →
  Forall (bdd_valid m) roots → all_needed (b_ar m) [bdd_zero; bdd_one; bdd_undet] roots →
  ∃ m'' n, bdd_gc m' (r :: roots) = Some (m'', n) ∧ ∀ id, bdd_valid m'' id ↔ bdd_valid m' id.
Proof. exact (bdd_nothing_to_collect m c m' r roots). Qed.
Print Assumptions c74_bdd_collect.
Theorem c74_zdd_collect m c m' r roots : zdd_reachable m → zdd_legal m c → zdd_direct c → zdd_exec m c = Some (m', r) →
  Forall (zdd_valid m) roots → all_needed (z_ar m) [zdd_zero; zdd_one; zdd_undet] roots →
  ∃ m'' n, zdd_gc m' (r :: roots) = Some (m'', n) ∧ ∀ id, zdd_valid m'' id ↔ zdd_valid m' id.
Proof. exact (zdd_nothing_to_collect m c m' r roots). Qed.
Print Assumptions c74_zdd_collect.
Theorem c74_mdd_collect m c m' r roots : mdd_reachable m → mdd_legal m c → mdd_direct c → mdd_exec m c = Some (m', r) →
  Forall (node_valid (d_ar m)) roots → all_needed (d_ar m) [mdd_zero; mdd_one; mdd_undet] roots →
  ∃ m'' n, mdd_gc m' (r :: roots) = Some (m'', n) ∧ ∀ id, node_valid (d_ar m'') id ↔ node_valid (d_ar m') id.
Proof. exact (mdd_nothing_to_collect m c m' r roots). Qed.
Print Assumptions c74_mdd_collect.
Theorem c74_mtmdd_collect I m c m' r roots : mt_reachable I m → mt_legal m c → mt_direct c → mt_exec I m c = Some (m', r) →
  Forall (node_valid (t_ar m)) roots → all_needed (t_ar m) [mt_undet] roots →
  ∃ m'' n, mt_gc m' (r :: roots) = Some (m'', n) ∧ ∀ id, node_valid (t_ar m'') id ↔ node_valid (t_ar m') id.
Proof. exact (mt_nothing_to_collect I m c m' r roots). Qed.
Print Assumptions c74_mtmdd_collect.

(** imp, nand, nor and xnor leave the one intermediate diagram [t] behind, and nothing else. *)
Theorem c74_bdd_derived m c f g c1 m1 t m' r : bdd_reachable m → bdd_valid m f → bdd_valid m g → derived c f g = Some c1 →
  bdd_exec m c1 = Some (m1, t) → bdd_conn c m f g = Some (m', r) → only_adds (b_ar m) (b_ar m') [t; r].
Proof. exact (bdd_derived m c f g c1 m1 t m' r). Qed.
Print Assumptions c74_bdd_derived.
Theorem c74_mdd_derived m c f g c1 m1 t m' r : mdd_reachable m → node_valid (d_ar m) f → node_valid (d_ar m) g → mderived c f g = Some c1 →
  mdd_exec m c1 = Some (m1, t) → mdd_conn c m f g = Some (m', r) → only_adds (d_ar m) (d_ar m') [t; r].
Proof. exact (mdd_derived m c f g c1 m1 t m' r). Qed.
Print Assumptions c74_mdd_derived.

(** The combined manager: comparisons add nodes to the boolean forest only, vif and ite on values to the value forest only. *)
Theorem c74_combined I m c m' r : mm_reachable I m → mm_legal m c → mm_result I m c = Some (m', r) →
  mm_only_adds m m' r ∧ mm_grows_by_result m m' r.
Proof. intros Hm. exact (mm_no_garbage I m c m' r (mm_reachable_wf I m Hm)). Qed.
Print Assumptions c74_combined.
Theorem c74_combined_collect I m c m' r roots : mm_reachable I m → mm_legal m c → mm_result I m c = Some (m', r) →
  Forall (mm_valid m) roots → mm_all_needed m roots →
  ∃ m'' n, mm_gc m' (r :: roots) = Some (m'', n) ∧ ∀ x, mm_valid m'' x ↔ mm_valid m' x.
Proof. intros Hm. exact (mm_nothing_to_collect I m c m' r roots (mm_reachable_wf I m Hm)). Qed.
Print Assumptions c74_combined_collect.

(** ** Examples *)
(** or of x0 & x1 with x2 & x0: live nodes before and after, before and after the collection keeping all roots *)
Example c74_ex_bdd : (m ← bdd_run bdd_new [CHeader 0 "x0"; CHeader 1 "x1"; CHeader 2 "x2"; CNode 0 0 1; CNode 1 0 3; CNode 2 0 3];
    '(m', r) ← bdd_or m 4 5; '(m'', n) ← bdd_gc m' [r; 4; 5];
    Some (bool_decide (bdd_legal m (CConn Or 4 5)), bdd_live_node_count m, bdd_live_node_count m', bdd_live_node_count m'', n)) =
  Some (true, 6, 7, 7, 0).
Proof. vm_compute. done. Qed.
(** nand of the same leaves the intermediate x0 & x1 & x2 *)
Example c74_ex_nand : (m ← bdd_run bdd_new [CHeader 0 "x0"; CHeader 1 "x1"; CHeader 2 "x2"; CNode 0 0 1; CNode 1 0 3; CNode 2 0 3];
    '(m1, t) ← bdd_and m 4 5; '(m', r) ← bdd_nand m 4 5; '(m'', n) ← bdd_gc m' [r; 4; 5]; '(m3, n3) ← bdd_gc m' [t; r; 4; 5];
    Some (bdd_live_node_count m, bdd_live_node_count m', bdd_live_node_count m'', bdd_live_node_count m3, n)) =
  Some (6, 10, 9, 10, 1).
Proof. vm_compute. done. Qed.
(** set difference is direct; the product leaves intermediate families *)
Example c74_ex_zdd : (m ← zdd_run zdd_new (take 7 PropsZdd.ex_zcalls); '(m0, k0) ← zdd_gc m [6; 5];
    '(m', r) ← zdd_union m0 6 5; '(m'', n) ← zdd_gc m' [r; 6; 5];
    Some (zdd_live_node_count m', zdd_live_node_count m'')) = Some (7, 7).
Proof. vm_compute. done. Qed.
Example c74_ex_product : (m ← zdd_run zdd_new [ZHeader 0 "x0"; ZHeader 1 "x1"; ZHeader 2 "x2"; ZNode 0 1 1; ZNode 1 0 1; ZNode 2 4 3];
    '(mp, p) ← zdd_product m 5 5; '(mq, k) ← zdd_gc mp [p; 5]; Some (zdd_live_node_count m, zdd_live_node_count mp, zdd_live_node_count mq)) = Some (6, 9, 8).
Proof. vm_compute. done. Qed.
Example c74_ex_mdd : (m ← mdd_run mdd_new PropsMdd.ex_mdd; '(m', r) ← mdd_replace m 5 4; '(m'', n) ← mdd_gc m' [r; 3; 4; 5];
    Some (mdd_live_node_count m, mdd_live_node_count m', mdd_live_node_count m'', n)) = Some (6, 9, 9, 0).
Proof. vm_compute. done. Qed.
Example c74_ex_mtmdd : (m ← mt_run i32_checked mt_new PropsMdd.ex_mt; '(m', r) ← mt_bin i32_checked VMul m 5 6; '(m'', n) ← mt_gc m' [r; 5; 6];
    Some (mt_live_node_count m, mt_live_node_count m', mt_live_node_count m'', n)) = Some (7, 12, 12, 0).
Proof. vm_compute. done. Qed.
(** x < 1 over a two-state x: one boolean node; x >= 1 leaves the intermediate x < 1 *)
Example c74_ex_combined : (m ← mm_run i32_checked mm_new PropsMdd.ex_mm; '(m', r) ← mm_cmp Lt m (NVal 3) (NVal 2);
    '(m'', n) ← mm_gc m' [r; NVal 3; NVal 2]; '(k, s) ← mm_cmp Gte m (NVal 3) (NVal 2); '(k', _) ← mm_gc k [s; NVal 3; NVal 2];
    Some (mm_live_node_count m, mm_live_node_count m', mm_live_node_count m'', mm_live_node_count k, mm_live_node_count k')) = Some (7, 8, 8, 9, 8).
Proof. vm_compute. done. Qed.
