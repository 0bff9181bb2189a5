(** C19 - C22: the ZDD manager. *)
From Coq Require Import String.
From Verif Require Import Prelude Arena Bdd Zdd SpecZdd ZddProofs ZddMain.

(** ** C19 *)
Theorem c19_union m f g : zdd_reachable m → zdd_valid m f → zdd_valid m g → zdd_det m f → zdd_det m g →
  ∃ m' r, zdd_union m f g = Some (m', r) ∧ zdd_valid m' r ∧ zdd_det m' r ∧
    ∀ S, zdd_mem m' r S ↔ zdd_mem m f S ∨ zdd_mem m g S.
Proof. exact (λ Hm Vf Vg Df Dg, zunion_l m f g Hm Vf Vg Df Dg). Qed.
Print Assumptions c19_union.

Theorem c19_setdiff m f g : zdd_reachable m → zdd_valid m f → zdd_valid m g → zdd_det m f → zdd_det m g →
  ∃ m' r, zdd_setdiff m f g = Some (m', r) ∧ zdd_valid m' r ∧ zdd_det m' r ∧
    ∀ S, zdd_mem m' r S ↔ zdd_mem m f S ∧ ¬ zdd_mem m g S.
Proof. exact (λ Hm Vf Vg Df Dg, zsetdiff_l m f g Hm Vf Vg Df Dg). Qed.
Print Assumptions c19_setdiff.

Theorem c19_product m f g : zdd_reachable m → zdd_valid m f → zdd_valid m g → zdd_det m f → zdd_det m g →
  ∃ m' r, zdd_product m f g = Some (m', r) ∧ zdd_valid m' r ∧ zdd_det m' r ∧
    ∀ S, zdd_mem m' r S ↔ ∃ A B, S = A ∪ B ∧ zdd_mem m f A ∧ zdd_mem m g B.
Proof. exact (λ Hm Vf Vg Df Dg, zproduct_l m f g Hm Vf Vg Df Dg). Qed.
Print Assumptions c19_product.

(** ** C20: [intersect] is not the intersection.  [{∅} ∩ {{x}}] comes out as [{{x}}]. *)
Theorem c20_intersect_refuted : ∃ m f g m' r S,
  zdd_reachable m ∧ zdd_valid m f ∧ zdd_valid m g ∧ zdd_det m f ∧ zdd_det m g ∧
  zdd_intersect m f g = Some (m', r) ∧
  zdd_mem m' r S ∧ ¬ zdd_mem m f S.
Proof. exact zintersect_wrong. Qed.
Print Assumptions c20_intersect_refuted.

(** It is the intersection when no member of one family is a proper subset of a member of the other
    (for instance two families drawn from one antichain, such as minimal path sets of equal size).
    Missing: the general case, which is false (above). *)
Theorem c20_intersect_partial m f g :
  zdd_reachable m → zdd_valid m f → zdd_valid m g → zdd_det m f → zdd_det m g →
  (∀ A B, zdd_mem m f A → zdd_mem m g B → A ⊆ B ∨ B ⊆ A → A = B) →
  ∃ m' r, zdd_intersect m f g = Some (m', r) ∧ zdd_valid m' r ∧ zdd_det m' r ∧
    ∀ S, zdd_mem m' r S ↔ zdd_mem m f S ∧ zdd_mem m g S.
Proof. exact (λ Hm Vf Vg Df Dg Hs, zintersect_l m f g Hm Vf Vg Df Dg Hs). Qed.
Print Assumptions c20_intersect_partial.

(** In general it returns exactly the sets [S] of one family for which the other settles: from some level up, what [S] has there
    is itself a member of the other family, and no other member agrees with [S] that far. *)
Theorem c20_intersect_exact m f g :
  zdd_reachable m → zdd_valid m f → zdd_valid m g → zdd_det m f → zdd_det m g →
  ∃ m' r, zdd_intersect m f g = Some (m', r) ∧ zdd_valid m' r ∧ zdd_det m' r ∧
    ∀ S, zdd_mem m' r S ↔
      zdd_mem m g S ∧ settles (zdd_mem m f) S ∨ zdd_mem m f S ∧ settles (zdd_mem m g) S.
Proof. exact (λ Hm Vf Vg Df Dg, zintersect_exact m f g Hm Vf Vg Df Dg). Qed.
Print Assumptions c20_intersect_exact.

(** ** C21: [divide] is not the quotient.  [{{x,y}} / {{y}}] comes out empty instead of [{{x}}]. *)
Theorem c21_divide_refuted : ∃ m f g m' r S,
  zdd_reachable m ∧ zdd_valid m f ∧ zdd_valid m g ∧ zdd_det m f ∧ zdd_det m g ∧ (∃ B, zdd_mem m g B) ∧
  zdd_divide m f g = Some (m', r) ∧
  quotient (zdd_mem m f) (zdd_mem m g) S ∧ ¬ zdd_mem m' r S.
Proof. exact zdivide_wrong. Qed.
Print Assumptions c21_divide_refuted.

(** What holds: it never panics, returns a valid node, disturbs nothing (c22_no_disturbance), and the
    quotient by [{∅}] is right.  Missing: most other divisors (false in general, above). *)
Theorem c21_divide_partial m f : zdd_reachable m → zdd_valid m f →
  ∃ m' r, zdd_divide m f zdd_one = Some (m', r) ∧ zdd_valid m' r ∧
    ∀ S, zdd_mem m' r S ↔ quotient (zdd_mem m f) (zdd_mem m zdd_one) S.
Proof. exact (λ Hm Vf, zdivide_l m f Hm Vf). Qed.
Print Assumptions c21_divide_partial.

(** It is also right for a single set [B] that every member of the dividend extends by levels below all of [B]. *)
Theorem c21_divide_top_partial m f g B :
  zdd_reachable m → zdd_valid m f → zdd_valid m g → zdd_det m f → zdd_det m g →
  (∀ A, zdd_mem m g A ↔ A = B) →
  (∀ A, zdd_mem m f A → B ⊆ A ∧ ∀ x b, x ∈ A → x ∉ B → b ∈ B → x < b) →
  ∃ m' r, zdd_divide m f g = Some (m', r) ∧ zdd_valid m' r ∧ zdd_det m' r ∧
    ∀ S, zdd_mem m' r S ↔ quotient (zdd_mem m f) (zdd_mem m g) S.
Proof. exact (λ Hm Vf Vg Df Dg HB HF, zdivide_top m f g B Hm Vf Vg Df Dg HB HF). Qed.
Print Assumptions c21_divide_top_partial.

(** ** C22 *)
Theorem c22_canonical m f g : zdd_reachable m → zdd_levels_distinct m → zdd_valid m f → zdd_valid m g →
  zdd_det m f → zdd_det m g →
  (f = g ↔ ∀ S, zdd_mem m f S ↔ zdd_mem m g S).
Proof. exact (λ Hm Hd Vf Vg Df Dg, zcanonical_l m f g Hm Hd Vf Vg Df Dg). Qed.
Print Assumptions c22_canonical.

Theorem c22_no_disturbance m c : zdd_reachable m → zdd_legal m c → (∀ roots, c ≠ ZGc roots) →
  ∃ m' r, zdd_exec m c = Some (m', r) ∧
    (∀ id, zdd_valid m id → zdd_valid m' id ∧ (∀ S, zdd_mem m' id S ↔ zdd_mem m id S) ∧
       (zdd_det m' id ↔ zdd_det m id)).
Proof. exact (zframe_l m c). Qed.
Print Assumptions c22_no_disturbance.

Theorem c22_gc_exact m roots : zdd_reachable m → Forall (zdd_valid m) roots →
  ∃ m' n, zdd_gc m roots = Some (m', n) ∧
    (∀ id, zdd_valid m' id ↔ id ∈ [zdd_zero; zdd_one; zdd_undet] ∨ zdd_reaches m roots id) ∧
    (∀ id S t, zdd_has m' t id S ↔ zdd_has m t id S) ∧
    (∀ l, NoDup l → (∀ id, id ∈ l ↔ zdd_valid m' id) →
       zdd_live_node_count m' = length l ∧ n + length l = length (ar_nodes (z_ar m))).
Proof. exact (zgc_exact_l m roots). Qed.
Print Assumptions c22_gc_exact.

(** the node built by [create_node h lo hi] denotes [lo] plus [hi] with the header's level added *)
Theorem c22_create_node m h hd lo hi : zdd_reachable m → ar_headers (z_ar m) !! h = Some hd →
  zdd_legal m (ZNode h lo hi) →
  ∃ m' r, zdd_create_node m h lo hi = (m', r) ∧ zdd_valid m' r ∧
    ∀ S, zdd_mem m' r S ↔
      zdd_mem m lo S ∨ (h_level hd ∈ S ∧ zdd_mem m hi (S ∖ {[h_level hd]})).
Proof. exact (znode_l m h hd lo hi). Qed.
Print Assumptions c22_create_node.

(** ** Examples: x0 < x1 < x2; 3 = {{0}}, 4 = {{1}}, 5 = {{2}}, 6 = 3 ∪ 4, 7 = 6 * 5, 8 = 7 ∪ 6 *)
Definition ex_zcalls : list zdd_call :=
  [ZHeader 0 "x0"; ZHeader 1 "x1"; ZHeader 2 "x2";
   ZNode 0 0 1; ZNode 1 0 1; ZNode 2 0 1;
   ZOp ZUnion 3 4; ZOp ZProduct 6 5; ZOp ZUnion 7 6]%string.
(** list the family (display only) *)
Fixpoint zlist (n : nat) (m : zdd) (t : tv) (id : nat) : list (list nat) :=
  match n with
  | 0 => []
  | S n => match ar_nodes (z_ar m) !! id with
           | Some (Term t') => if decide (t = t') then [[]] else []
           | Some (NT h [lo; hi]) =>
               zlist n m t lo ++
               (match ar_headers (z_ar m) !! h with Some hd => cons (h_level hd) | None => λ l, l end <$> zlist n m t hi)
           | _ => []
           end
  end.
Example c19_ex : option_map (λ m, (zlist 9 m TOne <$> [6; 7; 8], zlist 9 m TUndet 8,
    bool_decide (zdd_valid m 8))) (zdd_run zdd_new ex_zcalls)
  = Some ([ [[0]; [1]]; [[2; 0]; [2; 1]]; [[0]; [1]; [2; 0]; [2; 1]] ], [], true).
Proof. vm_compute. done. Qed.
Example c19_ex2 : (m ← zdd_run zdd_new ex_zcalls; '(m, r) ← zdd_setdiff m 8 4; '(m, p) ← zdd_product m r r;
    Some (zlist 9 m TOne r, zlist 9 m TOne p)) =
  Some ([[0]; [2; 0]; [2; 1]], [[0]; [2; 0]; [2; 1]; [2; 1; 0]]).
Proof. vm_compute. done. Qed.
Example c20_ex : (m ← zdd_run zdd_new ex_zcalls; '(m, r) ← zdd_intersect m 8 7;
    '(m, q) ← zdd_intersect m 6 3; Some (zlist 9 m TOne r, zlist 9 m TOne q)) =
  Some ([[2; 0]; [2; 1]], [[0]]).
Proof. vm_compute. done. Qed.
(** as [c20_intersect_exact] predicts: {{2}} with {{2,0},{2,1}} gives both, since {2} settles at level 2; {∅,{2}} with {{0},{1}} gives
    both, since ∅ settles at level 2; {∅,{0}} with {{0}} gives {{0}}, the intersection *)
Example c20_ex_exact : (m ← zdd_run zdd_new ex_zcalls; '(m, r) ← zdd_intersect m 5 7; '(m, u) ← zdd_union m 1 5;
    '(m, q) ← zdd_intersect m u 6; '(m, v) ← zdd_union m 1 3; '(m, w) ← zdd_intersect m v 3;
    Some (zlist 9 m TOne r, zlist 9 m TOne q, zlist 9 m TOne w)) =
  Some ([[2; 0]; [2; 1]], [[0]; [1]], [[0]]).
Proof. vm_compute. done. Qed.
(** {{2,0},{2,1}} / {{2}} = {{0},{1}} *)
Example c21_ex_top : (m ← zdd_run zdd_new ex_zcalls; '(m, r) ← zdd_divide m 7 5; Some (zlist 9 m TOne r)) = Some [[0]; [1]].
Proof. vm_compute. done. Qed.
Example c21_ex : (m ← zdd_run zdd_new ex_zcalls; '(m, r) ← zdd_divide m 8 1; Some r) = Some 8.
Proof. vm_compute. done. Qed.
(** the family 8 built another way is the same node *)
Example c22_ex : (m ← zdd_run zdd_new ex_zcalls; '(m, a) ← zdd_union m 1 5; '(m, b) ← zdd_product m a 6;
    Some (b, bool_decide (zdd_levels_distinct m))) = Some (8, true).
Proof. vm_compute. done. Qed.
Example c22_ex_gc : (m ← zdd_run zdd_new ex_zcalls; '(m, n) ← zdd_gc m [7];
    Some (n, zdd_live_node_count m, bool_decide (zdd_valid m 6), bool_decide (zdd_valid m 8),
      zlist 9 m TOne 7)) = Some (3, 6, true, false, [[2; 0]; [2; 1]]).
Proof. vm_compute. done. Qed.
