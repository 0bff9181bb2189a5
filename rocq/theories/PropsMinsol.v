(** C17, C18, C23, C24 and the ZDD side of C43: minimal path and cut sets, counting and enumeration. *)
From Coq Require Import String.
From stdpp Require Import strings sorting.
From Verif Require Import Prelude ComputeCache Arena Bdd SpecBdd SpecBss Zdd SpecZdd ZddMain BssAlg ZddAlg ZddCount
  SpecMinsol MinsolMain PropsBdd PropsZdd.

(** ** C17 *)
Theorem c17_minpath b z f : bss_reachable b → bdd_levels_distinct b → zdd_reachable z →
  bdd_valid b f → bdd_determined b f →
  ∃ b' z' x, minpath b z f = Some (b', z', x) ∧
    match x with
    | None => ¬ bdd_monotone b f
    | Some r => bdd_monotone b f ∧ zdd_valid z' r ∧ zdd_det z' r ∧ ∀ S, zdd_mem z' r S ↔ min_path_set b f S
    end.
Proof.
  exact (λ Hb Hl Hz Vf Df, let '(ex_intro _ b' (ex_intro _ z' (ex_intro _ x (conj He (conj _ Hx))))) :=
    minpath_l b z f Hb Hl Hz Vf Df in ex_intro _ b' (ex_intro _ z' (ex_intro _ x (conj He Hx)))).
Qed.
Print Assumptions c17_minpath.

(** Neither manager is disturbed: all earlier functions and families stay as they were, both managers
    stay usable, and the labels of the family's elements are the variables' names. *)
Theorem c17_no_disturbance b z f b' z' x : bss_reachable b → bdd_levels_distinct b → zdd_reachable z →
  bdd_valid b f → bdd_determined b f → (minpath b z f = Some (b', z', x) ∨ mincut b z f = Some (b', z', x)) →
  bss_reachable b' ∧ bdd_levels_distinct b' ∧ zdd_reachable z' ∧ bdd_keeps b b' ∧ zdd_keeps z z' ∧
  ∀ name, bdd_names b name → zdd_names z name → bdd_names b' name ∧ zdd_names z' name.
Proof. exact (min_frame b z f b' z' x). Qed.
Print Assumptions c17_no_disturbance.

(** ** C18 *)
Theorem c18_mincut b z f : bss_reachable b → bdd_levels_distinct b → zdd_reachable z →
  bdd_valid b f → bdd_determined b f →
  ∃ b' z' x, mincut b z f = Some (b', z', x) ∧
    match x with
    | None => ¬ bdd_monotone b f
    | Some r => bdd_monotone b f ∧ zdd_valid z' r ∧ zdd_det z' r ∧ ∀ S, zdd_mem z' r S ↔ min_cut_set b f S
    end.
Proof.
  exact (λ Hb Hl Hz Vf Df, let '(ex_intro _ b' (ex_intro _ z' (ex_intro _ x (conj He (conj _ Hx))))) :=
    mincut_l b z f Hb Hl Hz Vf Df in ex_intro _ b' (ex_intro _ z' (ex_intro _ x (conj He Hx)))).
Qed.
Print Assumptions c18_mincut.

(** ** C23: every call creates fresh headers, so the same function asked twice gives two different nodes
    for one family. *)
Theorem c23_minpath_eq_refuted : ∃ b z f b1 z1 r1 b2 z2 r2,
  bss_reachable b ∧ bdd_levels_distinct b ∧ zdd_reachable z ∧ bdd_valid b f ∧ bdd_determined b f ∧
  minpath b z f = Some (b1, z1, Some r1) ∧ minpath b1 z1 f = Some (b2, z2, Some r2) ∧
  zdd_valid z2 r1 ∧ zdd_valid z2 r2 ∧ (∀ S, zdd_mem z2 r1 S ↔ zdd_mem z2 r2 S) ∧ r1 ≠ r2.
Proof. exact minpath_twice. Qed.
Print Assumptions c23_minpath_eq_refuted.

(** Exactly when a new family of minimal path or cut sets is the node of an older family [q]: when the two have the same members
    and none but the empty set, i.e. when the function was constant.  Missing: every other pair of equal families (above). *)
Theorem c23_min_eq_partial b z f b' z' r q : bss_reachable b → bdd_levels_distinct b → zdd_reachable z →
  bdd_valid b f → bdd_determined b f → zdd_valid z q → zdd_det z q →
  (minpath b z f = Some (b', z', Some r) ∨ mincut b z f = Some (b', z', Some r)) →
  r = q ↔ (∀ S, zdd_mem z' r S ↔ zdd_mem z' q S) ∧ ∀ S, zdd_mem z' r S → S = ∅.
Proof. exact (min_eq b z f b' z' r q). Qed.
Print Assumptions c23_min_eq_partial.

(** ** C24 *)
Theorem c24_count m (ss : list bool) f L : zdd_reachable m → zdd_valid m f → NoDup L →
  (∀ S, S ∈ L ↔ ∃ b, b ∈ ss ∧ zdd_has m (tvb b) f S) →
  zdd_count m ss f = Some (N.of_nat (length L)).
Proof. exact (λ Hm, zcount_l m ss f L (zreachable_wf m Hm)). Qed.
Print Assumptions c24_count.

(** such a list always exists: families are finite *)
Theorem c24_finite m (ss : list bool) f : zdd_reachable m → zdd_valid m f →
  ∃ L, NoDup L ∧ ∀ S, S ∈ L ↔ ∃ b, b ∈ ss ∧ zdd_has m (tvb b) f S.
Proof. exact (λ Hm, zmembers_l m ss f (zreachable_wf m Hm)). Qed.
Print Assumptions c24_finite.

(** Draining the iterator terminates and lists, without repetition, the labels (in increasing level
    order) of exactly the members. *)
Theorem c24_extract m (ss : list bool) name f : zdd_reachable m → zdd_valid m f → zdd_names m name →
  ∃ Ls k0, NoDup Ls ∧
    (∀ l, l ∈ Ls ↔ StronglySorted lt l ∧ ∃ b, b ∈ ss ∧ zdd_has m (tvb b) f (list_to_set l)) ∧
    ∀ fuel, k0 ≤ fuel → zdd_extract fuel m ss f = Some (map (map name) Ls).
Proof. exact (λ Hm, zextract_l m ss name f (zreachable_wf m Hm)). Qed.
Print Assumptions c24_extract.

(** ** C43 for ZddNode::size *)
Theorem c43_zdd_size m f ln lt : zdd_reachable m → zdd_valid m f →
  NoDup ln → (∀ id, id ∈ ln ↔ zdd_reaches m [f] id ∧ ∃ h cs, ar_nodes (z_ar m) !! id = Some (NT h cs)) →
  NoDup lt → (∀ id, id ∈ lt ↔ zdd_reaches m [f] id ∧ ∃ t, ar_nodes (z_ar m) !! id = Some (Term t)) →
  zdd_node_size m f = Some (N.of_nat (length ln), N.of_nat (length lt), (2 * N.of_nat (length ln))%N).
Proof. exact (λ Hm, zsize_l m f ln lt (zreachable_wf m Hm)). Qed.
Print Assumptions c43_zdd_size.

(** ** Examples *)
(** two of three and an exclusive or: x0 x1 + x0 x2 + x1 x2, and x0 xor x1 *)
Definition ex_min : list bdd_call :=
  [CHeader 0 "x0"; CHeader 1 "x1"; CHeader 2 "x2"; CNode 0 0 1; CNode 1 0 1; CNode 2 0 1;
   CConn And 3 4; CConn Or 3 4; CConn And 7 5; CConn Or 8 6; CConn Xor 3 4].
Example c17_ex : (b ← bdd_run bdd_new ex_min; '(b1, z1, x) ← minpath b zdd_new 9; r ← x;
    '(_, _, y) ← minpath b1 z1 11; l ← zdd_extract 100 z1 [true] r;
    Some (bool_decide (bdd_valid b 9), bool_decide (NoDup (h_level <$> ar_headers (b_ar b))), l, y))
  = Some (true, true, [["x0"; "x1"]; ["x0"; "x2"]; ["x1"; "x2"]], None).
Proof. vm_compute. done. Qed.
Example c18_ex : (b ← bdd_run bdd_new ex_min; '(b1, z1, x) ← mincut b zdd_new 8; r ← x;
    '(_, _, y) ← mincut b1 z1 11; l ← zdd_extract 100 z1 [true] r; c ← zdd_count z1 [true] r; Some (l, c, y))
  = Some ([["x0"; "x1"]; ["x2"]], 2%N, None).
Proof. vm_compute. done. Qed.
(** asked twice: 3 and 4 for the family {{x0}}, but 1 both times for {∅} *)
Example c23_ex : (b ← bdd_run bdd_new [CHeader 0 "x0"; CNode 0 0 1]%string; '(b1, z1, x) ← minpath b zdd_new 3; '(b2, z2, y) ← minpath b1 z1 3;
    '(b3, z3, u) ← minpath b2 z2 1; '(_, _, v) ← minpath b3 z3 1; Some (x, y, u, v)) = Some (Some 3, Some 4, Some 1, Some 1).
Proof. vm_compute. done. Qed.
Example c24_ex : (m ← zdd_run zdd_new ex_zcalls; c ← zdd_count m [true] 8; c' ← zdd_count m [false; true] 8;
    l ← zdd_extract 100 m [true] 8; s ← zdd_node_size m 8; Some (c, c', l, s))
  = Some (4%N, 6%N, [["x0"]; ["x1"]; ["x0"; "x2"]; ["x1"; "x2"]], (3, 2, 6)%N).
Proof. vm_compute. done. Qed.
