(** C39, C45 - C48: the zero-suppressed MDD manager. *)
From Coq Require Import String.
From Verif Require Import Prelude ComputeCache Arena Trees ArenaProofs Bdd Mdd MtMdd Zmdd.
From Verif Require Import SpecBdd SpecMdd SpecZmdd ZmddMain.

(** ** C39 *)
Theorem c39_intersect m f g : zm_reachable m → node_valid (t_ar m) f → node_valid (t_ar m) g →
  ∃ m' r, zm_intersect m f g = Some (m', r) ∧ node_valid (t_ar m') r ∧
    ∀ x z, zmember (t_ar m') r x z ↔ zmember (t_ar m) f x z ∧ zmember (t_ar m) g x z.
Proof. exact (zm_inter_l m f g). Qed.
Print Assumptions c39_intersect.

Theorem c39_setdiff m f g : zm_reachable m → node_valid (t_ar m) f → node_valid (t_ar m) g →
  ∃ m' r, zm_setdiff m f g = Some (m', r) ∧ node_valid (t_ar m') r ∧
    ∀ x z, zmember (t_ar m') r x z ↔ zmember (t_ar m) f x z ∧ ¬ zmember (t_ar m) g x z.
Proof. exact (zm_diff_l m f g). Qed.
Print Assumptions c39_setdiff.

(** a vector has at most one label in a family *)
Theorem c39_label_unique (a : arena vt) f x z z' : zmember a f x z → zmember a f x z' → z = z'.
Proof. exact (zmem_fun a f x z z'). Qed.
Print Assumptions c39_label_unique.

(** ** C45: node equality is family equality *)
Theorem c45_canonical m f g : zm_reachable m → levels_distinct (t_ar m) →
  node_valid (t_ar m) f → node_valid (t_ar m) g →
  f = g ↔ (∀ x z, zmember (t_ar m) f x z ↔ zmember (t_ar m) g x z).
Proof. exact (zm_canon_l m f g). Qed.
Print Assumptions c45_canonical.

(** ** C46: create_node builds exactly the family it is asked for *)
Theorem c46_create_node m h cs : zm_reachable m → node_fits (t_ar m) h cs →
  ∃ hd m' r, ar_headers (t_ar m) !! h = Some hd ∧ zm_create_node m h cs = Some (m', r) ∧ node_valid (t_ar m') r ∧
    ∀ x z, zmember (t_ar m') r x z ↔
      ∃ c, cs !! x (h_level hd) = Some c ∧ zmember (t_ar m) c (with_comp x (h_level hd) 0) z.
Proof. exact (zm_node_l m h cs). Qed.
Print Assumptions c46_create_node.

(** ** C47: set_baseline adds the all-zero vector, and only if it has no label yet *)
Theorem c47_set_baseline m f v : zm_reachable m → node_valid (t_ar m) f →
  ∃ m' r, zm_set_baseline m f v = Some (m', r) ∧ node_valid (t_ar m') r ∧
    ∀ x z, zmember (t_ar m') r x z ↔
      zmember (t_ar m) f x z ∨ ((∀ l, x l = 0) ∧ z = v ∧ ∀ z', ¬ zmember (t_ar m) f (λ _, 0) z').
Proof. exact (zm_base_l m f v). Qed.
Print Assumptions c47_set_baseline.

(** ** C48: collection is exact, other calls disturb nothing *)
Theorem c48_gc_exact m roots : zm_reachable m → Forall (node_valid (t_ar m)) roots →
  ∃ m' n, zm_gc m roots = Some (m', n) ∧
    (∀ id, node_valid (t_ar m') id ↔ id = zm_undet ∨ node_reaches (t_ar m) roots id) ∧
    (∀ id x z, node_valid (t_ar m') id → zmember (t_ar m') id x z ↔ zmember (t_ar m) id x z) ∧
    (∀ l, NoDup l → (∀ id, id ∈ l ↔ node_valid (t_ar m') id) →
       zm_live_node_count m' = length l ∧ n + length l = length (ar_nodes (t_ar m))).
Proof. exact (zm_gc_l m roots). Qed.
Print Assumptions c48_gc_exact.

Theorem c48_no_disturbance m c : zm_reachable m → zm_legal m c → (∀ roots, c ≠ ZGc roots) →
  ∃ m' r, zm_exec m c = Some (m', r) ∧
    ∀ id, node_valid (t_ar m) id → node_valid (t_ar m') id ∧
      ∀ x z, zmember (t_ar m) id x z ↔ zmember (t_ar m') id x z.
Proof. exact (zm_frame_l m c). Qed.
Print Assumptions c48_no_disturbance.

(** ** Examples *)
(** [x] with 3 states at level 0, [y] with 2 at level 1; 1, 2 are the labels 5, 7.
    3 = {x=1:5, x=2:7}, 4 = {x=0:5, x=2:7}, 5 = {y=1,x=1:5; y=1,x=2:7; x=0:5; x=2:7} *)
Definition ex_zm : list zm_call :=
  [ZHeader 0 "x" 3; ZHeader 1 "y" 2; ZValue 5; ZValue 7; ZNode 0 [0; 1; 2]; ZNode 0 [1; 0; 2]; ZNode 1 [4; 3]].
(** the label of the vector (x, y) = (i, j) *)
Fixpoint zwalk (a : arena vt) (x : nat → nat) (ls : list nat) (n id : nat) : option Z :=
  match n with
  | O => None
  | S n =>
      match ar_nodes a !! id with
      | Some (Term (VVal z)) => if forallb (λ l, x l =? 0) ls then Some z else None
      | Some (NT h cs) =>
          hd ← ar_headers a !! h; c ← cs !! x (h_level hd); zwalk a (with_comp x (h_level hd) 0) ls n c
      | _ => None
      end
  end.
Definition ztable (a : arena vt) (id : nat) : list (list (option Z)) :=
  map (λ j, map (λ i, zwalk a (λ l, if decide (l = 0) then i else if decide (l = 1) then j else 0) [0; 1] 10 id)
    [0; 1; 2]) [0; 1].
Example c39_ex : (m ← zm_run zm_new ex_zm; '(m1, r) ← zm_intersect m 5 4; '(m2, s) ← zm_setdiff m1 5 4;
    '(m3, t) ← zm_intersect m2 3 4;
    Some (bool_decide (node_valid (t_ar m) 5), ztable (t_ar m) 5, ztable (t_ar m1) r, ztable (t_ar m2) s, ztable (t_ar m3) t)) =
  Some (true, [[Some 5; None; Some 7]; [None; Some 5; Some 7]]%Z,
        [[Some 5; None; Some 7]; [None; None; None]]%Z,
        [[None; None; None]; [None; Some 5; Some 7]]%Z,
        [[None; None; Some 7]; [None; None; None]]%Z).
Proof. vm_compute. done. Qed.
Example c45_ex : (m ← zm_run zm_new ex_zm; '(m1, r) ← zm_intersect m 5 4;
    Some (bool_decide (NoDup (h_level <$> ar_headers (t_ar m1))), r)) = Some (true, 4).
Proof. vm_compute. done. Qed.
(** nothing recorded: the node is its 0-edge; equal edges are kept *)
Example c46_ex : (m ← zm_run zm_new ex_zm; '(m1, r) ← zm_create_node m 1 [3; 0]; '(m2, s) ← zm_create_node m1 1 [3; 3];
    Some (bool_decide (node_fits (t_ar m) 1 [3; 0]), r, ztable (t_ar m2) s)) =
  Some (true, 3, [[None; Some 5; Some 7]; [None; Some 5; Some 7]]%Z).
Proof. vm_compute. done. Qed.
Example c47_ex : (m ← zm_run zm_new ex_zm; '(m1, r) ← zm_set_baseline m 3 9; '(m2, s) ← zm_set_baseline m1 5 9;
    Some (ztable (t_ar m1) r, s)) = Some ([[Some 9; Some 5; Some 7]; [None; None; None]]%Z, 5).
Proof. vm_compute. done. Qed.
Example c48_ex : (m ← zm_run zm_new ex_zm; '(m1, n) ← zm_gc m [4];
    Some (n, zm_live_node_count m1, map (λ id, bool_decide (node_valid (t_ar m1) id)) (seq 0 6), ztable (t_ar m1) 4)) =
  Some (2, 4, [true; true; true; false; true; false], [[Some 5; None; Some 7]; [None; None; None]]%Z).
Proof. vm_compute. done. Qed.
