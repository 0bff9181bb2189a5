(** Property C63: what the methods of a ZddNode tell about its family. *)
From stdpp Require Import strings.
From Verif Require Import Prelude ComputeCache Arena Bdd BssAlg BssMgr Zdd ZddAlg SpecZdd ZddMgr SpecZddMgr ZddMgrMain ZddLook SpecZddLook ZddLookProofs PropsZddMgr.

(** get_level and get_label give the element, of those that occur in members, that is last in the order, and
    nothing exactly if no element occurs; nor does get_header then. *)
Theorem c63_top w H f F : zdd_in_use w H → (f, Some F) ∈ H →
  (∀ l, y_level w f = Some l ↔ ∃ x, top_elem w F l x) ∧
  (∀ x, y_label w f = Some x ↔ ∃ l, top_elem w F l x) ∧
  (y_level w f = None ↔ trivial_fam F) ∧ (y_label w f = None ↔ trivial_fam F) ∧ (y_hid w f = None ↔ trivial_fam F).
Proof. exact (λ Hu, in_use_top w H Hu f F). Qed.
Print Assumptions c63_top.

(** Every element of a member has a position, and positions and names correspond one to one. *)
Theorem c63_declared w H f F x : zdd_in_use w H → (f, Some F) ∈ H → member_of_some F x → ∃ l, place w x l.
Proof. exact (λ Hu, in_use_place w H Hu f F x). Qed.
Print Assumptions c63_declared.
Theorem c63_positions w H x y l k : zdd_in_use w H → place w x l → place w y k → x = y ↔ l = k.
Proof. exact (λ Hu, in_use_place_inj w H Hu x y l k). Qed.
Print Assumptions c63_positions.

(** In a ZddMgr of its own the order is the order of first use: singleton gives a handle with that name on top,
    keeps every position, adds no other name, and puts a new name after all others. *)
Theorem c63_order w H x w' r : zdd_held w H → y_singleton w x = Some (w', r) →
  ∃ l, place w' x l ∧ y_level w' r = Some l ∧ y_label w' r = Some x ∧
    (∀ y k, place w y k → place w' y k) ∧ (∀ y k, place w' y k → place w y k ∨ y = x) ∧
    (place w x l ∨ (∀ k, ¬ place w x k) ∧ ∀ y k, place w y k → k < l).
Proof. exact (held_order w H x w' r). Qed.
Print Assumptions c63_order.

(** get_children gives nothing if no element occurs; otherwise the members without the top element and the
    members with it, that element removed, of which there is at least one. *)
Theorem c63_children w H f F : zdd_in_use w H → (f, Some F) ∈ H →
  (trivial_fam F → y_children w f = Some (w, None)) ∧
  ∀ x, y_label w f = Some x → ∃ w' f0 f1, y_children w f = Some (w', Some (f0, f1)) ∧ (∃ S, within x F S) ∧
    zdd_in_use w' ((f0, Some (without x F)) :: (f1, Some (within x F)) :: H).
Proof. exact (λ Hu, in_use_children w H Hu f F). Qed.
Print Assumptions c63_children.

(** A handle is rebuilt from its children: [f0 ∪ ({{x}} × f1)] is the handle itself. *)
Theorem c63_rebuild w H f F x w1 f0 f1 : zdd_held w H → (f, Some F) ∈ H → y_label w f = Some x →
  y_children w f = Some (w1, Some (f0, f1)) →
  ∃ w2 s w3 p w4, y_singleton w1 x = Some (w2, s) ∧ y_op ZProduct w2 s f1 = Some (w3, p) ∧ y_op ZUnion w3 f0 p = Some (w4, f).
Proof. exact (held_rebuild w H f F x w1 f0 f1). Qed.
Print Assumptions c63_rebuild.

(** eq decides equality of the families. *)
Theorem c63_eq w H f F g G : zdd_held w H → (f, Some F) ∈ H → (g, Some G) ∈ H → y_eq f g = true ↔ ∀ S, F S ↔ G S.
Proof. exact (λ Hh Hf Hg, iff_trans (Nat.eqb_eq f g) (held_zeq w H f F g G Hh Hf Hg)). Qed.
Print Assumptions c63_eq.

(** size counts the nodes, terminals and edges of the diagram. *)
Theorem c63_size w H f F ln lt : zdd_in_use w H → (f, F) ∈ H →
  NoDup ln → (∀ id, id ∈ ln ↔ zdd_reaches (y_zdd w) [f] id ∧ ∃ h cs, ar_nodes (z_ar (y_zdd w)) !! id = Some (NT h cs)) →
  NoDup lt → (∀ id, id ∈ lt ↔ zdd_reaches (y_zdd w) [f] id ∧ ∃ t, ar_nodes (z_ar (y_zdd w)) !! id = Some (Term t)) →
  y_size w f = Some (N.of_nat (length ln), N.of_nat (length lt), (2 * N.of_nat (length ln))%N).
Proof. exact (λ Hu, in_use_size w H Hu f F ln lt). Qed.
Print Assumptions c63_size.

(** [u] = {{x,y},{z},{x}}, made with the order x, y, z ([c52_ex_held] says it is held) *)
Example c63_ex : (r ← ex_y; let '(w, u, p) := r in
    '(w1, c) ← y_children w u; '(f0, f1) ← c;
    '(w2, s) ← y_singleton w1 "z"%string; '(w3, q) ← y_op ZProduct w2 s f1; '(w4, u') ← y_op ZUnion w3 f0 q;
    Some (y_level w u, y_label w u, y_hid w u, y_size w u, y_eq u u', y_eq u p, (y_extract 100 w1 [true] f0, y_extract 100 w1 [true] f1))) =
  Some (Some 2, Some "z", Some 2, Some (3, 2, 6)%N, true, false, (Some [["x"]; ["x"; "y"]], Some [[]]))%string.
Proof. vm_compute. done. Qed.
