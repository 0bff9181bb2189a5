(** Model of the inspecting and analysing methods of BddNode.  Source: bss/src/bdd.rs.  None of them changes
    the manager. *)
From stdpp Require Import strings.
From Verif Require Import Prelude ComputeCache Arena Bdd BssAlg BssMgr.

(** bdd.rs:368-373: [get_node(..)?] gives [None] for a missing node, [headerid()] gives [None] for a terminal *)
Definition w_header (w : bmgr) (f : nat) : option nat :=
  n ← ar_nodes (b_ar (w_bdd w)) !! f;
  match n with Term _ => None | NT h _ => Some h end.
(** bdd.rs:375-382 *)
Definition w_level (w : bmgr) (f : nat) : option nat :=
  h ← w_header w f;
  hd ← ar_headers (b_ar (w_bdd w)) !! h;
  Some (h_level hd).

(** is_zero, is_one, is_undet, bdd.rs:408-436; outer [None]: the [unwrap] of a missing node panics *)
Definition w_is (t : tv) (w : bmgr) (f : nat) : option bool :=
  n ← ar_nodes (b_ar (w_bdd w)) !! f;
  Some match n with Term t' => bool_decide (t' = t) | NT _ _ => false end.
Definition w_is_zero := w_is TZero.
Definition w_is_one := w_is TOne.
Definition w_is_undet := w_is TUndet.

(** eq, bdd.rs:474-476 *)
Definition w_eq (f g : nat) : bool := f =? g.

(** prob, bdd.rs:478-491, bmeas, bdd.rs:493-499, bdd_count, bdd.rs:518-522, bdd_extract, bdd.rs:524-526 (run to
    its end; Iter.v has the resumable iterator), size, bdd.rs:528-534: all on the inner manager *)
Section measures.
Context {R : Type} (rO rI : R) (radd rmul rsub : R → R → R).
Definition w_prob (w : bmgr) (pv : gmap string R) (ss : list bool) (f : nat) : option R :=
  bdd_prob rO rI radd rmul rsub (w_bdd w) pv ss f.
Definition w_bmeas (w : bmgr) (pv : gmap string R) (ss : list bool) (f : nat) : option (gmap string R) :=
  bdd_bmeas rO rI radd rmul rsub (w_bdd w) pv ss f.
End measures.
Definition w_count (w : bmgr) (ss : list bool) (f : nat) : option N := bdd_count (w_bdd w) ss f.
Definition w_extract (fuel : nat) (w : bmgr) (ss : list bool) (f : nat) : option (list (list string)) :=
  bdd_extract fuel (w_bdd w) ss f.
Definition w_size (w : bmgr) (f : nat) : option (N * N * N) := bdd_node_size (w_bdd w) f.
