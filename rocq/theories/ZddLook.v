(** Model of the inspecting methods of ZddNode that ZddMgr.v does not have.  Source: bss/src/zdd.rs.  None of
    them changes the manager. *)
From stdpp Require Import strings.
From Verif Require Import Prelude ComputeCache Arena Bdd BssAlg BssMgr Zdd ZddAlg ZddMgr.

(** get_header, zdd.rs:194-198: [get_node(..)?] gives [None] for a missing node, [headerid()] for a terminal *)
Definition y_hid (w : zmgr) (f : nat) : option nat :=
  n ← ar_nodes (z_ar (y_zdd w)) !! f;
  match n with Term _ => None | NT h _ => Some h end.
(** get_level, zdd.rs:200-205 *)
Definition y_level (w : zmgr) (f : nat) : option nat :=
  h ← y_hid w f;
  hd ← ar_headers (z_ar (y_zdd w)) !! h;
  Some (h_level hd).
(** eq, zdd.rs:239-241 *)
Definition y_eq (f g : nat) : bool := f =? g.
(** size, zdd.rs:299-305 *)
Definition y_size (w : zmgr) (f : nat) : option (N * N * N) := zdd_node_size (y_zdd w) f.
