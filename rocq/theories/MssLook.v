(** Model of the inspecting methods of MddNode that are not in MssMgr.v and MssAlg.v.  Source: mss/src/mdd.rs.  None of
    them changes the manager. *)
From stdpp Require Import strings.
From Verif Require Import Prelude ComputeCache Arena Bdd Mdd MtMdd MtMdd2 MssMgr.

(** get_id, mdd.rs:538-543, and get_id2, mdd.rs:545-550 *)
Definition g_id (x : mnode) : nat := match x with NVal f => f | NBool f => f end.
Definition g_id2 (x : mnode) : nat * nat := match x with NVal f => (f, 0) | NBool f => (0, f) end.

(** is_boolean and is_value, mdd.rs:662-674 *)
Definition g_is_boolean (x : mnode) : bool := match x with NVal _ => false | NBool _ => true end.
Definition g_is_value (x : mnode) : bool := match x with NVal _ => true | NBool _ => false end.

(** is_zero, is_one, is_undet, mdd.rs:676-725; outer [None]: the [unwrap] of a missing node panics *)
Definition g_is (t : tv) (w : mmgr) (x : mnode) : option bool :=
  match x with
  | NVal _ => Some false
  | NBool f =>
      n ← ar_nodes (d_ar (mm_b (g_mm w))) !! f;
      Some match n with Term t' => bool_decide (t' = t) | NT _ _ => false end
  end.
Definition g_is_zero := g_is TZero.
Definition g_is_one := g_is TOne.
Definition g_is_undet := g_is TUndet.

(** value, mdd.rs:727-740; [Terminal] holds a number, [Undet] is a variant of its own *)
Definition g_const (w : mmgr) (x : mnode) : option (option Z) :=
  match x with
  | NVal f =>
      n ← ar_nodes (t_ar (mm_v (g_mm w))) !! f;
      Some match n with Term (VVal z) => Some z | _ => None end
  | NBool _ => Some None
  end.

(** [x.get_node() == y.get_node()], mdd.rs:534-536, with the derived equality of mtmdd2.rs:7-11 *)
Definition g_same (x y : mnode) : bool := bool_decide (x = y).
