(** Vocabulary for C78: two nodes of two multi-state managers denote the same function. *)
From Verif Require Import Prelude ComputeCache Arena Mdd MtMdd MtMdd2 SpecMdd.

(** A level that carries a variable in both managers has the same number of states in both. *)
Definition states_agree {T1 T2} (a1 : arena T1) (a2 : arena T2) : Prop :=
  ∀ hd1 hd2, hd1 ∈ ar_headers a1 → hd2 ∈ ar_headers a2 → h_level hd1 = h_level hd2 → h_edges hd1 = h_edges hd2.
(** [f1] in [a1] and [f2] in [a2] have the same value, undetermined included, under every assignment of states to the levels. *)
Definition same_node {T} (a1 : arena T) (f1 : nat) (a2 : arena T) (f2 : nat) : Prop :=
  ∀ rho t, in_range a1 rho → in_range a2 rho → node_value a1 rho f1 t ↔ node_value a2 rho f2 t.
(** The same for nodes of the combined manager; they must be of one kind. *)
Definition same_mnode (m1 : mm) (x1 : mnode) (m2 : mm) (x2 : mnode) : Prop :=
  match x1, x2 with
  | NBool f1, NBool f2 => same_node (d_ar (mm_b m1)) f1 (d_ar (mm_b m2)) f2
  | NVal f1, NVal f2 => same_node (t_ar (mm_v m1)) f1 (t_ar (mm_v m2)) f2
  | _, _ => False
  end.

(** The same operation on operands that denote the same functions *)
Definition same_mdd_call (m1 : mdd) (c1 : mdd_call) (m2 : mdd) (c2 : mdd_call) : Prop :=
  match c1, c2 with
  | DNot f1, DNot f2 => same_node (d_ar m1) f1 (d_ar m2) f2
  | DConn o1 f1 g1, DConn o2 f2 g2 => o1 = o2 ∧ same_node (d_ar m1) f1 (d_ar m2) f2 ∧ same_node (d_ar m1) g1 (d_ar m2) g2
  | DReplace f1 g1, DReplace f2 g2 => same_node (d_ar m1) f1 (d_ar m2) f2 ∧ same_node (d_ar m1) g1 (d_ar m2) g2
  | DIte f1 g1 h1, DIte f2 g2 h2 =>
      same_node (d_ar m1) f1 (d_ar m2) f2 ∧ same_node (d_ar m1) g1 (d_ar m2) g2 ∧ same_node (d_ar m1) h1 (d_ar m2) h2
  | _, _ => False
  end.
Definition same_mm_call (m1 : mm) (c1 : mm_call) (m2 : mm) (c2 : mm_call) : Prop :=
  match c1, c2 with
  | XNot f1, XNot f2 => same_mnode m1 f1 m2 f2
  | XGate o1 f1 g1, XGate o2 f2 g2 => o1 = o2 ∧ same_mnode m1 f1 m2 f2 ∧ same_mnode m1 g1 m2 g2
  | XArith o1 f1 g1, XArith o2 f2 g2 => o1 = o2 ∧ same_mnode m1 f1 m2 f2 ∧ same_mnode m1 g1 m2 g2
  | XCmp o1 f1 g1, XCmp o2 f2 g2 => o1 = o2 ∧ same_mnode m1 f1 m2 f2 ∧ same_mnode m1 g1 m2 g2
  | XIte f1 g1 h1, XIte f2 g2 h2 => same_mnode m1 f1 m2 f2 ∧ same_mnode m1 g1 m2 g2 ∧ same_mnode m1 h1 m2 h2
  | XVif f1 g1, XVif f2 g2 => same_mnode m1 (NBool f1) m2 (NBool f2) ∧ same_mnode m1 (NVal g1) m2 (NVal g2)
  | _, _ => False
  end.
(** The node an operation of the combined manager returns *)
Definition mm_ask (I : vint) (m : mm) (c : mm_call) : option (mm * mnode) :=
  match c with
  | XNot f => mm_not m f
  | XGate o f g => mm_gate o m f g
  | XArith o f g => mm_arith I o m f g
  | XCmp c f g => mm_cmp c m f g
  | XIte f g h => mm_ite m f g h
  | XVif f g => as_val (mm_vif m f g)
  | _ => None
  end.
(** An arithmetic operation overflows nowhere. *)
Definition mm_safe (I : vint) (m : mm) (c : mm_call) : Prop :=
  match c with
  | XArith o f g => ∀ rho a b, mm_range m rho → mm_int m rho f a → mm_int m rho g b → no_overflow I o a b
  | _ => True
  end.
