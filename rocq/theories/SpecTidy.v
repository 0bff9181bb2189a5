(** What "an operation leaves no garbage" means, for every manager alike. *)
From Verif Require Import Prelude Arena Bdd Zdd Mdd MtMdd MtMdd2 SpecBdd SpecZdd SpecMdd.

(** Every node of [a'] was there before or is part of the diagram with root [r]. *)
Definition only_adds {T} (a a' : arena T) (rs : list nat) : Prop :=
  ∀ id, node_valid a' id → node_valid a id ∨ node_reaches a' rs id.
(** The number of live nodes grows by at most the number of vertices of the diagram with root [r]: any list
    that covers the diagram is long enough to pay for the growth. *)
Definition grows_by_result {T} (a a' : arena T) (r : nat) : Prop :=
  ∀ l, (∀ id, node_reaches a' [r] id → id ∈ l) → ar_live_count a' ≤ ar_live_count a + length l.
(** Nothing but what the roots need, and the constants [ts]: a collection would find nothing to do. *)
Definition all_needed {T} (a : arena T) (ts roots : list nat) : Prop :=
  ∀ id, node_valid a id → id ∈ ts ∨ node_reaches a roots id.

(** The calls that build one diagram directly. *)
Definition bdd_direct (c : bdd_call) : Prop :=
  match c with CNode _ _ _ | CNot _ | CIte _ _ _ | CConn (And | Or | Xor) _ _ => True | _ => False end.
Definition zdd_direct (c : zdd_call) : Prop :=
  match c with ZNode _ _ _ | ZOp (ZIntersect | ZUnion | ZSetdiff) _ _ => True | _ => False end.
Definition mdd_direct (c : mdd_call) : Prop :=
  match c with DNode _ _ | DNot _ | DIte _ _ _ | DReplace _ _ | DConn (And | Or | Xor) _ _ => True | _ => False end.
Definition mt_direct (c : mt_call) : Prop :=
  match c with TNode _ _ | TValue _ | TBin _ _ _ => True | _ => False end.
(** Those that go through one intermediate diagram: the direct call that makes it. *)
Definition derived (c : conn) (f g : nat) : option bdd_call :=
  match c with
  | Imp => Some (CNot f) | Nand => Some (CConn And f g) | Nor => Some (CConn Or f g) | Xnor => Some (CConn Xor f g)
  | _ => None
  end.
Definition mderived (c : conn) (f g : nat) : option mdd_call :=
  match c with
  | Imp => Some (DNot f) | Nand => Some (DConn And f g) | Nor => Some (DConn Or f g) | Xnor => Some (DConn Xor f g)
  | _ => None
  end.

(** The combined manager: the same notions, over both forests. *)
Definition mm_only_adds (m m' : mm) (r : mnode) : Prop := ∀ x, mm_valid m' x → mm_valid m x ∨ mm_reaches m' [r] x.
Definition mm_grows_by_result (m m' : mm) (r : mnode) : Prop :=
  ∀ l, (∀ x, mm_reaches m' [r] x → x ∈ l) → mm_live_node_count m' ≤ mm_live_node_count m + length l.
Definition mm_all_needed (m : mm) (roots : list mnode) : Prop :=
  ∀ x, mm_valid m x → x ∈ [mm_zero; mm_one; NBool mdd_undet; mm_undet_value] ∨ mm_reaches m roots x.
(** the manager and the node a call returns, for the calls that build one diagram directly *)
Definition mm_result (I : vint) (m : mm) (c : mm_call) : option (mm * mnode) :=
  match c with
  | XValue z => Some (mm_value m z)
  | XNode h xs => mm_create_node m h xs
  | XNot f => mm_not m f
  | XGate o f g => mm_gate o m f g
  | XArith o f g => mm_arith I o m f g
  | XCmp Lt f g => mm_cmp Lt m f g
  | XCmp Gt f g => mm_cmp Gt m f g
  | XCmp Eq (NVal f) (NVal g) => mm_cmp Eq m (NVal f) (NVal g)
  | XCmp Neq (NBool f) (NBool g) => mm_cmp Neq m (NBool f) (NBool g)
  | XIte f g h => mm_ite m f g h
  | XVif f g => as_val (mm_vif m f g)
  | _ => None
  end.
