(** Specification vocabulary for the BDD manager: what a node denotes, what a legal call is,
    which managers are reachable.  Nothing here refers to the operations' algorithms. *)
From Verif Require Import Prelude ComputeCache Arena Bdd.

(** The value of node [id] under the assignment [rho] (variable level |-> truth value):
    follow the edge chosen by [rho] until a terminal. *)
Inductive bdd_value (m : bdd) (rho : nat → bool) : nat → tv → Prop :=
  | bv_term id t : ar_nodes (b_ar m) !! id = Some (Term t) → bdd_value m rho id t
  | bv_node id h lo hi hd t :
      ar_nodes (b_ar m) !! id = Some (NT h [lo; hi]) →
      ar_headers (b_ar m) !! h = Some hd →
      bdd_value m rho (if rho (h_level hd) then hi else lo) t →
      bdd_value m rho id t.

(** An id the user may use: an allocated slot that has not been reclaimed. *)
Definition bdd_valid (m : bdd) (id : nat) : Prop :=
  id < length (ar_nodes (b_ar m)) ∧ id ∉ ar_free (b_ar m).

(** The top level of [id] is strictly below [l] (terminals are below everything). *)
Definition bdd_below (m : bdd) (id l : nat) : Prop :=
  match ar_node_level (b_ar m) id with Some (Some l') => l' < l | Some None => True | None => False end.

Global Instance bdd_valid_dec m id : Decision (bdd_valid m id).
Proof. unfold bdd_valid. apply _. Defined.
Global Instance bdd_below_dec m id l : Decision (bdd_below m id l).
Proof. unfold bdd_below. destruct (ar_node_level _ _) as [[]|]; apply _. Defined.

(** Truth values *)
Definition tvb (b : bool) : tv := if b then TOne else TZero.

(** The binary connectives and their truth tables *)
Inductive conn := And | Or | Xor | Imp | Nand | Nor | Xnor.
Definition conn_bool (c : conn) (x y : bool) : bool :=
  match c with
  | And => x && y | Or => x || y | Xor => xorb x y | Imp => negb x || y
  | Nand => negb (x && y) | Nor => negb (x || y) | Xnor => negb (xorb x y)
  end.
Definition bdd_conn (c : conn) : bdd → nat → nat → option (bdd * nat) :=
  match c with
  | And => bdd_and | Or => bdd_or | Xor => bdd_xor | Imp => bdd_imp
  | Nand => bdd_nand | Nor => bdd_nor | Xnor => bdd_xnor
  end.

(** The manager's API calls *)
Inductive bdd_call :=
  | CHeader (level : nat) (label : String.string)
  | CNode (h low high : nat)
  | CNot (f : nat)
  | CConn (c : conn) (f g : nat)
  | CIte (f g h : nat)
  | CGc (roots : list nat)
  | CClear.

Definition bdd_exec (m : bdd) (c : bdd_call) : option (bdd * nat) :=
  match c with
  | CHeader l s => Some (bdd_create_header m l s)
  | CNode h lo hi => Some (bdd_create_node m h lo hi)
  | CNot f => bdd_not m f
  | CConn c f g => bdd_conn c m f g
  | CIte f g h => bdd_ite m f g h
  | CGc roots => bdd_gc m roots
  | CClear => Some (bdd_clear_cache m, 0)
  end.

(** What the caller owes: operands are valid ids; create_node gets an existing header and children below
    its level; gc roots are valid. *)
Definition bdd_legal (m : bdd) (c : bdd_call) : Prop :=
  match c with
  | CHeader _ _ | CClear => True
  | CNode h lo hi =>
      match ar_headers (b_ar m) !! h with
      | Some hd => (bdd_valid m lo ∧ bdd_below m lo (h_level hd)) ∧
                   (bdd_valid m hi ∧ bdd_below m hi (h_level hd))
      | None => False
      end
  | CNot f => bdd_valid m f
  | CConn _ f g => bdd_valid m f ∧ bdd_valid m g
  | CIte f g h => bdd_valid m f ∧ bdd_valid m g ∧ bdd_valid m h
  | CGc roots => Forall (bdd_valid m) roots
  end.
Global Instance bdd_legal_dec m c : Decision (bdd_legal m c).
Proof. destruct c; cbn; try apply _. destruct (ar_headers _ !! _); apply _. Defined.

(** Run a history of calls; [None] if a call is illegal or panics. *)
Fixpoint bdd_run (m : bdd) (cs : list bdd_call) : option bdd :=
  match cs with
  | [] => Some m
  | c :: cs => if decide (bdd_legal m c) then '(m', _) ← bdd_exec m c; bdd_run m' cs else None
  end.

(** Managers reachable from a fresh one by some history of legal calls. *)
Definition bdd_reachable (m : bdd) : Prop := ∃ cs, bdd_run bdd_new cs = Some m.

(** No two variables share a level. *)
Definition bdd_levels_distinct (m : bdd) : Prop := NoDup (h_level <$> ar_headers (b_ar m)).

(** Nodes reachable through edges from a list of roots. *)
Inductive bdd_reaches (m : bdd) (roots : list nat) : nat → Prop :=
  | brs_root r : r ∈ roots → bdd_reaches m roots r
  | brs_edge id h cs c : bdd_reaches m roots id → ar_nodes (b_ar m) !! id = Some (NT h cs) → c ∈ cs →
      bdd_reaches m roots c.

(** Histories in which the user holds node ids together with the boolean function each is meant to
    denote.  [bdd_held m H]: manager [m] can be reached while holding [H].  The meaning of a new id is
    computed from the operands' meanings by the truth tables alone.  A collection may be run at any
    time with any valid roots; afterwards the user keeps any handles that are reachable from
    the roots. *)
Definition bfun := (nat → bool) → bool.
Inductive bdd_held : bdd → list (nat * bfun) → Prop :=
  | bh_new : bdd_held bdd_new []
  | bh_zero m H : bdd_held m H → bdd_held m ((bdd_zero, λ _, false) :: H)
  | bh_one m H : bdd_held m H → bdd_held m ((bdd_one, λ _, true) :: H)
  | bh_header m H l s m' h : bdd_held m H → bdd_create_header m l s = (m', h) → bdd_held m' H
  | bh_node m H h hd f g (F G : bfun) m' r : bdd_held m H → (f, F) ∈ H → (g, G) ∈ H →
      ar_headers (b_ar m) !! h = Some hd →
      bdd_below m f (h_level hd) → bdd_below m g (h_level hd) →
      bdd_create_node m h f g = (m', r) →
      bdd_held m' ((r, λ rho : nat → bool, if rho (h_level hd) then G rho else F rho) :: H)
  | bh_not m H f (F : bfun) m' r : bdd_held m H → (f, F) ∈ H → bdd_not m f = Some (m', r) →
      bdd_held m' ((r, λ rho : nat → bool, negb (F rho)) :: H)
  | bh_conn c m H f g (F G : bfun) m' r : bdd_held m H → (f, F) ∈ H → (g, G) ∈ H →
      bdd_conn c m f g = Some (m', r) →
      bdd_held m' ((r, λ rho : nat → bool, conn_bool c (F rho) (G rho)) :: H)
  | bh_ite m H f g h (F G K : bfun) m' r : bdd_held m H → (f, F) ∈ H → (g, G) ∈ H → (h, K) ∈ H →
      bdd_ite m f g h = Some (m', r) →
      bdd_held m' ((r, λ rho : nat → bool, if F rho then G rho else K rho) :: H)
  | bh_clear m H : bdd_held m H → bdd_held (bdd_clear_cache m) H
  | bh_gc m H roots H' m' n : bdd_held m H → Forall (bdd_valid m) roots →
      bdd_gc m roots = Some (m', n) →
      (∀ x, x ∈ H' → x ∈ H ∧ bdd_reaches m roots x.1) →
      bdd_held m' H'.
