(** Specification vocabulary for the ZDD manager: the family of sets a node denotes, legal calls,
    reachable managers.  Nothing here refers to the operations' algorithms. *)
From Verif Require Import Prelude Arena Bdd Zdd.

(** [zdd_has m t id S]: some path from node [id] ends in terminal [t], and the levels at which the path
    takes the high edge are exactly [S]. *)
Inductive zdd_has (m : zdd) (t : tv) : nat → gset nat → Prop :=
  | zh_term id : ar_nodes (z_ar m) !! id = Some (Term t) → zdd_has m t id ∅
  | zh_low id h lo hi S :
      ar_nodes (z_ar m) !! id = Some (NT h [lo; hi]) → zdd_has m t lo S → zdd_has m t id S
  | zh_high id h lo hi hd S :
      ar_nodes (z_ar m) !! id = Some (NT h [lo; hi]) → ar_headers (z_ar m) !! h = Some hd →
      zdd_has m t hi S → zdd_has m t id ({[h_level hd]} ∪ S).

(** The family denoted by a node: the sets spelled by paths to the One terminal. *)
Definition zdd_mem (m : zdd) (id : nat) (S : gset nat) : Prop := zdd_has m TOne id S.

(** No path leads to the Undet terminal. *)
Definition zdd_det (m : zdd) (id : nat) : Prop := ∀ S, ¬ zdd_has m TUndet id S.

(** An id the user may use: an allocated slot that has not been reclaimed. *)
Definition zdd_valid (m : zdd) (id : nat) : Prop :=
  id < length (ar_nodes (z_ar m)) ∧ id ∉ ar_free (z_ar m).

(** The top level of [id] is strictly below [l] (terminals are below everything). *)
Definition zdd_below (m : zdd) (id l : nat) : Prop :=
  match ar_node_level (z_ar m) id with Some (Some l') => l' < l | Some None => True | None => False end.

Global Instance zdd_valid_dec m id : Decision (zdd_valid m id).
Proof. unfold zdd_valid. apply _. Defined.
Global Instance zdd_below_dec m id l : Decision (zdd_below m id l).
Proof. unfold zdd_below. destruct (ar_node_level _ _) as [[]|]; apply _. Defined.

(** The manager's API calls *)
Inductive zdd_call :=
  | ZHeader (level : nat) (label : String.string)
  | ZNode (h low high : nat)
  | ZOp (o : zop) (f g : nat)
  | ZGc (roots : list nat)
  | ZClear.

Definition zdd_op (o : zop) : zdd → nat → nat → option (zdd * nat) :=
  match o with
  | ZIntersect => zdd_intersect | ZUnion => zdd_union | ZSetdiff => zdd_setdiff
  | ZProduct => zdd_product | ZDivision => zdd_divide
  end.

Definition zdd_exec (m : zdd) (c : zdd_call) : option (zdd * nat) :=
  match c with
  | ZHeader l s => Some (zdd_create_header m l s)
  | ZNode h lo hi => Some (zdd_create_node m h lo hi)
  | ZOp o f g => zdd_op o m f g
  | ZGc roots => zdd_gc m roots
  | ZClear => Some (zdd_clear_cache m, 0)
  end.

(** What the caller owes. *)
Definition zdd_legal (m : zdd) (c : zdd_call) : Prop :=
  match c with
  | ZHeader _ _ | ZClear => True
  | ZNode h lo hi =>
      match ar_headers (z_ar m) !! h with
      | Some hd => (zdd_valid m lo ∧ zdd_below m lo (h_level hd)) ∧
                   (zdd_valid m hi ∧ zdd_below m hi (h_level hd))
      | None => False
      end
  | ZOp _ f g => zdd_valid m f ∧ zdd_valid m g
  | ZGc roots => Forall (zdd_valid m) roots
  end.
Global Instance zdd_legal_dec m c : Decision (zdd_legal m c).
Proof. destruct c; cbn; try apply _. destruct (ar_headers _ !! _); apply _. Defined.

(** Run a history of calls; [None] if a call is illegal or panics. *)
Fixpoint zdd_run (m : zdd) (cs : list zdd_call) : option zdd :=
  match cs with
  | [] => Some m
  | c :: cs => if decide (zdd_legal m c) then '(m', _) ← zdd_exec m c; zdd_run m' cs else None
  end.

Definition zdd_reachable (m : zdd) : Prop := ∃ cs, zdd_run zdd_new cs = Some m.

Definition zdd_levels_distinct (m : zdd) : Prop := NoDup (h_level <$> ar_headers (z_ar m)).

Inductive zdd_reaches (m : zdd) (roots : list nat) : nat → Prop :=
  | zrs_root r : r ∈ roots → zdd_reaches m roots r
  | zrs_edge id h cs c : zdd_reaches m roots id → ar_nodes (z_ar m) !! id = Some (NT h cs) → c ∈ cs →
      zdd_reaches m roots c.

(** The weak-division quotient of the families [F] and [G]. *)
Definition quotient (F G : gset nat → Prop) (Q : gset nat) : Prop :=
  ∀ B, G B → Q ## B ∧ F (Q ∪ B).

(** [C] and [S] agree on level [l] and above. *)
Definition agree_from (l : nat) (C S : gset nat) : Prop := ∀ x, l ≤ x → x ∈ C ↔ x ∈ S.
(** [A] is what [S] has at level [l] and above; and of the members of [F] that agree with [S] there, it is the only one. *)
Definition settles (F : gset nat → Prop) (S : gset nat) : Prop :=
  ∃ l A, (∀ x, x ∈ A ↔ x ∈ S ∧ l ≤ x) ∧ ∀ C, F C ∧ agree_from l C S ↔ C = A.
