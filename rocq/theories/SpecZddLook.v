(** Specification vocabulary for the inspection of a ZddNode. *)
From stdpp Require Import strings.
From Verif Require Import Prelude ComputeCache Arena Bdd BssMgr Zdd ZddMgr SpecZddMgr.

(** name [x] is known to the manager, at position [l] of its order *)
Definition place (w : zmgr) (x : string) (l : nat) : Prop :=
  ∃ hd, hd ∈ ar_headers (z_ar (y_zdd w)) ∧ h_label hd = x ∧ h_level hd = l.
(** [x] is an element of some member *)
Definition member_of_some (F : fam) (x : string) : Prop := ∃ S, F S ∧ x ∈ S.
(** among the elements of members, [x] is last in the order, at position [l] *)
Definition top_elem (w : zmgr) (F : fam) (l : nat) (x : string) : Prop :=
  place w x l ∧ member_of_some F x ∧ ∀ l' y, place w y l' → member_of_some F y → l' ≤ l.
(** the empty family or the family of the empty set *)
Definition trivial_fam (F : fam) : Prop := ∀ S, F S → S = ∅.
