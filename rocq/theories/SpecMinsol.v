(** Specification vocabulary for minimal path and cut sets. *)
From Coq Require Import String.
From Verif Require Import Prelude Arena Bdd SpecBdd Zdd SpecZdd.

(** the node has a truth value under every assignment *)
Definition bdd_determined (m : bdd) (f : nat) : Prop := ∀ rho, ¬ bdd_value m rho f TUndet.

(** raising variables never turns the function from true to false *)
Definition bdd_monotone (m : bdd) (f : nat) : Prop :=
  ∀ rho rho' : nat → bool, (∀ l, rho l = true → rho' l = true) →
    bdd_value m rho f TOne → bdd_value m rho' f TOne.

(** exactly the variables in [S] true: the system works *)
Definition works (m : bdd) (f : nat) (S : gset nat) : Prop :=
  bdd_value m (λ l, bool_decide (l ∈ S)) f TOne.
(** exactly the variables in [S] false: the system fails *)
Definition fails (m : bdd) (f : nat) (S : gset nat) : Prop :=
  bdd_value m (λ l, bool_decide (l ∉ S)) f TZero.

Definition min_path_set (m : bdd) (f : nat) (S : gset nat) : Prop :=
  works m f S ∧ ∀ S', S' ⊂ S → ¬ works m f S'.
Definition min_cut_set (m : bdd) (f : nat) (S : gset nat) : Prop :=
  fails m f S ∧ ∀ S', S' ⊂ S → ¬ fails m f S'.

(** every valid node stays valid and denotes the same family *)
Definition zdd_keeps (z z' : zdd) : Prop :=
  ∀ id, zdd_valid z id → zdd_valid z' id ∧ (∀ S, zdd_mem z' id S ↔ zdd_mem z id S) ∧ (zdd_det z' id ↔ zdd_det z id).

(** [name] gives the label of each level *)
Definition bdd_names (m : bdd) (name : nat → string) : Prop :=
  ∀ h hd, ar_headers (b_ar m) !! h = Some hd → h_label hd = name (h_level hd).
Definition zdd_names (z : zdd) (name : nat → string) : Prop :=
  ∀ h hd, ar_headers (z_ar z) !! h = Some hd → h_label hd = name (h_level hd).
