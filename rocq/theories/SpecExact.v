(** Vocabulary for C77: two nodes of two managers denote the same function. *)
From Verif Require Import Prelude ComputeCache Arena Bdd SpecBdd.

(** [f1] in [m1] and [f2] in [m2] have the same value, undetermined included, under every assignment of the levels. *)
Definition same_fun (m1 : bdd) (f1 : nat) (m2 : bdd) (f2 : nat) : Prop :=
  ∀ rho t, bdd_value m1 rho f1 t ↔ bdd_value m2 rho f2 t.
