(** Specification vocabulary: which variables a multi-state structure function depends on. *)
From Coq Require Import ZArith.
From stdpp Require Import strings.
From Verif Require Import Prelude SpecMss.

(** [phi] depends on the variable [y]: changing the state of [y] alone changes the level. *)
Definition phi_needs (vars : list (string * nat)) (phi : menv → Z) (y : string) : Prop :=
  ∃ e i j, states vars (menv_set e y i) ∧ states vars (menv_set e y j) ∧ phi (menv_set e y i) ≠ phi (menv_set e y j).
