(** Specification vocabulary for inspecting a multi-state handle: what its function depends on. *)
From stdpp Require Import strings.
From Verif Require Import Prelude SpecMss.

(** [F] depends on the variable [x]: with every variable in one of its states, changing the state of [x] alone
    changes the value. *)
Definition mneeds (vars : list (string * nat)) (F : mfn) (x : string) : Prop :=
  ∃ e i j, states vars (menv_set e x i) ∧ states vars (menv_set e x j) ∧ F (menv_set e x i) ≠ F (menv_set e x j).
Definition mconstant (vars : list (string * nat)) (F : mfn) : Prop :=
  ∀ e e', states vars e → states vars e' → F e = F e'.
Definition always (vars : list (string * nat)) (F : mfn) (v : mval) : Prop := ∀ e, states vars e → F e = v.
(** [x] is the variable of [F] declared last, at position [l] *)
Definition mtop_var (vars : list (string * nat)) (F : mfn) (l : nat) (x : string) : Prop :=
  vars.*1 !! l = Some x ∧ mneeds vars F x ∧ ∀ l' y, vars.*1 !! l' = Some y → mneeds vars F y → l' ≤ l.
