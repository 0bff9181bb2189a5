(** Specification vocabulary for inspecting a handle: what its function depends on. *)
From stdpp Require Import strings.
From Verif Require Import Prelude SpecBssMgr.

(** [F] depends on the variable [x]: under some assignment, changing [x] alone changes the value. *)
Definition needs (F : nfun) (x : string) : Prop := ∃ e, F (env_set e x true) ≠ F (env_set e x false).
Definition constant (F : nfun) : Prop := ∀ e e', F e = F e'.
(** [x] is the variable of [F] that comes last in the order [names], at position [l] *)
Definition top_var (names : list string) (F : nfun) (l : nat) (x : string) : Prop :=
  names !! l = Some x ∧ needs F x ∧ ∀ l' y, names !! l' = Some y → needs F y → l' ≤ l.
(** the assignment given by a vector: entry [l] is the value of the variable at position [l] *)
Definition vec_env (names : list string) (v : list bool) : env :=
  λ x, existsb (λ p : string * bool, String.eqb p.1 x && p.2) (zip names v).
