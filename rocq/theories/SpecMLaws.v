(** Specification vocabulary for the laws of probability of multi-state diagrams. *)
From stdpp Require Import strings.
From Verif Require Import Prelude SpecBss SpecMss SpecMssAlg.

(** The event that the value of [F] is in [ss] never stops when states go up. *)
Definition rising (vars : list (string * nat)) (F : mfn) (ss : list Z) : Prop :=
  ∀ e e', states vars e → states vars e' → below_on vars e e' → chosen ss (F e) → chosen ss (F e').

Section tables.
Context {R : Type} (rO rI : R) (radd : R → R → R) (le : R → R → Prop).
(** every variable has one weight per state, and its weights sum to one *)
Definition distribution (vars : list (string * nat)) (t : gmap string (list R)) : Prop :=
  table_for vars t ∧ sums_to_one rO rI radd vars t.
(** and they are not negative *)
Definition proper (vars : list (string * nat)) (t : gmap string (list R)) : Prop :=
  distribution vars t ∧ ∀ s n ps, (s, n) ∈ vars → t !! s = Some ps → Forall (le rO) ps.
(** For every variable and every [k], the states from [k] upwards weigh in [t'] at least what they weigh in [t]. *)
Definition better (vars : list (string * nat)) (t t' : gmap string (list R)) : Prop :=
  ∀ s n ps qs k, (s, n) ∈ vars → t !! s = Some ps → t' !! s = Some qs → le (ring_sum rO radd (drop k ps)) (ring_sum rO radd (drop k qs)).
End tables.
