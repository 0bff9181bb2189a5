(** Specification vocabulary for diagram sizes (C71, C72): decision graphs as anybody might draw them. *)
From stdpp Require Import strings.
From Verif Require Import Prelude SpecBssMgr.

(** number of vertices, terminals included, in a size report (nonterminals, terminals, edges) *)
Definition vertices (s : N * N * N) : N := (s.1.1 + s.1.2)%N.

(** A decision graph: vertex [i] is the [i]-th entry, either an answer or a test of a variable with two successors. *)
Inductive vertex := Answer (b : bool) | Test (x : string) (lo hi : nat).
Inductive answer_of (g : list vertex) (e : env) : nat → bool → Prop :=
  | ao_answer i b : g !! i = Some (Answer b) → answer_of g e i b
  | ao_test i x lo hi b : g !! i = Some (Test x lo hi) → answer_of g e (if e x then hi else lo) b → answer_of g e i b.
(** Every test is of a listed variable, its successors exist, and a successor that is a test is of a variable earlier in the list. *)
Definition earlier (names : list string) (g : list vertex) (k j : nat) : Prop :=
  match g !! j with
  | Some (Answer _) => True
  | Some (Test y _ _) => ∃ l, l < k ∧ names !! l = Some y
  | None => False
  end.
Definition graph_ordered (names : list string) (g : list vertex) : Prop :=
  ∀ i x lo hi, g !! i = Some (Test x lo hi) → ∃ k, names !! k = Some x ∧ earlier names g k lo ∧ earlier names g k hi.
