(** Specification vocabulary for the sizes of multi-state diagrams (C73): decision graphs whose tests have one successor per state. *)
From stdpp Require Import strings.
From Verif Require Import Prelude SpecMss.

Inductive mvertex := MAnswer (v : mval) | MTest (x : string) (next : list nat).
Inductive m_answer_of (g : list mvertex) (e : menv) : nat → mval → Prop :=
  | mao_answer i v : g !! i = Some (MAnswer v) → m_answer_of g e i v
  | mao_test i x next j v : g !! i = Some (MTest x next) → next !! e x = Some j → m_answer_of g e j v → m_answer_of g e i v.
(** [vars]: the variables with their numbers of states.  Every test is of a listed variable and has one successor per state;
    a successor that is a test is of a variable earlier in the list. *)
Definition m_earlier (vars : list (string * nat)) (g : list mvertex) (k j : nat) : Prop :=
  match g !! j with
  | Some (MAnswer _) => True
  | Some (MTest y _) => ∃ l n, l < k ∧ vars !! l = Some (y, n)
  | None => False
  end.
Definition m_graph_ordered (vars : list (string * nat)) (g : list mvertex) : Prop :=
  ∀ i x next, g !! i = Some (MTest x next) → ∃ k n, vars !! k = Some (x, n) ∧ length next = n ∧ ∀ j, j ∈ next → m_earlier vars g k j.
