(** Vocabulary for the [f64] instances of [prob]. *)
From Coq Require Import Reals.
From stdpp Require Import strings.
From Verif Require Import Prelude Bdd BssAlg MssMgr MssAlg SpecBss SpecMss SpecMssAlg MssMgrProofs Float64.

(** [prob] at [T = f64]: BddNode::prob (bss/src/bdd.rs, bdd_prob.rs:5-45) and MddNode::prob (mss/src/mdd_prob.rs:6-26) *)
Definition f64_prob := bdd_prob f64_zero f64_one f64_add f64_mul f64_sub.
Definition f64_mprob := g_prob f64_zero f64_one f64_add f64_mul.
(** a table of probabilities *)
Definition units64 (pv : gmap string f64) : Prop := ∀ x p, pv !! x = Some p → unit64 p.
(** the total number of states of all declared variables *)
Definition states_of (w : mmgr) : nat := sum_list (declared w).*2.
Notation rsumR := (ring_sum 0%R Rplus).
(** [bmeas] at [T = f64]: BddNode::bmeas (bss/src/bdd.rs, bdd_prob.rs:47-93) *)
Definition f64_bmeas := bdd_bmeas f64_zero f64_one f64_add f64_mul f64_sub.
(** the multi-state [bmeas] at [T = f64]: MddNode::bmeas (mss/src/mdd.rs:911-925, mdd_prob.rs:146-276) *)
Definition f64_mbmeas := g_bmeas f64_zero f64_one f64_add f64_mul f64_sub.
