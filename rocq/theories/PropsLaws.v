(** C90: the probability of a BDD handle obeys the laws of probability.
    Model: BssLook.v ([w_prob], [w_bmeas]: bss/src/bdd.rs:478-506, bss/src/bdd_prob.rs:5-144).
    Vocabulary: SpecLaws.v ([ordered], [entry], [increasing]), SpecBssLook.v ([needs]), SpecBssMgr.v ([bss_held]). *)
From Coq Require Import Ring_theory QArith Qcanon.
From stdpp Require Import strings.
From Verif Require Import Prelude ComputeCache Arena Trees Bdd BssAlg BssMgr SpecBdd SpecBss SpecBssMgr BssLook SpecBssLook SpecLaws LawsMain PropsBssMgr.

Global Set Default Goal Selector "!".

(** Equations.  [P t f]: the probability that [f] holds under the table [t]; the numbers are those of any commutative ring.
    P(true or false) = 1 and P(true) + P(false) = 1; complement; inclusion-exclusion; duality (1 - P of the dual under the
    complementary table); pivotal decomposition at any variable; the entry of a variable not needed by [f] does not matter. *)
Theorem c90_equations {R : Type} (rO rI : R) radd rmul rsub ropp (Rth : ring_theory rO rI radd rmul rsub ropp eq)
  w H names : bss_held w H → w_varorder w = Some names →
  let P t f := w_prob rO rI radd rmul rsub w t [true] f in
  (∀ t f F, (f, F) ∈ H → ∃ p q, P t f = Some p ∧ w_prob rO rI radd rmul rsub w t [false] f = Some q ∧ radd p q = rI ∧
     w_prob rO rI radd rmul rsub w t [false; true] f = Some rI ∧ w_prob rO rI radd rmul rsub w t [] f = Some rO) ∧
  (∀ t f F g G, (f, F) ∈ H → (g, G) ∈ H → (∀ e, G e = negb (F e)) → ∃ p q, P t f = Some p ∧ P t g = Some q ∧ q = rsub rI p) ∧
  (∀ t f F g G a A o O, (f, F) ∈ H → (g, G) ∈ H → (a, A) ∈ H → (o, O) ∈ H → (∀ e, A e = F e && G e) → (∀ e, O e = F e || G e) →
     ∃ pf pg pa po, P t f = Some pf ∧ P t g = Some pg ∧ P t a = Some pa ∧ P t o = Some po ∧ radd pa po = radd pf pg) ∧
  (∀ t t' f F g G, (f, F) ∈ H → (g, G) ∈ H → (∀ e, G e = negb (F (λ x, negb (e x)))) →
     (∀ x, x ∈ names → entry rO t' x = rsub rI (entry rO t x)) → ∃ p q, P t f = Some p ∧ P t' g = Some q ∧ q = rsub rI p) ∧
  (∀ t f F x, (f, F) ∈ H → ∃ p p1 p0, P t f = Some p ∧ P (<[x := rI]> t) f = Some p1 ∧ P (<[x := rO]> t) f = Some p0 ∧
     p = radd (rmul (entry rO t x) p1) (rmul (rsub rI (entry rO t x)) p0)) ∧
  (∀ t f F x r, (f, F) ∈ H → ¬ needs F x → P (<[x := r]> t) f = P t f).
Proof.
  intros Hh Hn P. split; [|split; [|split; [|split; [|split]]]].
  - intros t f F. exact (law_split rO rI radd rmul rsub ropp Rth w H names Hh Hn t f F).
  - intros t f F g G. exact (law_not rO rI radd rmul rsub ropp Rth w H names Hh Hn t f F g G).
  - intros t f F g G a A o O. exact (law_incl rO rI radd rmul rsub ropp Rth w H names Hh Hn t f F g G a A o O).
  - intros t t' f F g G. exact (law_dual rO rI radd rmul rsub ropp Rth w H names Hh Hn t t' f F g G).
  - intros t f F x. exact (law_pivot rO rI radd rmul rsub ropp Rth w H names Hh Hn t [true] f F x).
  - intros t f F x r. exact (law_same rO rI radd rmul rsub ropp Rth w H names Hh Hn t [true] f F x r).
Qed.
Print Assumptions c90_equations.

(** Inequalities, when every entry of a table lies between 0 and 1: a probability lies between 0 and 1; it does not go down from [f]
    to a handle that holds whenever [f] does; for an increasing [f] (a coherent structure) it does not go down when entries go up,
    and every importance returned by bmeas lies between 0 and 1. *)
Theorem c90_bounds {R : Type} (rO rI : R) radd rmul rsub ropp (Rth : ring_theory rO rI radd rmul rsub ropp eq)
  (le : R → R → Prop) (Hle : ordered rO rI radd rmul le) w H names : bss_held w H → w_varorder w = Some names →
  let P t f := w_prob rO rI radd rmul rsub w t [true] f in
  let proper t := ∀ x, x ∈ names → le rO (entry rO t x) ∧ le (entry rO t x) rI in
  (∀ t ss f F, (f, F) ∈ H → proper t → ∃ p, w_prob rO rI radd rmul rsub w t ss f = Some p ∧ le rO p ∧ le p rI) ∧
  (∀ t f F g G, (f, F) ∈ H → (g, G) ∈ H → proper t → (∀ e, F e = true → G e = true) → ∃ p q, P t f = Some p ∧ P t g = Some q ∧ le p q) ∧
  (∀ t t' f F, (f, F) ∈ H → increasing F → proper t → proper t' → (∀ x, x ∈ names → le (entry rO t x) (entry rO t' x)) →
     ∃ p q, P t f = Some p ∧ P t' f = Some q ∧ le p q) ∧
  (∀ t f F, (f, F) ∈ H → increasing F → proper t → ∃ g, w_bmeas rO rI radd rmul rsub w t [true] f = Some g ∧
     ∀ x v, g !! x = Some v → le rO v ∧ le v rI).
Proof.
  intros Hh Hn P proper. split; [|split; [|split]].
  - intros t ss f F. exact (law_range rO rI radd rmul rsub ropp Rth w H names Hh Hn le Hle t ss f F).
  - intros t f F g G. exact (law_mono rO rI radd rmul rsub ropp Rth w H names Hh Hn le Hle t f F g G).
  - intros t t' f F. exact (law_table rO rI radd rmul rsub ropp Rth w H names Hh Hn le Hle t t' f F).
  - intros t f F. exact (law_meas rO rI radd rmul rsub ropp Rth w H names Hh Hn le Hle t f F).
Qed.
Print Assumptions c90_bounds.

(** The hypotheses on the numbers hold of the rationals. *)
Example c90_ex_ring : ring_theory 0%Qc 1%Qc Qcplus Qcmult Qcminus Qcopp eq.
Proof. exact Qcrt. Qed.
Example c90_ex_ordered : ordered 0%Qc 1%Qc Qcplus Qcmult Qcle.
Proof.
  constructor.
  - apply Qcle_refl.
  - apply Qcle_trans.
  - intros a b c Hab. apply Qcplus_le_compat; [done|apply Qcle_refl].
  - intros a b Ha Hb. rewrite <- (Qcmult_0_l b). by apply Qcmult_le_compat_r.
  - discriminate.
Qed.

(** f = (x & y) | z, an increasing function, in the manager [ex_w] with the variables x, y, z;
    entries 1/2, 1/3, 1/5, and with 1/3 raised to 1/2. *)
Definition ex_pv (q : Q) : gmap string Qc := list_to_map [("x", Q2Qc (Qmake 1 2)); ("y", Q2Qc q); ("z", Q2Qc (Qmake 1 5))]%string.
Example c90_ex_increasing : increasing (λ e : env, (e "x" && e "y") || e "z")%string.
Proof.
  intros e e' He. rewrite !orb_true_iff, !andb_true_iff. intros [[Hx Hy]|Hz]; [left; split|right]; by apply He.
Qed.
Example c90_ex : (r ← ex_w; let '(w, f, g) := r in '(w, n) ← w_not w f;
    p ← w_prob 0%Qc 1%Qc Qcplus Qcmult Qcminus w (ex_pv (Qmake 1 3)) [true] f;
    q ← w_prob 0%Qc 1%Qc Qcplus Qcmult Qcminus w (ex_pv (Qmake 1 2)) [true] f;
    m ← w_prob 0%Qc 1%Qc Qcplus Qcmult Qcminus w (ex_pv (Qmake 1 3)) [true] n;
    b ← w_bmeas 0%Qc 1%Qc Qcplus Qcmult Qcminus w (ex_pv (Qmake 1 3)) [true] f;
    Some (this p, this q, this m, (λ '(x, v), (x, this v)) <$> map_to_list b)) =
  Some (Qmake 1 3, Qmake 2 5, Qmake 2 3, [("x", Qmake 4 15); ("z", Qmake 5 6); ("y", Qmake 2 5)]%string).
Proof. vm_compute. done. Qed.
