(** C91: the probability of a multi-state handle obeys the laws of probability.
    Model: MssAlg.v ([g_prob], [g_bmeas]: mss/src/mdd.rs:884-925, mss/src/mdd_prob.rs:6-276).
    Vocabulary: SpecMssAlg.v ([chosen], [declared], [certain]), SpecMLaws.v, SpecMssLook.v ([mneeds]), SpecLaws.v ([ordered]). *)
From Coq Require Import ZArith QArith Qcanon Ring_theory.
From stdpp Require Import strings.
From Verif Require Import Prelude ComputeCache Arena Bdd Mdd MtMdd MtMdd2 BssMgr MssMgr MssAlg SpecBss SpecMdd SpecMss SpecMssAlg SpecMssLook
  SpecLaws SpecMLaws MLawsMain MssLook PropsMssLook.

Global Set Default Goal Selector "!".

(** Equations, for weights of any commutative ring that sum to one.  [P t x ss]: the probability that the value of [x] is in [ss].
    An event and its complement; a sure event; inclusion-exclusion, in particular P(ss ++ ss') = P(ss) + P(ss') for disjoint sets;
    the law of total probability over the states of any variable; the row of a variable that [x] does not need does not matter. *)
Theorem c91_equations {R : Type} (rO rI : R) radd rmul rsub ropp (Rth : ring_theory rO rI radd rmul rsub ropp eq)
  I w H : mdd_held I w H →
  let vars := declared w in
  let P t x ss := g_prob rO rI radd rmul w x t ss in
  ∀ t, distribution rO rI radd vars t →
  (∀ x F ss y G ss', (x, Some F) ∈ H → (y, Some G) ∈ H → (∀ e, states vars e → chosen ss' (G e) ↔ ¬ chosen ss (F e)) →
     ∃ p q, P t x ss = Some p ∧ P t y ss' = Some q ∧ radd p q = rI) ∧
  (∀ x F ss, (x, Some F) ∈ H → (∀ e, states vars e → chosen ss (F e)) → P t x ss = Some rI) ∧
  (∀ x F s1 y G s2 a A s3 o O s4, (x, Some F) ∈ H → (y, Some G) ∈ H → (a, Some A) ∈ H → (o, Some O) ∈ H →
     (∀ e, states vars e → chosen s3 (A e) ↔ chosen s1 (F e) ∧ chosen s2 (G e)) →
     (∀ e, states vars e → chosen s4 (O e) ↔ chosen s1 (F e) ∨ chosen s2 (G e)) →
     ∃ px py pa po, P t x s1 = Some px ∧ P t y s2 = Some py ∧ P t a s3 = Some pa ∧ P t o s4 = Some po ∧ radd pa po = radd px py) ∧
  (∀ x F ss s n ps, (x, Some F) ∈ H → (s, n) ∈ vars → t !! s = Some ps →
     ∃ p qs, P t x ss = Some p ∧ length qs = n ∧ (∀ j q, qs !! j = Some q → P (<[s := certain rO rI n j]> t) x ss = Some q) ∧
       p = ring_sum rO radd (zip_with rmul ps qs)) ∧
  (∀ x F ss s n r, (x, Some F) ∈ H → (s, n) ∈ vars → length r = n → ring_sum rO radd r = rI → ¬ mneeds vars F s →
     P (<[s := r]> t) x ss = P t x ss).
Proof.
  intros Hm vars P t Ht. split; [|split; [|split; [|split]]].
  - intros x F ss y G ss' Hx Hy. exact (mlaw_not rO rI radd rmul rsub ropp Rth I w H Hm t x F ss y G ss' Hx Hy Ht).
  - intros x F ss Hx. exact (mlaw_all rO rI radd rmul rsub ropp Rth I w H Hm t x F ss Hx Ht).
  - intros x F s1 y G s2 a A s3 o O s4 Hx Hy Ha Ho. exact (mlaw_incl rO rI radd rmul rsub ropp Rth I w H Hm t x F s1 y G s2 a A s3 o O s4 Hx Hy Ha Ho Ht).
  - intros x F ss s n ps Hx. exact (mlaw_pivot rO rI radd rmul rsub ropp Rth I w H Hm t x F ss s n ps Hx Ht).
  - intros x F ss s n r Hx. exact (mlaw_same rO rI radd rmul rsub ropp Rth I w H Hm t x F ss s n r Hx Ht).
Qed.
Print Assumptions c91_equations.

(** Inequalities, for weights that are not negative: a probability lies between 0 and 1; it does not go down from one event to another
    that happens whenever the first does; for an event that never stops when states go up, it does not go down when weight moves to
    higher states, and every importance returned by bmeas lies between 0 and 1. *)
Theorem c91_bounds {R : Type} (rO rI : R) radd rmul rsub ropp (Rth : ring_theory rO rI radd rmul rsub ropp eq)
  (le : R → R → Prop) (Hle : ordered rO rI radd rmul le) I w H : mdd_held I w H →
  let vars := declared w in
  let P t x ss := g_prob rO rI radd rmul w x t ss in
  ∀ t, proper rO rI radd le vars t →
  (∀ x F ss, (x, Some F) ∈ H → ∃ p, P t x ss = Some p ∧ le rO p ∧ le p rI) ∧
  (∀ x F ss y G ss', (x, Some F) ∈ H → (y, Some G) ∈ H → (∀ e, states vars e → chosen ss (F e) → chosen ss' (G e)) →
     ∃ p q, P t x ss = Some p ∧ P t y ss' = Some q ∧ le p q) ∧
  (∀ t' x F ss, (x, Some F) ∈ H → rising vars F ss → proper rO rI radd le vars t' → better rO radd le vars t t' →
     ∃ p q, P t x ss = Some p ∧ P t' x ss = Some q ∧ le p q) ∧
  (∀ x F ss, (x, Some F) ∈ H → rising vars F ss → ∃ g, g_bmeas rO rI radd rmul rsub w x t ss = Some g ∧
     ∀ s n slot k v, g !! s = Some slot → (s, n) ∈ vars → slot !! k = Some v → le rO v ∧ le v rI).
Proof.
  intros Hm vars P t Ht. split; [|split; [|split]].
  - intros x F ss Hx. exact (mlaw_range rO rI radd rmul rsub ropp Rth I w H Hm le Hle t x F ss Hx Ht).
  - intros x F ss y G ss' Hx Hy. exact (mlaw_mono rO rI radd rmul rsub ropp Rth I w H Hm le Hle t x F ss y G ss' Hx Hy Ht).
  - intros t' x F ss Hx Hr. exact (mlaw_table rO rI radd rmul rsub ropp Rth I w H Hm le Hle t t' x F ss Hx Hr Ht).
  - intros x F ss Hx Hr. exact (mlaw_meas rO rI radd rmul rsub ropp Rth I w H Hm le Hle t x F ss Hx Hr Ht).
Qed.
Print Assumptions c91_bounds.

(** "The level is at least [k]" is such an event for a monotone structure, if [ss] lists the levels from [k] upwards that are taken. *)
Example c91_ex_rising vars F phi ss k : is_phi vars F phi → monotone vars phi → (∀ e, states vars e → phi e ∈ ss ↔ (k <= phi e)%Z) → rising vars F ss.
Proof.
  intros Hp Hm Hk e e' He He' Hb (z & Hz & Ez). rewrite (Hp e He) in Ez. injection Ez as <-. exists (phi e'). split; [|by apply Hp].
  apply Hk; [done|]. apply Hk in Hz; [|done]. etrans; [exact Hz|by apply Hm].
Qed.

(** f = x + y with three states of x and two of y (manager [ex_look]): P(f = 2), P(f = 3), P(f >= 2), the latter again with weight of x
    moved to its last state, and the importances for f >= 2. *)
Definition ex_t (a b c : Q) : gmap string (list Qc) := list_to_map [("x", [Q2Qc a; Q2Qc b; Q2Qc c]); ("y", [Q2Qc (Qmake 1 4); Q2Qc (Qmake 3 4)])]%string.
Example c91_ex : (r ← ex_look; let '(w, f, g) := r in
    let t := ex_t (Qmake 1 2) (Qmake 1 3) (Qmake 1 6) in let t' := ex_t (Qmake 1 2) (Qmake 1 6) (Qmake 1 3) in
    let P t ss := g_prob 0%Qc 1%Qc Qcplus Qcmult w f t ss in
    p2 ← P t [2%Z]; p3 ← P t [3%Z]; p ← P t [2%Z; 3%Z]; q ← P t' [2%Z; 3%Z]; pg ← g_prob 0%Qc 1%Qc Qcplus Qcmult w g t [1%Z];
    b ← g_bmeas 0%Qc 1%Qc Qcplus Qcmult Qcminus w f t [2%Z; 3%Z];
    Some (this p2, this p3, this p, this q, this pg, (λ y : string * list Qc, (y.1, this <$> y.2)) <$> map_to_list b)) =
  Some (Qmake 7 24, Qmake 1 8, Qmake 5 12, Qmake 11 24, Qmake 5 12, [("x", [Qmake 3 4; Qmake 1 4]); ("y", [Qmake 1 3])]%string).
Proof. vm_compute. done. Qed.
