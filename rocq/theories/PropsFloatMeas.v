(** C82-C83: Birnbaum importances computed in double precision. *)
From Coq Require Import Reals Lra ZArith.
From Flocq Require Import Core.Zaux Core.Raux Core.Defs IEEE754.BinarySingleNaN.
From stdpp Require Import strings.
From Verif Require Import Prelude ComputeCache Arena Bdd BssMgr SpecBdd SpecBss SpecEnclose
  BssAlg BssReach PropsBdd PropsBss Mdd MtMdd MtMdd2 MssMgr MssAlg SpecMdd SpecMss SpecMssAlg MssMgrProofs PropsMss PropsMssAlg
  Float64 SpecFloat64 Float64Proofs FloatMain FloatMeas FloatMMeas PropsFloat.

(** The table [pv] of doubles is within [delta] of the true table [rv].  Then [bmeas] returns a finite number for exactly the variables of the
    diagram, within (4 N + 2 n + 1) (2^-52 + delta) of the true difference of the two conditional probabilities.  N is the number of nodes that
    [size] reports and n the number of variables; the bound is assumed not to exceed 1. *)
Theorem c82_accurate delta m names rv pv ss f S sz nt ne : bss_reachable m → bdd_valid m f → bdd_order m names → NoDup names →
  (∀ rho, ∃ b, bdd_value m rho f (tvb b)) → (0 <= delta)%R → table_rel (approx delta) rv pv →
  NoDup S → (∀ v, v ∈ S ↔ length v = length names ∧ ∃ b, b ∈ ss ∧ bdd_value m (vrho v) f (tvb b)) →
  bdd_node_size m f = Some (sz, nt, ne) →
  let B := (INR (4 * N.to_nat sz + 2 * length names + 1) * (f64_epsilon + delta))%R in (B <= 1)%R →
  ∃ g, f64_bmeas m pv ss f = Some g ∧ (∀ x, is_Some (g !! x) ↔ bdd_occurs m f x) ∧
    (∀ x v, g !! x = Some v → f64_finite v ∧
       (Rabs (f64_real v - (rsumR (weight 0 1 Rmult Rminus (<[x := 1]> rv) names <$> S) -
                            rsumR (weight 0 1 Rmult Rminus (<[x := 0]> rv) names <$> S))) <= B)%R).
Proof. exact (λ Hm, bmeas_f64_l delta m names rv pv ss f S sz nt ne (bss_wf m Hm)). Qed.
Print Assumptions c82_accurate.

(** The table of C79: within a quarter of 2^-52 of 0.1, 0.2, 0.3; the bound is met. *)
Example c82_hyps : (INR (4 * N.to_nat 3 + 2 * 3 + 1) * (f64_epsilon + f64_epsilon / 4) <= 1)%R.
Proof.
  assert (INR (4 * N.to_nat 3 + 2 * 3 + 1) = 19%R) as -> by (rewrite INR_IZR_INZ; done).
  unfold f64_epsilon. change (bpow radix2 (-52)) with (/ IZR 4503599627370496)%R. lra.
Qed.
(** 0.14, 0.07 and 0.98 *)
Example c82_ex : (m ← bdd_run bdd_new ex_calls; g ← f64_bmeas m fv3 [true] 7; Some (bdd_node_size m 7, map (λ p, (p.1, B2SF p.2)) (map_to_list g))) =
  Some (Some (3, 2, 6)%N, [("x0"%string, SpecFloat.S754_finite false 5044031582654955 (-55));
    ("x2"%string, SpecFloat.S754_finite false 8827055269646172 (-53)); ("x1"%string, SpecFloat.S754_finite false 5044031582654955 (-56))]).
Proof. vm_compute. done. Qed.

(** ** C83: multi-state systems *)
(** The rows of doubles [pv] are within [delta] of true probability rows [rv].  Then [bmeas] returns, for exactly the variables of the diagram, one
    finite number per pair of neighbouring states; number k is within (2 E + 2 N + 1) (2^-52 + 2 delta) of the true difference between the
    probability given state k+1 and the probability given state k.  E is the number of edges that [size] reports and N the total number of states;
    the bound is assumed not to exceed 1. *)
Theorem c83_accurate I w H x F ss delta rv pv L sz nt ne : mdd_held I w H → (x, Some F) ∈ H →
  (0 <= delta)%R → table_for (declared w) rv → sums_to_one 0%R 1%R Rplus (declared w) rv → table_rel (Forall2 (approx delta)) rv pv →
  solutions (declared w) (declared w) F ss L → g_size w x = Some (sz, nt, ne) →
  let B := (INR (2 * N.to_nat ne + 2 * states_of w + 1) * (2 * delta + f64_epsilon))%R in (B <= 1)%R →
  ∃ g, f64_mbmeas w x pv ss = Some g ∧ (∀ s, is_Some (g !! s) ↔ m_occurs w x s) ∧
    ∀ s n slot, g !! s = Some slot → (s, n) ∈ declared w → S (length slot) = n ∧
      ∀ k v, slot !! k = Some v → f64_finite v ∧
        (Rabs (f64_real v - (rsumR (mweight 0 1 Rmult (<[s := certain 0 1 n (S k)]> rv) (declared w) <$> L) -
                             rsumR (mweight 0 1 Rmult (<[s := certain 0 1 n k]> rv) (declared w) <$> L))) <= B)%R.
Proof. exact (held_bmeas64 I w H x F ss delta rv pv L sz nt ne). Qed.
Print Assumptions c83_accurate.

(** x + y and x + y >= 2 over x : 3, y : 2; P(x = 0, 1, 2) = 0.33, 0.56, 0.11 and y is up half the time *)
Definition fxy : gmap string (list f64) := <["y" := [f64_lit 1 (-1); f64_lit 1 (-1)]]> fx3.
Definition rxy : gmap string (list R) := <["y" := [1/2; 1/2]%R]> rx3.
Example c83_table : table_rel (Forall2 (approx (f64_epsilon / 4))) rxy fxy.
Proof. unfold rxy, fxy. apply table_insert; [apply c80_table|]. repeat (apply Forall2_cons; split; [literal|]). apply Forall2_nil; done. Qed.
Example c83_hyps w a f : ex_a = Some (w, a, f) → ∃ H, mdd_held i32_checked w H ∧
  (a, Some (λ e, VI (VVal (ex_add e)))) ∈ H ∧ (f, Some (λ e, VB (bool_decide (ex_add e >= 2)%Z))) ∈ H ∧
  table_for (declared w) rxy ∧ sums_to_one 0%R 1%R Rplus (declared w) rxy ∧ g_size w a = Some (3, 4, 8)%N ∧
  (INR (2 * N.to_nat 8 + 2 * states_of w + 1) * (2 * (f64_epsilon / 4) + f64_epsilon) <= 1)%R.
Proof.
  intros Hex. destruct (c32_ex_held w a f Hex) as (H & Hm & _ & _ & Ha & Hf).
  assert (Hvo : ('(w, a, _) ← ex_a; Some (declared w, g_size w a)) = Some ([("x", 3); ("y", 2)]%string, Some (3, 4, 8)%N)) by (vm_compute; reflexivity).
  rewrite Hex in Hvo. cbn [mbind option_bind] in Hvo. injection Hvo as Hd Hs.
  exists H. unfold states_of. rewrite Hd. sp; [done|done|done| | |done|].
  - intros s n [[= -> ->]|[= -> ->]%elem_of_list_singleton]%elem_of_cons; eexists; (split; [vm_compute; reflexivity|done]).
  - intros s n ps [[= -> ->]|[= -> ->]%elem_of_list_singleton]%elem_of_cons; unfold rxy, rx3.
    + rewrite lookup_insert_ne, lookup_singleton by done. intros [= <-]. unfold ring_sum. cbn. lra.
    + rewrite lookup_insert. intros [= <-]. unfold ring_sum. cbn. lra.
  - assert (INR (2 * N.to_nat 8 + 2 * sum_list [("x"%string, 3); ("y"%string, 2)].*2 + 1) = 27%R) as -> by (rewrite INR_IZR_INZ; done).
    unfold f64_epsilon. change (bpow radix2 (-52)) with (/ IZR 4503599627370496)%R. lra.
Qed.
(** 0.5 and 0 for x, 0.45 for y *)
Example c83_ex : ('(w, a, f) ← ex_a; g ← f64_mbmeas w a fxy [2%Z]; Some (map (λ p, (p.1, map B2SF p.2)) (map_to_list g))) =
  Some [("x"%string, [SpecFloat.S754_finite false 4503599627370496 (-53); SpecFloat.S754_zero false]);
        ("y"%string, [SpecFloat.S754_finite false 8106479329266894 (-54)])].
Proof. vm_compute. done. Qed.
