(** C79 - C81: probabilities computed in double precision. *)
From Coq Require Import Reals Lra ZArith.
From Flocq Require Import Core.Zaux Core.Raux Core.Defs IEEE754.BinarySingleNaN.
From stdpp Require Import strings.
From Verif Require Import Prelude ComputeCache Arena Bdd Mdd MtMdd MtMdd2 BssMgr MssMgr MssAlg SpecBdd SpecBss SpecMdd SpecMss SpecMssAlg SpecEnclose
  BssAlg BssReach PropsBdd PropsBss MssMgrProofs Float64 SpecFloat64 Float64Proofs FloatMain FloatMMain.

(** ** C79: two-state systems *)
(** The table [pv] of doubles is within [delta] of the true table [rv].  Then [prob] returns a finite number between 0 and 1, within
    n (2^-52 + delta) of the true probability, n being the number of variables. *)
Theorem c79_accurate delta m names rv pv ss f S : bss_reachable m → bdd_valid m f → bdd_order m names →
  (∀ rho, ∃ b, bdd_value m rho f (tvb b)) → (0 <= delta)%R → table_rel (approx delta) rv pv →
  NoDup S → (∀ v, v ∈ S ↔ length v = length names ∧ ∃ b, b ∈ ss ∧ bdd_value m (vrho v) f (tvb b)) →
  ∃ r, f64_prob m pv ss f = Some r ∧ unit64 r ∧
    (Rabs (f64_real r - rsumR (weight 0 1 Rmult Rminus rv names <$> S)) <= INR (length names) * (f64_epsilon + delta))%R.
Proof. exact (λ Hm, prob_f64_l delta m names rv pv ss f S (bss_wf m Hm)). Qed.
Print Assumptions c79_accurate.

(** The case of a table that is exact. *)
Theorem c79_exact_table m names pv ss f S : bss_reachable m → bdd_valid m f → bdd_order m names →
  (∀ rho, ∃ b, bdd_value m rho f (tvb b)) → units64 pv →
  NoDup S → (∀ v, v ∈ S ↔ length v = length names ∧ ∃ b, b ∈ ss ∧ bdd_value m (vrho v) f (tvb b)) →
  ∃ r, f64_prob m pv ss f = Some r ∧ unit64 r ∧
    (Rabs (f64_real r - rsumR (weight 0 1 Rmult Rminus (f64_real <$> pv) names <$> S)) <= INR (length names) * f64_epsilon)%R.
Proof.
  intros Hm Hf Ho Hd Hu Hnd HS. rewrite <- (Rplus_0_r f64_epsilon).
  exact (c79_accurate 0 m names _ pv ss f S Hm Hf Ho Hd (Rle_refl 0) (approx_real pv Hu) Hnd HS).
Qed.
Print Assumptions c79_exact_table.

(** With probabilities 0 and 1 the answer is exactly 0 or 1: the value of the function at that assignment. *)
Theorem c79_certain m names pv ss f (rho : nat → bool) b : bss_reachable m → bdd_valid m f → bdd_order m names →
  (∀ rho, ∃ b, bdd_value m rho f (tvb b)) → units64 pv →
  (∀ l x, names !! l = Some x → f64_real (default f64_zero (pv !! x)) = if rho l then 1%R else 0%R) →
  bdd_value m rho f (tvb b) →
  ∃ r, f64_prob m pv ss f = Some r ∧ unit64 r ∧ f64_real r = if bool_decide (b ∈ ss) then 1%R else 0%R.
Proof. exact (λ Hm, prob_f64_certain_l m names pv ss f rho b (bss_wf m Hm)). Qed.
Print Assumptions c79_certain.

(** The doubles nearest to 0.1, 0.2 and 0.3. *)
Definition fv3 : gmap string f64 :=
  {[ "x0" := f64_lit 3602879701896397 (-55); "x1" := f64_lit 3602879701896397 (-54); "x2" := f64_lit 5404319552844595 (-54) ]}.
Definition rv3 : gmap string R := {[ "x0" := (1/10)%R; "x1" := (2/10)%R; "x2" := (3/10)%R ]}.
Lemma real_sf x sf : B2SF x = sf → is_finite_SF sf = true → f64_finite x ∧ f64_real x = SF2R radix2 sf.
Proof. intros <- Hf. split; [by rewrite is_finite_SF_B2SF in Hf|]. symmetry. apply SF2R_B2SF. Qed.
Lemma table_insert {X Y} (P : X → Y → Prop) m m' k x y : table_rel P m m' → P x y → table_rel P (<[ (k : string) := x ]> m) (<[ k := y ]> m').
Proof.
  intros Hm H k'. destruct (decide (k' = k)) as [->|Hn]; [rewrite !lookup_insert; by constructor|].
  rewrite !lookup_insert_ne by done. apply Hm.
Qed.
Ltac literal := lazymatch goal with |- approx _ _ ?x =>
    let sf := eval vm_compute in (B2SF x) in
    let E := fresh "E" in let F := fresh "F" in
    destruct (real_sf x sf) as [F E]; [vm_compute; reflexivity|reflexivity|];
    unfold approx, unit64; rewrite E; clear E; unfold SF2R, F2R, f64_epsilon; cbn [Fnum Fexp SpecFloat.cond_Zopp];
    repeat lazymatch goal with |- context [bpow radix2 (Zneg ?p)] =>
      let k := eval vm_compute in (Z.pow_pos 2 p) in change (bpow radix2 (Zneg p)) with (/ IZR k)%R end;
    (refine (conj (conj F _) (conj _ _)); [lra|lra|apply Rabs_le; lra]) end.
Example c79_table : table_rel (approx (f64_epsilon / 4)) rv3 fv3.
Proof.
  unfold rv3, fv3. repeat (apply table_insert; [|literal]). intros k. rewrite !lookup_empty. constructor.
Qed.
Example c79_ex : (m ← bdd_run bdd_new ex_calls; r ← f64_prob m fv3 [true] 7; Some (B2SF r)) =
  Some (SpecFloat.S754_finite false 5656521131977343 (-54)). (* 0.31399999999999995; the true value is 0.314 *)
Proof. vm_compute. done. Qed.

(** ** C80: multi-state systems *)
(** The rows of doubles [pv] are within [delta] of true probability rows [rv].  Then [prob] returns a finite number, not negative, within
    N (2^-52 + 2 delta) of the true probability, N being the total number of states (if that bound is below 1). *)
Theorem c80_accurate I w H x F ss delta rv pv L : mdd_held I w H → (x, Some F) ∈ H →
  (0 <= delta)%R → table_for (declared w) rv → sums_to_one 0%R 1%R Rplus (declared w) rv → table_rel (Forall2 (approx delta)) rv pv →
  (INR (states_of w) * (2 * delta + f64_epsilon) <= 1)%R → solutions (declared w) (declared w) F ss L →
  ∃ r, f64_mprob w x pv ss = Some r ∧ f64_finite r ∧ (0 <= f64_real r)%R ∧
    (Rabs (f64_real r - rsumR (mweight 0 1 Rmult rv (declared w) <$> L)) <= INR (states_of w) * (2 * delta + f64_epsilon))%R.
Proof. exact (held_f64 I w H x F ss delta rv pv L). Qed.
Print Assumptions c80_accurate.

(** A three-state component with probabilities 0.33, 0.56 and 0.11, as doubles. *)
Definition fx3 : gmap string (list f64) :=
  {[ "x" := [f64_lit 5944751508129055 (-54); f64_lit 1261007895663739 (-51); f64_lit 7926335344172073 (-56)] ]}.
Definition rx3 : gmap string (list R) := {[ "x" := [33/100; 56/100; 11/100]%R ]}.
Example c80_table : table_rel (Forall2 (approx (f64_epsilon / 4))) rx3 fx3.
Proof.
  unfold rx3, fx3. apply table_insert; [intros k; rewrite !lookup_empty; constructor|]. repeat (apply Forall2_cons; split; [literal|]). apply Forall2_nil; done.
Qed.
Example c80_hyps w x : g_defvar g_new "x" 3 = Some (w, x) →
  mdd_held i32_checked w [(x, Some (λ e, VI (VVal (Z.of_nat (e "x"%string)))))] ∧ declared w = [("x"%string, 3)] ∧
  table_for (declared w) rx3 ∧ sums_to_one 0%R 1%R Rplus (declared w) rx3 ∧ (INR (states_of w) * (2 * (f64_epsilon / 4) + f64_epsilon) <= 1)%R.
Proof.
  intros E.
  assert (Hh : mdd_held i32_checked w [(x, Some (λ e, VI (VVal (Z.of_nat (e "x"%string)))))])
    by exact (dh_step _ _ _ _ _ (dh_new _) (ds_defvar _ _ _ _ _ _ _ E)).
  assert (Hd : declared w = [("x"%string, 3)]).
  { assert (H0 : ('(w, x) ← g_defvar g_new "x" 3; Some (declared w)) = Some [("x"%string, 3)]) by (vm_compute; reflexivity).
    rewrite E in H0. cbn [mbind option_bind] in H0. congruence. }
  rewrite Hd. sp; [done|done| | |].
  - intros s n [= -> ->]%elem_of_list_singleton. eexists. split; [apply lookup_insert|done].
  - intros s n ps [= -> ->]%elem_of_list_singleton. unfold rx3. rewrite lookup_singleton. intros [= <-]. unfold ring_sum. cbn. lra.
  - unfold states_of. rewrite Hd. assert (INR (sum_list [("x"%string, 3)].*2) = 3%R) as -> by (cbn; lra). unfold f64_epsilon. change (bpow radix2 (-52)) with (/ IZR 4503599627370496)%R. lra.
Qed.
(** P(x >= 1) *)
Example c80_ex : ('(w, x) ← g_defvar g_new "x" 3; r ← f64_mprob w x fx3 [1; 2]%Z; Some (B2SF r)) =
  Some (SpecFloat.S754_finite false 6034823500676465 (-53)). (* 0.67 *)
Proof. vm_compute. done. Qed.

(** ** C81: no probability exceeds 1 *)
(** Two-state systems: so it is. *)
Theorem c81_two_state_partial m pv ss f : bss_reachable m → bdd_valid m f →
  (∀ rho, ∃ b, bdd_value m rho f (tvb b)) → units64 pv →
  ∃ r, f64_prob m pv ss f = Some r ∧ f64_finite r ∧ (0 <= f64_real r <= 1)%R.
Proof. exact (λ Hm, prob_f64_unit_l m pv ss f (bss_wf m Hm)). Qed.
Print Assumptions c81_two_state_partial.
(** Multi-state systems: not so.  The probability that the component is in one of its three states comes out as 1.0000000000000002. *)
Theorem c81_multi_state_refuted : ∃ I w H x F rv pv r,
  mdd_held I w H ∧ (x, Some F) ∈ H ∧ table_for (declared w) rv ∧ sums_to_one 0%R 1%R Rplus (declared w) rv ∧
  table_rel (Forall2 (approx (f64_epsilon / 4))) rv pv ∧
  f64_mprob w x pv [0; 1; 2]%Z = Some r ∧ f64_finite r ∧ (1 < f64_real r)%R.
Proof.
  assert (Hs : bool_decide (is_Some (g_defvar g_new "x" 3)) = true) by (vm_compute; reflexivity).
  destruct (g_defvar g_new "x" 3) as [[w x]|] eqn:E; [clear Hs|done].
  destruct (c80_hyps w x E) as (Hh & Hd & Ht & H1 & _).
  assert (H0 : ('(w, x) ← g_defvar g_new "x" 3; r ← f64_mprob w x fx3 [0; 1; 2]%Z; Some (B2SF r)) =
    Some (SpecFloat.S754_finite false 4503599627370497 (-52))) by (vm_compute; reflexivity).
  rewrite E in H0. cbn [mbind option_bind] in H0. destruct (f64_mprob w x fx3 [0; 1; 2]%Z) as [r|] eqn:Er; [|done].
  cbn [mbind option_bind] in H0. injection H0 as H0. destruct (real_sf r _ H0 eq_refl) as [Fr Hr].
  eexists i32_checked, w, _, x, _, rx3, fx3, r. sp; [exact Hh|left|done|done|apply c80_table|done|done|].
  rewrite Hr. unfold SF2R, F2R. cbn [Fnum Fexp SpecFloat.cond_Zopp]. change (bpow radix2 (-52)) with (/ IZR 4503599627370496)%R. lra.
Qed.
Print Assumptions c81_multi_state_refuted.
