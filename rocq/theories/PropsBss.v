(** C11 - C16, C43: gates, dual, counting, enumeration, probability and importance on BDDs. *)
From Coq Require Import String Ring InitialRing.
From stdpp Require Import strings.
From Verif Require Import Prelude ComputeCache Arena Bdd SpecBdd SpecBss BddMain BssAlg BssCount BssSize BssGates BssProb BssMeas BssReach PropsBdd.

(** every core-reachable manager is bss-reachable, so the examples below (built by core calls) qualify *)
Example bss_reachable_ex m : bdd_run bdd_new ex_calls = Some m → bss_reachable m.
Proof. intros H. apply bss_core. by exists ex_calls. Qed.

(** ** C11 *)
Theorem c11_kofn m k nodes : bss_reachable m → Forall (bdd_valid m) nodes →
  ∃ m' r, kofn m k nodes = Some (m', r) ∧ bdd_valid m' r ∧ bdd_keeps m m' ∧
    ∀ rho bs, Forall2 (λ x b, bdd_value m rho x (tvb b)) nodes bs →
      bdd_value m' rho r (tvb (k <=? count_true bs)).
Proof. exact (kofn_p m k nodes). Qed.
Print Assumptions c11_kofn.

Theorem c11_and m nodes : bss_reachable m → Forall (bdd_valid m) nodes →
  ∃ m' r, kofn_and m nodes = Some (m', r) ∧ bdd_valid m' r ∧ bdd_keeps m m' ∧
    ∀ rho bs, Forall2 (λ x b, bdd_value m rho x (tvb b)) nodes bs →
      bdd_value m' rho r (tvb (forallb id bs)).
Proof. exact (and_list_p m nodes). Qed.
Print Assumptions c11_and.

Theorem c11_or m nodes : bss_reachable m → Forall (bdd_valid m) nodes →
  ∃ m' r, kofn_or m nodes = Some (m', r) ∧ bdd_valid m' r ∧ bdd_keeps m m' ∧
    ∀ rho bs, Forall2 (λ x b, bdd_value m rho x (tvb b)) nodes bs →
      bdd_value m' rho r (tvb (existsb id bs)).
Proof. exact (or_list_p m nodes). Qed.
Print Assumptions c11_or.

(** 2 of (x0, x1, x2) and 2 of (x0, x0, x1), on every subset *)
Example c11_ex : (m ← bdd_run bdd_new ex_calls; '(m1, r) ← kofn m 2 [3; 4; 5]; '(m2, s) ← kofn m1 2 [3; 3; 4];
    Some ((λ l, (follow 9 m2 (on l) r, follow 9 m2 (on l) s)) <$> [[]; [0]; [1; 2]; [0; 1; 2]; [1]])) =
  Some [(Some TZero, Some TZero); (Some TZero, Some TOne); (Some TOne, Some TZero); (Some TOne, Some TOne);
        (Some TZero, Some TZero)].
Proof. vm_compute. done. Qed.

(** ** C12 *)
Theorem c12_dual m f : bss_reachable m → bdd_valid m f →
  ∃ m' r, bdd_dual m f = Some (m', r) ∧ bdd_valid m' r ∧ bdd_keeps m m' ∧
    (∀ rho t, bdd_value m (λ l, negb (rho l)) f t →
       bdd_value m' rho r match t with TZero => TOne | TOne => TZero | TUndet => TUndet end) ∧
    ∃ m'', bdd_dual m' r = Some (m'', f).
Proof. exact (dual_p m f). Qed.
Print Assumptions c12_dual.

(** the dual of (x0 & x1) | x2 is (x0 | x1) & x2 *)
Example c12_ex : (m ← bdd_run bdd_new ex_calls; '(m, r) ← bdd_dual m 7; '(m, a) ← bdd_or m 3 4; '(m, b) ← bdd_and m a 5;
    '(m, f) ← bdd_dual m r; Some (r =? b, f)) = Some (true, 7).
Proof. vm_compute. done. Qed.

(** ** C13 *)
(** [S] is any duplicate-free list of exactly the vectors over the variables at or below the top one. *)
Theorem c13_count m ss f n S : bss_reachable m → bdd_valid m f →
  n = match ar_node_level (b_ar m) f with Some (Some l) => l + 1 | _ => 0 end →
  NoDup S → (∀ v, v ∈ S ↔ length v = n ∧ ∃ b, b ∈ ss ∧ bdd_value m (vrho v) f (tvb b)) →
  bdd_count m ss f = Some (N.of_nat (length S)).
Proof. exact (λ Hm, count_l m ss f n S (bss_wf m Hm)). Qed.
Print Assumptions c13_count.

(** such a list exists, so the theorem pins the count down for every valid node *)
Theorem c13_count_defined m (ss : list bool) f n : bss_reachable m → bdd_valid m f →
  n = match ar_node_level (b_ar m) f with Some (Some l) => l + 1 | _ => 0 end →
  ∃ S, NoDup S ∧ ∀ v, v ∈ S ↔ length v = n ∧ ∃ b, b ∈ ss ∧ bdd_value m (vrho v) f (tvb b).
Proof. exact (λ Hm, sat_exists m ss f n (bss_wf m Hm)). Qed.
Print Assumptions c13_count_defined.

Example c13_ex : (m ← bdd_run bdd_new ex_calls;
    Some (bdd_count m [true] 7, bdd_count m [false] 7, bdd_count m [true; false] 7, bdd_count m [true] 6)) =
  Some (Some 5, Some 3, Some 8, Some 1)%N.
Proof. vm_compute. done. Qed.

(** ** C14 *)
(** Draining the iterator terminates (for every large enough step bound) with exactly the satisfying
    vectors, each once, written as literals [x] / [~x] of the variables from the lowest to the top one. *)
Theorem c14_extract m names (ss : list bool) f n : bss_reachable m → bdd_valid m f → bdd_order m names →
  n = match ar_node_level (b_ar m) f with Some (Some l) => l + 1 | _ => 0 end →
  ∃ S k0, NoDup S ∧ (∀ v, v ∈ S ↔ length v = n ∧ ∃ b, b ∈ ss ∧ bdd_value m (vrho v) f (tvb b)) ∧
    (∀ fuel, k0 ≤ fuel → bdd_extract fuel m ss f = Some (render names <$> S)) ∧
    bdd_count m ss f = Some (N.of_nat (length S)).
Proof.
  exact (λ Hm Hf Ho Hn, let '(ex_intro _ L (ex_intro _ k0 (conj Hnd (conj HS He)))) := extract_l m names ss f n (bss_wf m Hm) Hf Ho Hn in
    ex_intro _ L (ex_intro _ k0 (conj Hnd (conj HS (conj He (count_l m ss f n L (bss_wf m Hm) Hf Hn Hnd HS)))))).
Qed.
Print Assumptions c14_extract.

(** a checker for [bdd_order] on concrete managers *)
Definition order_b (m : bdd) (names : list string) : bool :=
  bool_decide (length names = length (ar_headers (b_ar m))) && bool_decide (bdd_levels_distinct m) &&
  forallb (λ hd, bool_decide (names !! h_level hd = Some (h_label hd))) (ar_headers (b_ar m)).
Lemma order_b_ok m names : order_b m names = true → bdd_order m names.
Proof.
  unfold order_b. rewrite !andb_true_iff, !bool_decide_eq_true, forallb_forall. intros [[H1 H2] H3]. unfold bdd_order. sp; [done|done|].
  intros h hd Hh. apply elem_of_list_lookup_2, elem_of_list_In, H3 in Hh. by apply bool_decide_eq_true in Hh.
Qed.
Definition names3 : list string := ["x0"; "x1"; "x2"].
Example c14_ex_order : option_map (λ m, order_b m names3) (bdd_run bdd_new ex_calls) = Some true.
Proof. vm_compute. done. Qed.
Example c14_ex : (m ← bdd_run bdd_new ex_calls; bdd_extract 200 m [true] 7) =
  Some [["x0"; "x1"; "~x2"]; ["~x0"; "~x1"; "x2"]; ["x0"; "~x1"; "x2"]; ["~x0"; "x1"; "x2"]; ["x0"; "x1"; "x2"]].
Proof. vm_compute. done. Qed.

(** ** C15 *)
(** Over any commutative ring, for any probabilities. *)
Theorem c15_prob {R : Type} (rO rI : R) (radd rmul rsub : R → R → R) (ropp : R → R) :
  ring_theory rO rI radd rmul rsub ropp eq →
  ∀ m names pv ss f S, bss_reachable m → bdd_valid m f → bdd_order m names →
  (∀ rho, ∃ b, bdd_value m rho f (tvb b)) →
  NoDup S → (∀ v, v ∈ S ↔ length v = length names ∧ ∃ b, b ∈ ss ∧ bdd_value m (vrho v) f (tvb b)) →
  bdd_prob rO rI radd rmul rsub m pv ss f = Some (ring_sum rO radd (weight rO rI rmul rsub pv names <$> S)).
Proof. exact (λ Rth m names pv ss f S Hm, prob_l rO rI radd rmul rsub ropp Rth m names pv ss f S (bss_wf m Hm)). Qed.
Print Assumptions c15_prob.

(** the determinedness hypothesis holds of every handle built from constants, variables and connectives *)
Example c15_hyp m H f F : bdd_held m H → (f, F) ∈ H → ∀ rho, ∃ b, bdd_value m rho f (tvb b).
Proof. intros Hh Hin rho. exists (F rho). by apply (c07_held_handles m H f F Hh Hin). Qed.
(** with p = 2, 3, 5 over the integers: p0 p1 + (1 - p0 p1) p2 = 6 - 25 = -19 *)
Definition pv3 : gmap string Z := {[ "x0" := 2; "x1" := 3; "x2" := 5 ]}%Z.
Example c15_ex : (m ← bdd_run bdd_new ex_calls; bdd_prob 0 1 Z.add Z.mul Z.sub m pv3 [true] 7)%Z = Some (-19)%Z.
Proof. vm_compute. done. Qed.

(** ** C16 *)
Theorem c16_bmeas {R : Type} (rO rI : R) (radd rmul rsub : R → R → R) (ropp : R → R) :
  ring_theory rO rI radd rmul rsub ropp eq →
  ∀ m names pv ss f, bss_reachable m → bdd_valid m f → bdd_order m names → NoDup names →
  (∀ rho, ∃ b, bdd_value m rho f (tvb b)) →
  ∃ g, bdd_bmeas rO rI radd rmul rsub m pv ss f = Some g ∧
    (∀ x, is_Some (g !! x) ↔ bdd_occurs m f x) ∧
    (∀ x v, g !! x = Some v → ∃ p1 p0,
       bdd_prob rO rI radd rmul rsub m (<[x := rI]> pv) ss f = Some p1 ∧
       bdd_prob rO rI radd rmul rsub m (<[x := rO]> pv) ss f = Some p0 ∧ v = rsub p1 p0).
Proof. exact (λ Rth m names pv ss f Hm, bmeas_l rO rI radd rmul rsub ropp Rth m names pv ss f (bss_wf m Hm)). Qed.
Print Assumptions c16_bmeas.

(** p1 (1 - p2) = -12, p0 (1 - p2) = -8, 1 - p0 p1 = -5 *)
Example c16_ex : (m ← bdd_run bdd_new ex_calls; g ← bdd_bmeas 0 1 Z.add Z.mul Z.sub m pv3 [true] 7;
    Some ((g !! "x0", g !! "x1", g !! "x2")))%Z = Some (Some (-12), Some (-8), Some (-5))%Z.
Proof. vm_compute. done. Qed.

(** ** C43 *)
Theorem c43_size m f ln lt : bss_reachable m → bdd_valid m f →
  NoDup ln → (∀ id, id ∈ ln ↔ bdd_reaches m [f] id ∧ ∃ h cs, ar_nodes (b_ar m) !! id = Some (NT h cs)) →
  NoDup lt → (∀ id, id ∈ lt ↔ bdd_reaches m [f] id ∧ ∃ t, ar_nodes (b_ar m) !! id = Some (Term t)) →
  bdd_node_size m f = Some (N.of_nat (length ln), N.of_nat (length lt), (2 * N.of_nat (length ln))%N).
Proof. exact (λ Hm, size_l m f ln lt (bss_wf m Hm)). Qed.
Print Assumptions c43_size.

Example c43_ex : (m ← bdd_run bdd_new ex_calls; Some (bdd_node_size m 7, bdd_node_size m 6, bdd_node_size m 1)) =
  Some (Some (3, 2, 6), Some (2, 2, 4), Some (0, 1, 0))%N.
Proof. vm_compute. done. Qed.
