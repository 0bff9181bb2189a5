(** Interval evaluation of probability and importance: enclosure of the exact result. *)
From Coq Require Import ZArith Ring Lia.
From stdpp Require Import strings.
From Verif Require Import Prelude ComputeCache Arena Bdd Mdd MtMdd MtMdd2 BssAlg BssMgr MssMgr MssAlg SpecBdd SpecMdd SpecBss SpecMss SpecMssAlg SpecEnclose
  MssAlgMain Enclose PropsBss PropsMssAlg.

Lemma unit_ring : ring_theory tt tt (λ _ _, tt) (λ _ _, tt) (λ _ _, tt) (λ _, tt) eq.
Proof. constructor; by repeat intros []. Qed.
Lemma unit_preserved {B} (oB iB : B) addB mulB subB :
  preserved tt tt (λ _ _, tt) (λ _ _, tt) (λ _ _, tt) oB iB addB mulB subB (λ _ _, True).
Proof. unfold preserved. by sp. Qed.

Section main.
Context {R B : Type} (rO rI : R) (radd rmul rsub : R → R → R) (ropp : R → R) (Rth : ring_theory rO rI radd rmul rsub ropp eq).
Context (oB iB : B) (addB mulB subB : B → B → B) (mem : R → B → Prop) (Hp : preserved rO rI radd rmul rsub oB iB addB mulB subB mem).

Lemma orel_some {X Y} (P : X → Y → Prop) x o : option_Forall2 P (Some x) o → ∃ y, o = Some y ∧ P x y.
Proof. intros H. inversion H; subst. eauto. Qed.
Lemma orel_some_r {X Y} (P : X → Y → Prop) y o : option_Forall2 P o (Some y) → ∃ x, o = Some x ∧ P x y.
Proof. intros H. inversion H; subst. eauto. Qed.

Section mss.
Context I w H x F (ss : list Z) (Hm : mdd_held I w H) (Hx : (x, Some F) ∈ H) (box : gmap string (list B)) (Ht : table_for (declared w) box).
Lemma box_point pv : table_rel (Forall2 mem) pv box → table_for (declared w) pv.
Proof.
  intros Hin s n Hs. destruct (Ht s n Hs) as (bs & Hb & Hl). specialize (Hin s). rewrite Hb in Hin.
  apply orel_some_r in Hin as (ps & Hps & HF). exists ps. split; [done|]. by rewrite (Forall2_length _ _ _ HF).
Qed.
Definition shadow : gmap string (list unit) := (λ bs : list B, (λ _, tt) <$> bs) <$> box.
Lemma shadow_for : table_for (declared w) shadow.
Proof.
  intros s n Hs. destruct (Ht s n Hs) as (bs & Hb & Hl). exists ((λ _, tt) <$> bs). unfold shadow.
  rewrite lookup_fmap, Hb. split; [done|]. by rewrite fmap_length.
Qed.
Lemma shadow_rel : table_rel (Forall2 (λ _ _, True)) shadow box.
Proof.
  intros k. unfold shadow. rewrite lookup_fmap. destruct (box !! k) as [bs|]; cbn; constructor.
  induction bs as [|b bs IH]; cbn; by constructor.
Qed.
Lemma shadow_one : sums_to_one tt tt (λ _ _, tt) (declared w) shadow.
Proof. intros s n ps _ _. by destruct (ring_sum _ _ ps). Qed.

Lemma enc_prob : ∃ b, g_prob oB iB addB mulB w x box ss = Some b ∧
  ∀ pv L, table_rel (Forall2 mem) pv box → sums_to_one rO rI radd (declared w) pv → solutions (declared w) (declared w) F ss L →
    mem (ring_sum rO radd (mweight rO rI rmul pv (declared w) <$> L)) b.
Proof.
  destruct (c32_prob tt tt _ _ _ _ I w H x F ss shadow unit_ring Hm Hx shadow_for shadow_one) as [[L HL] Hu]. specialize (Hu L HL).
  pose proof (g_prob_rel _ _ _ _ _ _ _ _ _ _ _ (unit_preserved oB iB addB mulB subB) w x shadow box ss shadow_rel) as Hr.
  rewrite Hu in Hr. apply orel_some in Hr as (b & Hb & _). exists b. split; [done|]. intros pv L' Hin H1 HL'.
  pose proof (g_prob_rel _ _ _ _ _ _ _ _ _ _ _ Hp w x pv box ss Hin) as Hr.
  destruct (c32_prob rO rI radd rmul rsub ropp I w H x F ss pv Rth Hm Hx (box_point pv Hin) H1) as [_ Hv].
  rewrite (Hv L' HL'), Hb in Hr. by inversion Hr.
Qed.
Lemma enc_bmeas : ∃ g, g_bmeas oB iB addB mulB subB w x box ss = Some g ∧ (∀ s, is_Some (g !! s) ↔ m_occurs w x s) ∧
  ∀ s n slot, g !! s = Some slot → (s, n) ∈ declared w → S (length slot) = n ∧
  ∀ k b pv L, slot !! k = Some b → table_rel (Forall2 mem) pv box → sums_to_one rO rI radd (declared w) pv →
    solutions (declared w) (declared w) F ss L →
    mem (rsub (ring_sum rO radd (mweight rO rI rmul (<[s := certain rO rI n (S k)]> pv) (declared w) <$> L))
              (ring_sum rO radd (mweight rO rI rmul (<[s := certain rO rI n k]> pv) (declared w) <$> L))) b.
Proof.
  destruct (c32_prob tt tt _ _ _ _ I w H x F ss shadow unit_ring Hm Hx shadow_for shadow_one) as [[L HL] _].
  destruct (c33_bmeas tt tt _ _ _ _ I w H x F ss shadow L unit_ring Hm Hx shadow_for shadow_one HL) as (u & Hu & Huo & Hus).
  pose proof (g_bmeas_rel _ _ _ _ _ _ _ _ _ _ _ (unit_preserved oB iB addB mulB subB) w x shadow box ss shadow_rel) as Hr.
  rewrite Hu in Hr. apply orel_some in Hr as (g & Hg & Hrel). exists g. sp; [done| |].
  - intros s. rewrite <- Huo. specialize (Hrel s). destruct Hrel; [by split; eexists|by split; intros [??]].
  - intros s n slot Hs Hin. pose proof (Hrel s) as Hr. rewrite Hs in Hr. apply orel_some_r in Hr as (us & Hus' & HF).
    split.
    { rewrite <- (Forall2_length _ _ _ HF). by eapply Hus. }
    intros k b pv L' Hk Hpv H1 HL'.
    destruct (c33_bmeas rO rI radd rmul rsub ropp I w H x F ss pv L' Rth Hm Hx (box_point pv Hpv) H1 HL') as (v & Hv & _ & Hvs).
    pose proof (g_bmeas_rel _ _ _ _ _ _ _ _ _ _ _ Hp w x pv box ss Hpv) as Hr. rewrite Hv, Hg in Hr.
    assert (Hvg : table_rel (Forall2 mem) v g) by (by inversion Hr). specialize (Hvg s). rewrite Hs in Hvg.
    apply orel_some_r in Hvg as (ps & Hps & HFp). destruct (Hvs s n ps Hps Hin) as [Hlen Hval].
    destruct (Forall2_lookup_r _ _ _ _ _ HFp Hk) as (p & Hpk & Hpb).
    rewrite (Hval k) in Hpk by (apply lookup_lt_Some in Hpk; lia). injection Hpk as <-. exact Hpb.
Qed.
End mss.

Section bss.
Context m names f (ss : list bool) (Hm : bss_reachable m) (Hf : bdd_valid m f) (Ho : bdd_order m names)
  (Hd : ∀ rho, ∃ b, bdd_value m rho f (tvb b)) (box : gmap string B).
Definition bshadow : gmap string unit := (λ _, tt) <$> box.
Lemma bshadow_rel : table_rel (λ _ _, True) bshadow box.
Proof. intros k. unfold bshadow. rewrite lookup_fmap. by destruct (box !! k); constructor. Qed.
Lemma benc_prob S : NoDup S → (∀ v, v ∈ S ↔ length v = length names ∧ ∃ b, b ∈ ss ∧ bdd_value m (vrho v) f (tvb b)) →
  ∃ b, bdd_prob oB iB addB mulB subB m box ss f = Some b ∧
  ∀ pv, table_rel mem pv box → mem (ring_sum rO radd (weight rO rI rmul rsub pv names <$> S)) b.
Proof.
  intros HS HSv. pose proof (c15_prob tt tt _ _ _ _ unit_ring m names bshadow ss f S Hm Hf Ho Hd HS HSv) as Hu.
  pose proof (bdd_prob_rel _ _ _ _ _ _ _ _ _ _ _ (unit_preserved oB iB addB mulB subB) m bshadow box ss f bshadow_rel) as Hr.
  rewrite Hu in Hr. apply orel_some in Hr as (b & Hb & _). exists b. split; [done|]. intros pv Hin.
  pose proof (bdd_prob_rel _ _ _ _ _ _ _ _ _ _ _ Hp m pv box ss f Hin) as Hr.
  rewrite (c15_prob rO rI radd rmul rsub ropp Rth m names pv ss f S Hm Hf Ho Hd HS HSv), Hb in Hr. by inversion Hr.
Qed.
Lemma benc_bmeas : NoDup names →
  ∃ g, bdd_bmeas oB iB addB mulB subB m box ss f = Some g ∧ (∀ x, is_Some (g !! x) ↔ bdd_occurs m f x) ∧
  ∀ x b pv, g !! x = Some b → table_rel mem pv box → ∃ p1 p0,
    bdd_prob rO rI radd rmul rsub m (<[x := rI]> pv) ss f = Some p1 ∧
    bdd_prob rO rI radd rmul rsub m (<[x := rO]> pv) ss f = Some p0 ∧ mem (rsub p1 p0) b.
Proof.
  intros Hn. destruct (c16_bmeas tt tt _ _ _ _ unit_ring m names bshadow ss f Hm Hf Ho Hn Hd) as (u & Hu & Huo & _).
  pose proof (bdd_bmeas_rel _ _ _ _ _ _ _ _ _ _ _ (unit_preserved oB iB addB mulB subB) m bshadow box ss f bshadow_rel) as Hr.
  rewrite Hu in Hr. apply orel_some in Hr as (g & Hg & Hrel). exists g. sp; [done| |].
  - intros s. rewrite <- Huo. specialize (Hrel s). destruct Hrel; [by split; eexists|by split; intros [??]].
  - intros x b pv Hx Hin. destruct (c16_bmeas rO rI radd rmul rsub ropp Rth m names pv ss f Hm Hf Ho Hn Hd) as (v & Hv & _ & Hvs).
    pose proof (bdd_bmeas_rel _ _ _ _ _ _ _ _ _ _ _ Hp m pv box ss f Hin) as Hr. rewrite Hv, Hg in Hr.
    assert (Hvg : table_rel mem v g) by (by inversion Hr). specialize (Hvg x). rewrite Hx in Hvg.
    apply orel_some_r in Hvg as (p & Hpx & Hpb). destruct (Hvs x p Hpx) as (p1 & p0 & H1 & H0 & ->). by exists p1, p0.
Qed.
End bss.
End main.

(** ** The integer intervals are sound *)
Lemma ivl_preserved : preserved 0%Z 1%Z Z.add Z.mul Z.sub (ivl_pt 0) (ivl_pt 1) ivl_add ivl_mul ivl_sub ivl_in.
Proof.
  unfold preserved, ivl_in, ivl_add, ivl_sub, ivl_mul, ivl_pt. cbn.
  split; [lia|split; [lia|split; [|split]]].
  - intros x [a b] y [c d]. cbn. lia.
  - intros x [a b] y [c d]. cbn. intros Hx Hy.
    assert (H1 : ∀ z, (Z.min (a * z) (b * z) <= x * z <= Z.max (a * z) (b * z))%Z).
    { intros z. destruct (Z.le_gt_cases 0 z).
      - pose proof (Z.mul_le_mono_nonneg_r a x z). pose proof (Z.mul_le_mono_nonneg_r x b z). lia.
      - pose proof (Z.mul_le_mono_nonpos_r a x z). pose proof (Z.mul_le_mono_nonpos_r x b z). lia. }
    assert (H2 : ∀ z, (Z.min (z * c) (z * d) <= z * y <= Z.max (z * c) (z * d))%Z).
    { intros z. destruct (Z.le_gt_cases 0 z).
      - pose proof (Z.mul_le_mono_nonneg_l c y z). pose proof (Z.mul_le_mono_nonneg_l y d z). lia.
      - pose proof (Z.mul_le_mono_nonpos_l c y z). pose proof (Z.mul_le_mono_nonpos_l y d z). lia. }
    pose proof (H1 c). pose proof (H1 d). pose proof (H2 x). pose proof (H2 a). pose proof (H2 b). lia.
  - intros x [a b] y [c d]. cbn. lia.
Qed.
Lemma ivl_point : preserved 0%Z 1%Z Z.add Z.mul Z.sub (ivl_pt 0) (ivl_pt 1) ivl_add ivl_mul ivl_sub (λ x b, b = ivl_pt x).
Proof.
  unfold preserved, ivl_add, ivl_sub, ivl_mul, ivl_pt. cbn. sp; [done|done| | |].
  - intros x y x' y' -> ->. done.
  - intros x y x' y' -> ->. cbn. f_equal; lia.
  - intros x y x' y' -> ->. done.
Qed.
