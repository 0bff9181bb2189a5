(** ZddMgr / BssMgr: from the invariants to the statements. *)
From stdpp Require Import strings sorting.
From Verif Require Import Prelude ComputeCache Arena Trees ArenaProofs Bdd BddProofs SpecBdd BssAlg BssMgr SpecBssMgr BssMgrProofs BssMgrMain
  Zdd ZddTrees ZddProofs SpecZdd ZddMain ZddAlg ZddCount ZddMgr SpecZddMgr ZddMgrProofs BssJoint.

Lemma sorted_set_list (A : gset nat) : ∃ l, StronglySorted lt l ∧ list_to_set l = A.
Proof.
  exists (merge_sort le (elements A)). pose proof (merge_sort_Permutation le (elements A)) as Hp. split.
  - assert (Hs : StronglySorted le (merge_sort le (elements A))) by (apply StronglySorted_merge_sort; unfold Total, Transitive; intros; lia).
    assert (Hn : NoDup (merge_sort le (elements A))) by (rewrite Hp; apply NoDup_elements).
    clear Hp. revert Hs Hn. generalize (merge_sort le (elements A)). clear. intros l Hs Hn.
    induction Hs as [|x l _ IH Hx]; [constructor|]. apply NoDup_cons in Hn as [Hn1 Hn2]. constructor; [by apply IH|].
    rewrite Forall_forall in *. intros y Hy. pose proof (Hx _ Hy). assert (x ≠ y) by (by intros ->). lia.
  - apply set_eq. intros x. rewrite elem_of_list_to_set, Hp. apply elem_of_elements.
Qed.
Lemma zero_zero m g : zwf m → zdd_valid m g → zdd_det m g → (∀ A, ¬ zdd_mem m g A) → g = zdd_zero.
Proof.
  intros Hw Hv Hd Hm. pose proof (zw_good _ Hw) as Hg. destruct (zvalid_repr _ _ Hw Hv) as [d Hr].
  pose proof (proj1 (det_zdet _ _ _ Hg Hr) Hd) as Dd.
  assert (Hz : ∀ A, ¬ zmem A d) by (intros A; by rewrite <- (mem_zmem m d g)).
  pose proof (zgood_ok _ _ _ Hg Hr) as Ho.
  assert (Hrd : zred d).
  { clear -Hg Hr. revert g Hr. induction d as [t|hd ds IH] using dd_ind'; intros id Hr; [done|].
    destruct (zrepr_node2 _ _ _ _ Hg Hr) as (h & lo & hi & dlo & dhi & -> & _ & _ & Hlo & Hhi & _ & _ & Hnz).
    rewrite !Forall_cons in IH. destruct IH as (IH0 & IH1 & _). cbn. eauto. }
  enough (d = Leaf TZero) as -> by (eapply repr_inj; [apply Hg|exact Hr|apply Hg]).
  destruct d as [t|hd ds].
  - specialize (Dd ∅). specialize (Hz ∅). unfold zmem in Hz. cbn in Dd, Hz. by destruct t.
  - destruct (zred_witness _ Ho Hrd) as [S HS]; [done|]. specialize (Dd S). specialize (Hz S). unfold zmem in Hz. by destruct (zev S _).
Qed.

Lemma in_use_ok w H : zdd_in_use w H → @zok base0 w H.
Proof. intros [Hh|(s & HB & Hj & ->)]; [by apply zdd_held_ok|]. by apply bssm_held_ok in Hj as (_ & ? & _). Qed.
Lemma in_use_stands w H f F : zdd_in_use w H → (f, Some F) ∈ H → stands_for (y_zdd w) f F.
Proof. intros Hu. apply (zk_held _ _ (in_use_ok _ _ Hu)). Qed.

Lemma one_tvb m f S : (∃ b, b ∈ [true] ∧ zdd_has m (tvb b) f S) ↔ zdd_mem m f S.
Proof. split; [intros (b & ->%elem_of_list_singleton & ?); done|]. intros H. exists true. split; [by left|done]. Qed.
Lemma zok_count {B} w H f F L : @zok B w H → stands_for (y_zdd w) f F → NoDup L → (∀ S, S ∈ L ↔ F S) →
  y_count w [true] f = Some (N.of_nat (length L)).
Proof.
  intros Hk Hs Hnd HL. pose proof (zk_wf _ _ Hk) as Hw. pose proof (zk_nm _ _ Hk) as Hn. apply stands_iff in Hs as [(Vf & Df & Mf) Wf]; [|done].
  destruct (zmembers_l (y_zdd w) [true] f Hw Vf) as (L0 & Hnd0 & HL0). setoid_rewrite one_tvb in HL0.
  unfold y_count. rewrite (zcount_l (y_zdd w) [true] f L0 Hw Vf Hnd0) by (intros S; by rewrite one_tvb). do 2 f_equal.
  assert (Hl0 : ∀ A, A ∈ L0 → lvls (y_zdd w) A) by (intros A HA; eapply has_lvls; by apply HL0).
  rewrite <- (fmap_length (nms (y_zdd w)) L0). apply Permutation_length, NoDup_Permutation; [|done|].
  - apply NoDup_fmap_2_strong; [|done]. intros A A' HA HA'. apply nms_inj; auto.
  - intros S. rewrite HL, elem_of_list_fmap. split.
    + intros (A & -> & HA). apply Mf; [by apply Hl0|]. by apply HL0.
    + intros HF. destruct (Wf _ HF) as (A & HA & ->). exists A. split; [done|]. apply HL0. by apply Mf.
Qed.

Lemma in_use_count w H f F L : zdd_in_use w H → (f, Some F) ∈ H → NoDup L → (∀ S, S ∈ L ↔ F S) →
  y_count w [true] f = Some (N.of_nat (length L)).
Proof. intros Hu Hf. apply (zok_count w H f F L (in_use_ok _ _ Hu)). by eapply in_use_stands. Qed.

Lemma zok_extract {B} w H f F : @zok B w H → stands_for (y_zdd w) f F →
  ∃ L k0, (∀ fuel, k0 ≤ fuel → y_extract fuel w [true] f = Some L) ∧
    Forall NoDup L ∧ NoDup (list_to_set <$> L : list (gset string)) ∧
    ∀ S, S ∈ (list_to_set <$> L : list (gset string)) ↔ F S.
Proof.
  intros Hk Hs. pose proof (zk_wf _ _ Hk) as Hw. pose proof (zk_nm _ _ Hk) as Hn. apply stands_iff in Hs as [(Vf & Df & Mf) Wf]; [|done].
  set (m := y_zdd w) in *.
  destruct (zextract_l m [true] (nm (zhd m)) f Hw Vf) as (Ls & k0 & Hnd & HLs & He).
  { intros h hd Hh. symmetry. apply nm_spec; [done|]. by eapply elem_of_list_lookup_2. }
  setoid_rewrite one_tvb in HLs.
  exists (map (map (nm (zhd m))) Ls), k0. split; [done|].
  assert (Hl : ∀ l, l ∈ Ls → lvls m (list_to_set l)) by (intros l Hl; eapply has_lvls; by apply HLs).
  assert (Hset : ∀ l, (list_to_set (map (nm (zhd m)) l) : gset string) = nms m (list_to_set l)).
  { intros l. unfold nms. induction l as [|x l IH]; [done|]. cbn. rewrite IH, set_map_union_L, set_map_singleton_L. done. }
  assert (Heq : (list_to_set <$> map (map (nm (zhd m))) Ls : list (gset string)) = (nms m ∘ list_to_set) <$> Ls).
  { change (map (map (nm (zhd m))) Ls) with (map (nm (zhd m)) <$> Ls). rewrite <- list_fmap_compose. apply list_fmap_ext. intros i l _. apply Hset. }
  split; [|split].
  - apply Forall_forall. intros l' (l & -> & Hin)%elem_of_list_fmap. apply NoDup_fmap_2_strong.
    + intros x y Hx Hy Hxy. pose proof (Hl _ Hin) as Hlv.
      destruct (Hlv x) as (hd & Hh & <-); [by apply elem_of_list_to_set|]. destruct (Hlv y) as (hd' & Hh' & <-); [by apply elem_of_list_to_set|].
      rewrite !nm_spec in Hxy by done. by apply Hn.
    + apply HLs in Hin as [Hsrt _]. clear -Hsrt. induction Hsrt as [|x l _ IH Hx]; [constructor|]. constructor; [|done].
      intros Hin. rewrite Forall_forall in Hx. apply Hx in Hin. lia.
  - rewrite Heq. apply NoDup_fmap_2_strong; [|done]. intros l l' Hin Hin' Hxy. cbn in Hxy.
    apply nms_inj in Hxy; [|done|by apply Hl..]. apply HLs in Hin as [S1 _], Hin' as [S2 _]. by apply sorted_lt_unique.
  - intros S. rewrite Heq, elem_of_list_fmap. split.
    + intros (l & -> & Hin). cbn. apply Mf; [by apply Hl|]. by apply HLs.
    + intros HF. destruct (Wf _ HF) as (A & HA & ->).
      destruct (sorted_set_list A) as (l & Hs & <-).
      exists l. split; [done|]. apply HLs. split; [done|]. by apply Mf.
Qed.
Lemma in_use_extract w H f F : zdd_in_use w H → (f, Some F) ∈ H →
  ∃ L k0, (∀ fuel, k0 ≤ fuel → y_extract fuel w [true] f = Some L) ∧
    Forall NoDup L ∧ NoDup (list_to_set <$> L : list (gset string)) ∧
    ∀ S, S ∈ (list_to_set <$> L : list (gset string)) ↔ F S.
Proof. intros Hu Hf. apply (zok_extract w H f F (in_use_ok _ _ Hu)). by eapply in_use_stands. Qed.

Lemma in_use_op o w H f g F G R : zdd_in_use w H → (f, F) ∈ H → (g, G) ∈ H → zop_gives o F G R →
  is_Some (y_op o w f g).
Proof. intros Hu Hf Hg Hgv. destruct (y_op_ok o w H f F g G R (in_use_ok _ _ Hu) Hf Hg Hgv) as (? & ? & -> & _). by eexists. Qed.
Lemma fst_in (H : zholds) f : f ∈ H.*1 → ∃ F, (f, F) ∈ H.
Proof. intros ([f' F] & -> & ?)%elem_of_list_fmap. by exists F. Qed.
Lemma in_use_progress w H : zdd_in_use w H →
  is_Some (y_empty w) ∧ is_Some (y_base w) ∧
  (∀ o f g, f ∈ H.*1 → g ∈ H.*1 → is_Some (y_op o w f g)) ∧
  (∀ f, f ∈ H.*1 → is_Some (y_children w f) ∧ ∀ ss, is_Some (y_count w ss f)).
Proof.
  intros Hu. pose proof (in_use_ok _ _ Hu) as Hk. pose proof (zk_wf _ _ Hk) as Hw. split; [|split; [|split]].
  - destruct (y_empty_ok w H Hk) as (? & ? & -> & _). by eexists.
  - destruct (y_base_ok w H Hk) as (? & ? & -> & _). by eexists.
  - intros o f g [F Hf]%fst_in [G Hg]%fst_in. eapply in_use_op; [done|done|done|apply zg_any].
  - intros f Hf. pose proof (zk_valid _ _ Hk _ Hf) as Vf. split.
    + unfold y_children. destruct (zvalid_repr _ _ Hw Vf) as [[t|hd ds] Hd].
      * apply repr_leaf in Hd as [_ ->]. by eexists.
      * destruct (zrepr_node2 _ _ _ _ (zw_good _ Hw) Hd) as (h & lo & hi & ? & ? & -> & -> & _). by eexists.
    + intros ss. destruct (zmembers_l (y_zdd w) ss f Hw Vf) as (L & Hnd & HL). unfold y_count. rewrite (zcount_l _ _ _ L Hw Vf Hnd HL). by eexists.
Qed.
Lemma held_makes w H : zdd_held w H → (∀ x, is_Some (y_singleton w x)) ∧ ∀ sets, is_Some (y_from_sets w sets).
Proof.
  intros [Hk Hs]%zdd_held_ok. split.
  - intros x. destruct (y_singleton_ok w H x Hk Hs) as (? & ? & -> & _). by eexists.
  - intros sets. destruct (y_from_sets_ok w H sets Hk Hs) as (? & ? & -> & _). by eexists.
Qed.
Lemma held_zeq w H f F g G : zdd_held w H → (f, Some F) ∈ H → (g, Some G) ∈ H → f = g ↔ ∀ S, F S ↔ G S.
Proof. intros [Hk Hs]%zdd_held_ok. by eapply solo_equal. Qed.

(** terminal tests *)
Lemma in_use_is t w H f F : zdd_in_use w H → (f, Some F) ∈ H → (t = TZero ∨ t = TOne) →
  ∃ b, y_is t w f = Some b ∧ (b = true ↔ ∀ S, F S ↔ t = TOne ∧ S = ∅).
Proof.
  intros Hu Hf Ht. pose proof (in_use_ok _ _ Hu) as Hk. pose proof (zk_wf _ _ Hk) as Hw. pose proof (zk_nm _ _ Hk) as Hn.
  pose proof (in_use_stands _ _ _ _ Hu Hf) as Hs. pose proof Hs as (_ & _ & Hs2).
  apply stands_iff in Hs as [(Vf & Df & Mf) Wf]; [|done].
  pose proof (zw_good _ Hw) as Hg. destruct (zvalid_repr _ _ Hw Vf) as [d Hd].
  assert (Hmem : ∀ A, zdd_mem (y_zdd w) f A ↔ lvls (y_zdd w) A ∧ F (nms (y_zdd w) A)).
  { intros A. split; [intros H0; pose proof (has_lvls _ _ _ _ H0); by rewrite <- Mf|intros [? ?]; by apply Mf]. }
  unfold y_is. destruct d as [t'|hd ds].
  - pose proof Hd as Hd'. apply repr_leaf in Hd' as [_ Hnode]. rewrite Hnode. cbn [mbind option_bind]. eexists. split; [done|].
    rewrite bool_decide_eq_true. split.
    + intros <- S. rewrite <- Hs2. split; [inversion 1; subst; [split; congruence|congruence..]|]. intros [-> ->]. by constructor.
    + intros HF. destruct Ht as [->| ->].
      * destruct t'; [| |].
        -- done.
        -- exfalso. assert (F ∅) as H0 by (apply Hs2; by constructor). by apply HF in H0 as [? _].
        -- exfalso. apply (Df ∅). by constructor.
      * assert (named_has (y_zdd w) TOne f ∅) as H0 by (by apply Hs2, HF). inversion H0; subst; congruence.
  - destruct (zrepr_node2 _ _ _ _ Hg Hd) as (h & lo & hi & dlo & dhi & -> & Hnode & Hh & _ & _ & _ & _ & Hnz). rewrite Hnode. cbn [mbind option_bind].
    eexists. split; [done|]. split; [done|]. intros HF. exfalso.
    destruct Ht as [->| ->].
    + assert (f = zdd_zero) as ->.
      { apply (zero_zero (y_zdd w)); try done. intros A [_ HA]%Hmem. by apply HF in HA as [? _]. }
      pose proof (zg_zero _ Hg) as [_ Hx]%repr_leaf. congruence.
    + assert (f = zdd_one) as ->.
      { apply (unit_one (y_zdd w)); try done. intros A. rewrite Hmem, HF, nms_empty. split; [by intros (_ & _ & ?)|]. intros ->. split; [intros l; set_solver|done]. }
      pose proof (zg_one _ Hg) as [_ Hx]%repr_leaf. congruence.
Qed.
