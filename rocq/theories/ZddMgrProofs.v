(** The ZddMgr wrapper's invariant. *)
From stdpp Require Import strings.
From Verif Require Import Prelude ComputeCache ComputeCacheProofs Arena Trees ArenaProofs ArenaMore Keeps Bdd BddProofs SpecBdd BssAlg BssMgr SpecBssMgr BssMgrProofs
  Zdd ZddTrees ZddProofs SpecZdd ZddMain ZddAlg ZddConv ZddMgr SpecZddMgr.

(** ** names and levels *)
Notation zhd m := (ar_headers (z_ar m)).
Definition nmok (m : zdd) : Prop := ∀ hd hd', hd ∈ zhd m → hd' ∈ zhd m → h_level hd = h_level hd' ↔ h_label hd = h_label hd'.
(** the label of a level *)
Definition nm (hs : list header) (l : nat) : string :=
  match filter (λ hd, h_level hd = l) hs with hd :: _ => h_label hd | [] => EmptyString end.
Lemma nm_spec m hd : nmok m → hd ∈ zhd m → nm (zhd m) (h_level hd) = h_label hd.
Proof.
  intros Hn Hh. unfold nm. destruct (filter _ _) as [|hd' l] eqn:E.
  - assert (hd ∈ filter (λ hd0, h_level hd0 = h_level hd) (zhd m)) as H by (by apply elem_of_list_filter).
    rewrite E in H. by apply elem_of_nil in H.
  - assert (hd' ∈ filter (λ hd0, h_level hd0 = h_level hd) (zhd m)) as [H1 H2]%elem_of_list_filter by (rewrite E; left).
    by apply (Hn hd' hd).
Qed.
Definition lvls (m : zdd) (A : gset nat) : Prop := ∀ l, l ∈ A → ∃ hd, hd ∈ zhd m ∧ h_level hd = l.
Lemma has_lvls m t id A : zdd_has m t id A → lvls m A.
Proof.
  induction 1 as [id Hn|id h lo hi S Hn H IH|id h lo hi hd S Hn Hh H IH].
  - intros l Hl. set_solver.
  - done.
  - intros l [->%elem_of_singleton|Hl]%elem_of_union; [|by apply IH]. exists hd. split; [|done]. by eapply elem_of_list_lookup_2.
Qed.
Definition nms (m : zdd) (A : gset nat) : gset string := set_map (nm (zhd m)) A.
Lemma nms_inj m A B : nmok m → lvls m A → lvls m B → nms m A = nms m B → A = B.
Proof.
  intros Hn. assert (Hsub : ∀ A B, lvls m A → lvls m B → nms m A ⊆ nms m B → A ⊆ B).
  { clear A B. intros A B HA HB Hs l Hl. assert (nm (zhd m) l ∈ nms m A) as H by (by apply elem_of_map_2).
    apply Hs in H. apply elem_of_map in H as (l' & He & Hl').
    destruct (HA _ Hl) as (hd & Hh & <-). destruct (HB _ Hl') as (hd' & Hh' & <-).
    rewrite !nm_spec in He by done. assert (h_level hd = h_level hd') as -> by (by apply Hn). done. }
  intros HA HB He. apply (anti_symm (⊆)); apply Hsub; try done; by rewrite He.
Qed.
Lemma nms_sub m A B : nmok m → lvls m A → lvls m B → nms m A ⊆ nms m B → A ⊆ B.
Proof.
  intros Hn HA HB Hs l Hl. assert (nm (zhd m) l ∈ nms m A) as H by (by apply elem_of_map_2).
  apply Hs in H. apply elem_of_map in H as (l' & He & Hl').
  destruct (HA _ Hl) as (hd & Hh & <-). destruct (HB _ Hl') as (hd' & Hh' & <-).
  rewrite !nm_spec in He by done. assert (h_level hd = h_level hd') as -> by (by apply Hn). done.
Qed.
Lemma nms_union m A B : nms m (A ∪ B) = nms m A ∪ nms m B.
Proof. unfold nms. apply set_map_union_L. Qed.
Lemma nms_single m hd : nmok m → hd ∈ zhd m → nms m {[h_level hd]} = {[h_label hd]}.
Proof. intros Hn Hh. unfold nms. by rewrite set_map_singleton_L, nm_spec. Qed.
Lemma nms_empty m A : nms m A = ∅ ↔ A = ∅.
Proof.
  split; [|intros ->; apply set_map_empty]. intros H. apply set_eq. intros l. split; [|set_solver].
  intros Hl. assert (nm (zhd m) l ∈ nms m A) as Hx by (by apply elem_of_map_2). rewrite H in Hx. set_solver.
Qed.

(** named paths are renamed paths *)
Lemma named_has_iff m t id S : nmok m → named_has m t id S ↔ ∃ A, zdd_has m t id A ∧ S = nms m A.
Proof.
  intros Hn. split.
  - induction 1 as [id Hx|id h lo hi S Hx H (A & HA & ->)|id h lo hi hd S Hx Hh H (A & HA & ->)].
    + exists ∅. split; [by constructor|]. symmetry. by apply nms_empty.
    + exists A. split; [by eapply zh_low|done].
    + exists ({[h_level hd]} ∪ A). split; [by eapply zh_high|]. rewrite nms_union, nms_single; [done|done|by eapply elem_of_list_lookup_2].
  - intros (A & HA & ->). induction HA as [id Hx|id h lo hi A Hx H IH|id h lo hi hd A Hx Hh H IH].
    + rewrite (proj2 (nms_empty m ∅)) by done. by constructor.
    + by eapply nh_low.
    + rewrite nms_union, nms_single; [by eapply nh_high|done|by eapply elem_of_list_lookup_2].
Qed.
Definition zden (m : zdd) (id : nat) (F : fam) : Prop :=
  zdd_valid m id ∧ zdd_det m id ∧ ∀ A, lvls m A → zdd_mem m id A ↔ F (nms m A).
Definition within_hdrs (m : zdd) (F : fam) : Prop := ∀ S, F S → ∃ A, lvls m A ∧ S = nms m A.
Lemma stands_iff m id F : nmok m → stands_for m id F ↔ zden m id F ∧ within_hdrs m F.
Proof.
  intros Hn. unfold stands_for, zden, within_hdrs, zdd_det, zdd_mem. setoid_rewrite named_has_iff; [|done..]. split.
  - intros (Hv & Hd & Hf). split; [split; [done|split]|].
    + intros A HA. apply (Hd (nms m A)). by exists A.
    + intros A HA. rewrite <- Hf. split; [by exists A|]. intros (B & HB & He). apply nms_inj in He; [by subst|done|done|by eapply has_lvls].
    + intros S (A & HA & ->)%Hf. exists A. split; [by eapply has_lvls|done].
  - intros [(Hv & Hd & Hf) Hw]. split; [done|]. split.
    + intros S (A & HA & _). by eapply Hd.
    + intros S. split.
      * intros (A & HA & ->). apply Hf; [by eapply has_lvls|done].
      * intros HF. destruct (Hw _ HF) as (A & HA & ->). exists A. split; [by apply Hf|done].
Qed.

(** ** the invariant; [B] as for [wok] *)
Section base.
Context {Bs : base}.
Record zok (w : zmgr) (H : zholds) : Prop := {
  zk_re : zdd_reachable (y_zdd w);
  zk_nm : nmok (y_zdd w);
  zk_roots : ∃ l, y_roots w = roots_of l ∧ l ≡ₚ H.*1 ++ (bs_pins Bs).*2;
  zk_valid : ∀ f, f ∈ H.*1 → zdd_valid (y_zdd w) f;
  zk_held : ∀ f F, (f, Some F) ∈ H → stands_for (y_zdd w) f F;
  zk_base : kept Bs (z_ar (y_zdd w));
}.
Lemma zk_wf w H : zok w H → zwf (y_zdd w).
Proof. intros Hk. apply zreachable_wf, Hk. Qed.

(** paths survive when headers and nodes only grow *)
Lemma named_ext m m' t id S : zwf m → ext (z_ar m) (z_ar m') → zdd_valid m id → named_has m' t id S ↔ named_has m t id S.
Proof.
  intros Hw He Hv. destruct (zvalid_repr _ _ Hw Hv) as [d Hd]. pose proof (repr_mono _ _ _ _ He Hd) as Hd'.
  assert (Hgo : ∀ a a' : zdd, ∀ d id id' S, repr (z_ar a) d id → repr (z_ar a') d id' → named_has a t id S → named_has a' t id' S).
  { clear. intros a a' d id id' S Hd Hd' Hs. revert d id' Hd Hd'. induction Hs as [id Hn|id h lo hi S Hn H IH|id h lo hi hd S Hn Hh H IH]; intros d id' Hd Hd'.
    - destruct d as [t'|hd ds].
      + apply repr_leaf in Hd as [_ Hx], Hd' as [_ Hx']. constructor. congruence.
      + apply repr_br in Hd as [_ (? & ? & Hx & _)]. congruence.
    - destruct d as [t'|hd ds]; [apply repr_leaf in Hd as [_ Hx]; congruence|].
      apply repr_br in Hd as [_ (h1 & cs & Hx & Hh1 & Hf)]. apply repr_br in Hd' as [_ (h1' & cs' & Hx' & Hh1' & Hf')].
      rewrite Hn in Hx. injection Hx as <- <-.
      inversion Hf as [|d0 ? ds0 ? H0 Hf0]; subst. inversion Hf0 as [|d1 ? ds1 ? H1 Hf1]; subst. inversion Hf1; subst.
      inversion Hf' as [|? c0 ? ? H0' Hf0']; subst. inversion Hf0' as [|? c1 ? ? H1' Hf1']; subst. inversion Hf1'; subst.
      eapply nh_low; [done|]. by eapply IH.
    - destruct d as [t'|hd' ds]; [apply repr_leaf in Hd as [_ Hx]; congruence|].
      apply repr_br in Hd as [_ (h1 & cs & Hx & Hh1 & Hf)]. apply repr_br in Hd' as [_ (h1' & cs' & Hx' & Hh1' & Hf')].
      rewrite Hn in Hx. injection Hx as <- <-. rewrite Hh in Hh1. injection Hh1 as <-.
      inversion Hf as [|d0 ? ds0 ? H0 Hf0]; subst. inversion Hf0 as [|d1 ? ds1 ? H1 Hf1]; subst. inversion Hf1; subst.
      inversion Hf' as [|? c0 ? ? H0' Hf0']; subst. inversion Hf0' as [|? c1 ? ? H1' Hf1']; subst. inversion Hf1'; subst.
      eapply nh_high; [done|done|]. by eapply IH. }
  split; by eapply Hgo.
Qed.
Lemma stands_ext m m' id F : zwf m → ext (z_ar m) (z_ar m') → stands_for m id F → stands_for m' id F.
Proof.
  intros Hw He (Hv & Hu & Hf). split; [by eapply ext_live|]. split.
  - intros S. rewrite (named_ext m m'); done.
  - intros S. rewrite (named_ext m m'); done.
Qed.
Lemma stands_nodes m m' id F : ar_nodes (z_ar m') = ar_nodes (z_ar m) → zhd m' = zhd m →
  zdd_valid m' id → stands_for m id F → stands_for m' id F.
Proof.
  intros Hn Hh Hv (_ & Hu & Hf).
  assert (Hgo : ∀ a a' : zdd, ar_nodes (z_ar a') = ar_nodes (z_ar a) → zhd a' = zhd a → ∀ t id S, named_has a t id S → named_has a' t id S).
  { clear. intros a a' Hn Hh t id S H. induction H as [id Hx|id h lo hi S Hx H IH|id h lo hi hd S Hx Hy H IH].
    - constructor. by rewrite Hn.
    - eapply nh_low; [by rewrite Hn|done].
    - eapply nh_high; [by rewrite Hn|by rewrite Hh|done]. }
  split; [done|]. split.
  - intros S H. apply (Hu S). by eapply (Hgo m' m).
  - intros S. rewrite <- Hf. split; by apply Hgo.
Qed.

Lemma zok_ext w H z : zok w H → zdd_reachable z → ext (z_ar (y_zdd w)) (z_ar z) → nmok z → zok (with_zdd w z) H.
Proof.
  intros Hk Hre He Hn. pose proof (zk_wf _ _ Hk) as Hw. destruct Hk as [H1 H2 H3 H4 H5 H6]. constructor; cbn [with_zdd y_zdd y_roots]; try done.
  - intros f Hf. eapply ext_live; [done|]. by apply H4.
  - intros f F Hf. eapply stands_ext; [done|done|]. by apply H5.
  - by eapply kept_ext.
Qed.
Lemma zok_step w H z : zok w H → zdd_reachable z → zstep (y_zdd w) z → zok (with_zdd w z) H.
Proof. intros Hk Hre (_ & He & Hh). apply zok_ext; try done. intros hd hd'. rewrite Hh. apply Hk. Qed.
Definition zfacts (m : zdd) (f : nat) (F : option fam) : Prop :=
  zdd_valid m f ∧ ∀ F', F = Some F' → stands_for m f F'.
Lemma zk_facts w H f F : zok w H → (f, F) ∈ H → zfacts (y_zdd w) f F.
Proof.
  intros Hk Hf. split; [|intros F' ->; by apply (zk_held _ _ Hk)]. apply (zk_valid _ _ Hk). apply elem_of_list_fmap. by exists (f, F).
Qed.
Lemma zok_pin w H f F : zok w H → zfacts (y_zdd w) f F → zok (y_pin w f) ((f, F) :: H).
Proof.
  intros [H1 H2 [l [Hr Hp]] H4 H5 H6] [Hv HF]. constructor; cbn [y_pin y_zdd y_roots]; try done.
  - exists (f :: l). split; [by rewrite Hr|]. cbn. by rewrite Hp.
  - intros g [->|Hg]%elem_of_cons; [done|by apply H4].
  - intros g G [Hg|Hg]%elem_of_cons; [|by apply H5]. injection Hg as -> <-. by apply HF.
Qed.
Lemma zok_perm w H H' : zok w H → H ≡ₚ H' → zok w H'.
Proof.
  intros [H1 H2 [l [Hr Hp]] H4 H5 H6] He. constructor; try done.
  - exists l. split; [done|]. by rewrite <- He.
  - intros f. rewrite <- He. apply H4.
  - intros f F. rewrite <- He. apply H5.
Qed.
Lemma zok_drop w H f F H' : zok w H → H ≡ₚ (f, F) :: H' → zok (y_drop w f) H'.
Proof.
  intros Hk Hd. apply (zok_perm _ _ _ Hk) in Hd. clear Hk. destruct Hd as [H1 H2 [l [Hr Hp]] H4 H5 H6].
  constructor; cbn [y_drop y_zdd y_roots]; try done.
  - exists (H'.*1 ++ (bs_pins Bs).*2). split; [|done]. rewrite Hr, (roots_perm l (f :: H'.*1 ++ (bs_pins Bs).*2)); [apply unpin_pin|done].
  - intros g Hg. apply H4. by right.
  - intros g G Hg. apply H5. by right.
Qed.
Lemma zok_params w H t f vs : zok w H → zok (ZMgr (y_zdd w) (y_roots w) t f vs) H.
Proof. by intros []. Qed.

Lemma zok_gc w H : zok w H → ∃ z n, zdd_gc (y_zdd w) (root_keys (y_roots w)) = Some (z, n) ∧ zok (with_zdd w z) H ∧ zhd z = zhd (y_zdd w).
Proof.
  intros Hk. pose proof (zk_wf _ _ Hk) as Hw. destruct Hk as [H1 H2 [l [Hr Hp]] H4 H5 H6].
  assert (Hin : ∀ f, f ∈ root_keys (y_roots w) ↔ f ∈ H.*1 ∨ f ∈ (bs_pins Bs).*2) by (intros f; by rewrite Hr, root_keys_elem, Hp, elem_of_app).
  assert (Hval : ∀ f, f ∈ root_keys (y_roots w) → zdd_valid (y_zdd w) f).
  { intros f [Hf|([a0 g] & -> & Hg)%elem_of_list_fmap]%Hin; [by apply H4|]. by eapply kept_live. }
  destruct (zgc_ok (y_zdd w) (root_keys (y_roots w)) Hw Hval) as (z & n & Heq & Hw' & Hhd & Hns & Hl & _).
  exists z, n. split; [done|].
  assert (Hv : ∀ f, f ∈ H.*1 → zdd_valid z f) by (intros f Hf; apply Hl; right; constructor; apply Hin; by left).
  split; [|done]. constructor; cbn [with_zdd y_zdd y_roots]; try done.
  - eapply (zreachable_step _ (ZGc (root_keys (y_roots w)))); [exact H1| |exact Heq]. cbn. by apply Forall_forall.
  - intros hd hd'. rewrite Hhd. apply H2.
  - by exists l.
  - intros f F Hf. eapply stands_nodes; [done|done| |by apply H5]. apply Hv. apply elem_of_list_fmap. by exists (f, Some F).
  - split; [rewrite Hhd; apply H6|]. intros a0 f Hf. eapply keeps_gc; [by apply H6|done|done|]. intros id Hid.
    apply Hl. right. eapply reach_mono; [|exact Hid]. intros g ->%elem_of_list_singleton. apply Hin. right.
    apply elem_of_list_fmap. by exists (a0, f).
Qed.
Lemma zok_maybe_gc w H : zok w H → ∃ w', y_maybe_gc w = Some w' ∧ zok w' H ∧ zhd (y_zdd w') = zhd (y_zdd w) ∧ y_vars w' = y_vars w.
Proof.
  intros Hk. unfold y_maybe_gc. destruct (_ <? _); [by exists w|].
  destruct (zok_gc w H Hk) as (z & n & -> & Hk' & Hh). cbn [mbind option_bind]. eexists. split; [done|]. split; [|done].
  apply (zok_params _ _ _ _ _ Hk').
Qed.
Lemma zok_wrap w H f F : zok w H → zfacts (y_zdd w) f F →
  ∃ w', y_wrap w f = Some (w', f) ∧ zok w' ((f, F) :: H) ∧ zhd (y_zdd w') = zhd (y_zdd w) ∧ y_vars w' = y_vars w.
Proof.
  intros Hk Hd. unfold y_wrap. destruct (zok_maybe_gc (y_pin w f) ((f, F) :: H)) as (w' & -> & Hk' & ?); [by apply zok_pin|].
  by exists w'.
Qed.

(** ** operations *)
Lemma zvalid_consts m : zwf m → zdd_valid m zdd_zero ∧ zdd_valid m zdd_one.
Proof.
  intros Hw. pose proof (zw_good _ Hw) as Hg. split; (eapply zvalid_of_repr; apply Hg).
Qed.
Lemma stands_empty m : zwf m → stands_for m zdd_zero (λ _, False).
Proof.
  intros Hw. pose proof (zg_zero _ (zw_good _ Hw)) as [Hv Hn]%repr_leaf.
  assert (Hx : ∀ t S, named_has m t zdd_zero S → t = TZero) by (intros t S; inversion 1; congruence).
  split; [done|]. split; [intros S H%Hx; done|]. intros S. split; [intros H%Hx; done|done].
Qed.
Lemma stands_base m : zwf m → stands_for m zdd_one (λ S, S = ∅).
Proof.
  intros Hw. pose proof (zg_one _ (zw_good _ Hw)) as [Hv Hn]%repr_leaf.
  assert (Hx : ∀ t S, named_has m t zdd_one S → t = TOne ∧ S = ∅) by (intros t S; inversion 1; split; congruence).
  split; [done|]. split; [intros S H%Hx; naive_solver|]. intros S. split; [intros H%Hx; naive_solver|]. intros ->. by constructor.
Qed.

(** the only node whose family is {∅} *)
Lemma unit_one m g : zwf m → zdd_valid m g → zdd_det m g → (∀ A, zdd_mem m g A ↔ A = ∅) → g = zdd_one.
Proof.
  intros Hw Hv Hd Hm. pose proof (zw_good _ Hw) as Hg. destruct (zvalid_repr _ _ Hw Hv) as [d Hr].
  pose proof (proj1 (det_zdet _ _ _ Hg Hr) Hd) as Dd.
  assert (Hz : ∀ A, zmem A d ↔ A = ∅) by (intros A; by rewrite <- (mem_zmem m d g)).
  pose proof (zgood_ok _ _ _ Hg Hr) as Ho.
  assert (Hrd : zred d).
  { clear -Hg Hr. revert g Hr. induction d as [t|hd ds IH] using dd_ind'; intros id Hr; [done|].
    destruct (zrepr_node2 _ _ _ _ Hg Hr) as (h & lo & hi & dlo & dhi & -> & _ & _ & Hlo & Hhi & _ & _ & Hnz).
    rewrite !Forall_cons in IH. destruct IH as (IH0 & IH1 & _). cbn. eauto. }
  enough (d = Leaf TOne) as -> by (eapply repr_inj; [apply Hg|exact Hr|apply Hg]).
  destruct d as [t|hd ds].
  - specialize (Hz ∅). unfold zmem in Hz. cbn in Hz. f_equal. by apply Hz.
  - exfalso. destruct (ok2 _ _ Ho) as (lo & hi & -> & _ & _ & O0 & O1).
    pose proof (zsplit_br _ _ _ Ho) as Hs.
    destruct Hrd as (Hnz & _ & Hzr).
    destruct (zred_witness hi O1 Hzr Hnz) as [S HS].
    assert (h_level hd ∉ S) by (intros Hl; by rewrite (zsplit_z1 _ _ _ _ _ Hs Hl) in HS).
    assert (zev ({[h_level hd]} ∪ S) (Br hd [lo; hi]) = TOne) as H1.
    { specialize (Dd ({[h_level hd]} ∪ S)). rewrite (zsplit_1 _ _ _ _ _ Hs) in * by done. by destruct (zev S hi). }
    apply Hz in H1. set_solver.
Qed.
Lemma zop_ok_named o m f g F G R : zdd_reachable m → nmok m → zfacts m f F → zfacts m g G → zop_gives o F G R →
  ∃ m' r, zdd_op o m f g = Some (m', r) ∧ zdd_reachable m' ∧ zstep m m' ∧ zfacts m' r R.
Proof.
  intros Hre Hn [Vf Ff] [Vg Fg] Hgiv. pose proof (zreachable_wf _ Hre) as Hw.
  destruct (zvalid_repr _ _ Hw Vf) as [df Hf]. destruct (zvalid_repr _ _ Hw Vg) as [dg Hg].
  destruct (zop_ok o m f g df dg Hw Hf Hg) as (m' & r & dr & Heq & Hst & Hr & _).
  assert (Hre' : zdd_reachable m') by (eapply (zreachable_step _ (ZOp o f g)); done).
  assert (Hn' : nmok m') by (intros hd hd'; rewrite (proj2 (proj2 Hst)); apply Hn).
  assert (Hl : ∀ A, lvls m' A ↔ lvls m A) by (intros A; unfold lvls; by rewrite (proj2 (proj2 Hst))).
  assert (Hnm : ∀ A, nms m' A = nms m A) by (intros A; unfold nms; by rewrite (proj2 (proj2 Hst))).
  exists m', r. split; [done|]. split; [done|]. split; [done|]. split; [by eapply zvalid_of_repr|].
  intros R' ->. destruct (zalgebra_wf o m f g Hw Vf Vg) as (m1 & r1 & E1 & V1 & Hsem). rewrite Heq in E1. injection E1 as <- <-.
  assert (HS : ∀ (F' : fam) i, zfacts m i (Some F') → zden m i F' ∧ within_hdrs m F') by (intros F' i [_ H]; apply stands_iff; [done|by apply H]).
  inversion Hgiv as [F0 G0|F0 G0|F0 G0|F0 G0 Hap|F0 G0 Hone|]; subst; clear Hgiv;
    destruct (HS _ f (conj Vf Ff)) as [(_ & Df & Mf) Wf]; destruct (HS _ g (conj Vg Fg)) as [(_ & Dg & Mg) Wg]; apply stands_iff; try done.
  - destruct (Hsem ltac:(done) Df Dg) as [Dr Hm]. split; [split; [done|]; split; [done|]|].
    + intros A HA%Hl. by rewrite Hm, Hnm, Mf, Mg.
    + intros S [HS'|HS']; [destruct (Wf _ HS') as (A & HA & ->)|destruct (Wg _ HS') as (A & HA & ->)]; exists A; by rewrite Hl, Hnm.
  - destruct (Hsem ltac:(done) Df Dg) as [Dr Hm]. split; [split; [done|]; split; [done|]|].
    + intros A HA%Hl. by rewrite Hm, Hnm, Mf, Mg.
    + intros S [HS' _]. destruct (Wf _ HS') as (A & HA & ->). exists A; by rewrite Hl, Hnm.
  - destruct (Hsem ltac:(done) Df Dg) as [Dr Hm]. split; [split; [done|]; split; [done|]|].
    + intros A HA%Hl. rewrite Hm, Hnm. split.
      * intros (A1 & A2 & -> & H1 & H2). exists (nms m A1), (nms m A2). rewrite nms_union. split; [done|].
        split; [apply Mf; [by eapply has_lvls|done]|apply Mg; [by eapply has_lvls|done]].
      * intros (S1 & S2 & He & H1 & H2). destruct (Wf _ H1) as (A1 & L1 & ->). destruct (Wg _ H2) as (A2 & L2 & ->).
        exists A1, A2. rewrite Mf, Mg by done. split; [|done]. rewrite <- nms_union in He. apply (nms_inj m) in He; try done.
        intros l [Hx|Hx]%elem_of_union; [by apply L1|by apply L2].
    + intros S (S1 & S2 & -> & H1 & H2). destruct (Wf _ H1) as (A1 & L1 & ->). destruct (Wg _ H2) as (A2 & L2 & ->).
      exists (A1 ∪ A2). rewrite Hl, Hnm, nms_union. split; [|done]. intros l [Hx|Hx]%elem_of_union; [by apply L1|by apply L2].
  - destruct (Hsem ltac:(done) Df Dg) as [Dr Hm]. split; [split; [done|]; split; [done|]|].
    + intros A HA%Hl. rewrite Hm, settles_both, Hnm, Mf, Mg; [done|done|done|]. intros A1 A2 H1 H2 Hs.
      pose proof (has_lvls _ _ _ _ H1) as L1. pose proof (has_lvls _ _ _ _ H2) as L2. apply (nms_inj m); try done.
      apply Mf in H1; [|done]. apply Mg in H2; [|done]. apply Hap; [done|done|].
      destruct Hs as [Hs|Hs]; [left|right]; by apply set_map_mono.
    + intros S [HS' _]. destruct (Wf _ HS') as (A & HA & ->). exists A; by rewrite Hl, Hnm.
  - assert (g = zdd_one) as ->.
    { apply (unit_one m); try done. intros A. split.
      - intros HA. pose proof (has_lvls _ _ _ _ HA) as L. apply Mg in HA; [|done]. by apply Hone, nms_empty in HA.
      - intros ->. apply Mg; [intros l; set_solver|]. apply Hone. by apply nms_empty. }
    destruct (zdivide_one m f Hw Vf) as (m1 & E1 & _). cbn [zdd_op] in Heq. rewrite E1 in Heq. injection Heq as -> <-.
    apply stands_iff; [done|]. eapply stands_ext; [done|apply Hst|]. by apply Ff.
Qed.

Lemma nms_mem m hd A : nmok m → hd ∈ zhd m → lvls m A → h_label hd ∈ nms m A ↔ h_level hd ∈ A.
Proof.
  intros Hn Hh HA. split.
  - intros (l & He & Hl)%elem_of_map. destruct (HA _ Hl) as (hd' & Hh' & <-). rewrite nm_spec in He by done.
    assert (h_level hd = h_level hd') as -> by (by apply Hn). done.
  - intros Hl. apply elem_of_map. exists (h_level hd). split; [|done]. by rewrite nm_spec.
Qed.
Lemma children_ok m f F h hd f0 f1 : zdd_reachable m → nmok m → zfacts m f F →
  ar_nodes (z_ar m) !! f = Some (NT h [f0; f1]) → zhd m !! h = Some hd →
  zfacts m f0 (without (h_label hd) <$> F) ∧ zfacts m f1 (within (h_label hd) <$> F).
Proof.
  intros Hre Hn [Vf Ff] Hf Hh. pose proof (zreachable_wf _ Hre) as Hw. pose proof (zw_good _ Hw) as Hg.
  destruct (zvalid_repr _ _ Hw Vf) as [d Hd]. destruct d as [t|hd' ds]; [apply repr_leaf in Hd as [_ Hx]; congruence|].
  pose proof (zgood_ok _ _ _ Hg Hd) as Ho.
  destruct (zrepr_node2 _ _ _ _ Hg Hd) as (h' & lo & hi & dlo & dhi & -> & Hx & Hh' & Hlo & Hhi & _).
  rewrite Hf in Hx. injection Hx as <- <- <-. rewrite Hh in Hh'. injection Hh' as <-.
  pose proof (zsplit_br _ _ _ Ho) as Hs.
  assert (Hin : hd ∈ zhd m) by (by eapply elem_of_list_lookup_2).
  pose proof (zvalid_of_repr _ _ _ Hlo) as V0. pose proof (zvalid_of_repr _ _ _ Hhi) as V1.
  destruct F as [F|]; [|by split; (split; [done|intros F' [=]])].
  specialize (Ff F eq_refl). apply stands_iff in Ff as [(_ & Df & Mf) Wf]; [|done].
  rewrite (det_zdet m _ f Hg Hd), (zdet_split _ _ _ _ Hs) in Df. destruct Df as [D0 D1].
  assert (Mf' : ∀ A, lvls m A → zmem A (Br hd [dlo; dhi]) ↔ F (nms m A)) by (intros A HA; rewrite <- (mem_zmem m _ f) by done; by apply Mf).
  split; (split; [done|]); cbn [fmap option_fmap option_map]; intros F' [= <-]; apply stands_iff; try done.
  - split; [split; [done|]; split; [by rewrite (det_zdet m _ _ Hg Hlo)|]|].
    + intros A HA. rewrite (mem_zmem m _ _ _ Hg Hlo). unfold without. rewrite nms_mem by done. split.
      * intros Hm. pose proof (zmem_fresh0 _ _ _ _ _ Hs Hm) as Hl. split; [done|]. apply Mf'; [done|]. unfold zmem. by rewrite (zsplit_0 _ _ _ _ _ Hs).
      * intros [Hl HF]. apply Mf' in HF; [|done]. unfold zmem in *. by rewrite (zsplit_0 _ _ _ _ _ Hs) in HF.
    + intros S [_ HS]. by apply Wf.
  - assert (HU : ∀ A, lvls m A → lvls m ({[h_level hd]} ∪ A)).
    { intros A HA l [->%elem_of_singleton|Hl]%elem_of_union; [by exists hd|by apply HA]. }
    split; [split; [done|]; split; [by rewrite (det_zdet m _ _ Hg Hhi)|]|].
    + intros A HA. rewrite (mem_zmem m _ _ _ Hg Hhi). unfold within. rewrite nms_mem by done. rewrite <- (nms_single m hd), <- nms_union by done. split.
      * intros Hm. pose proof (zmem_fresh1 _ _ _ _ _ Hs Hm) as Hl. split; [done|]. apply Mf'; [by apply HU|]. unfold zmem. by rewrite (zsplit_1 _ _ _ _ _ Hs).
      * intros [Hl HF]. apply Mf' in HF; [|by apply HU]. unfold zmem in *. by rewrite (zsplit_1 _ _ _ _ _ Hs) in HF.
    + intros S [Hx HS]. destruct (Wf _ HS) as (A & HA & He). exists (A ∖ {[h_level hd]}).
      assert (HA' : lvls m (A ∖ {[h_level hd]})) by (intros l [Hl _]%elem_of_difference; by apply HA). split; [done|].
      assert (Hl : h_level hd ∈ A) by (apply (nms_mem m hd A); [done|done|done|rewrite <- He; set_solver]).
      assert (HA2 : A = {[h_level hd]} ∪ A ∖ {[h_level hd]}) by (by rewrite <- union_difference_singleton_L).
      rewrite HA2, nms_union, nms_single in He by done.
      assert (h_label hd ∉ nms m (A ∖ {[h_level hd]})) by (rewrite nms_mem by done; set_solver).
      set_solver.
Qed.


Lemma y_step_ok w H w' H' : zok w H → y_step w H w' H' → zok w' H' ∧ zhd (y_zdd w') = zhd (y_zdd w) ∧ y_vars w' = y_vars w.
Proof.
  intros Hk Hs. pose proof (zk_wf _ _ Hk) as Hw. destruct (zvalid_consts _ Hw) as [V0 V1].
  destruct Hs as [w H w' r E|w H w' r E|o w H f F g G R w' r Hf Hg Hgv E|w H f F x w' f0 f1 Hf Hl E|w H f F Hf|w H f F H' Hp|w H t|w H].
  - destruct (zok_wrap w H zdd_zero (Some (λ _, False)) Hk) as (w1 & E1 & Hk' & Hh).
    { split; [done|]. intros F' [= <-]. by apply stands_empty. }
    unfold y_empty in E. rewrite E1 in E. by injection E as <- <-.
  - destruct (zok_wrap w H zdd_one (Some (λ S, S = ∅)) Hk) as (w1 & E1 & Hk' & Hh).
    { split; [done|]. intros F' [= <-]. by apply stands_base. }
    unfold y_base in E. rewrite E1 in E. by injection E as <- <-.
  - destruct (zop_ok_named o (y_zdd w) f g F G R) as (m' & r' & Heq & Hre & Hst & Hfa); [apply Hk|apply Hk|by eapply zk_facts..|done|].
    assert (y_op o w f g = y_wrapped w (zdd_op o (y_zdd w) f g)) as Hu by (by destruct o). rewrite Hu, Heq in E. unfold y_wrapped in E. cbn [mbind option_bind] in E.
    destruct (zok_wrap (with_zdd w m') H r' R) as (w1 & E1 & Hk' & Hh & Hv); [by apply zok_step|done|].
    rewrite E1 in E. injection E as <- <-. split; [done|]. split; [|done]. rewrite Hh. apply Hst.
  - unfold y_label, y_children in *. destruct (ar_nodes _ !! f) as [[t|h cs]|] eqn:Hn; try done. cbn [mbind option_bind] in *.
    destruct (zhd (y_zdd w) !! h) as [hd|] eqn:Hh; [|done]. injection Hl as <-.
    destruct (edges2 cs) as [[a b]|] eqn:Hc; [|done]. injection E as <- <- <-.
    assert (cs = [a; b]) as -> by (destruct cs as [|? [|? []]]; cbn in Hc; congruence).
    destruct (children_ok (y_zdd w) f F h hd a b) as [Ha Hb]; [apply Hk|apply Hk|by eapply zk_facts|done|done|].
    split; [|done]. eapply zok_perm; [|apply Permutation_swap]. apply zok_pin; [by apply zok_pin|done].
  - split; [|done]. apply zok_pin; [done|by eapply zk_facts].
  - split; [|done]. by eapply zok_drop.
  - split; [|done]. by apply zok_params.
  - split; [|done]. apply zok_step; [done| |].
    + eapply (zreachable_step _ ZClear); [apply Hk|done|done].
    + split; [by apply zclear_cache_ok|]. split; [apply ext_refl|done].
Qed.

(** ** a ZddMgr on its own *)
Record zsolo (w : zmgr) : Prop := {
  zs_lvl : ∀ i hd, zhd (y_zdd w) !! i = Some hd → h_level hd = i;
  zs_nd : NoDup (h_label <$> zhd (y_zdd w));
  zs_vars : ∀ x h, y_vars w !! x = Some h ↔ (h_label <$> zhd (y_zdd w) !! h) = Some x;
  zs_size : size (y_vars w) = length (zhd (y_zdd w));
}.
Lemma zsolo_same w w' : zhd (y_zdd w') = zhd (y_zdd w) → y_vars w' = y_vars w → zsolo w → zsolo w'.
Proof. intros Hh Hv [A B C D]. constructor; rewrite ?Hh, ?Hv; done. Qed.
Lemma solo_nmok w : zsolo w → nmok (y_zdd w).
Proof.
  intros [Hl Hn _ _] hd hd' [i Hi]%elem_of_list_lookup [j Hj]%elem_of_list_lookup. split.
  - rewrite (Hl _ _ Hi), (Hl _ _ Hj). intros ->. congruence.
  - intros He. assert (i = j) as ->; [|congruence].
    eapply (NoDup_lookup (h_label <$> zhd (y_zdd w)) i j (h_label hd)); [done| |]; rewrite list_lookup_fmap; [by rewrite Hi|by rewrite Hj, He].
Qed.
Lemma solo_distinct w : zsolo w → zdd_levels_distinct (y_zdd w).
Proof.
  intros [Hl _ _ _]. unfold zdd_levels_distinct. apply NoDup_alt. intros i j l. rewrite !list_lookup_fmap.
  destruct (zhd _ !! i) as [hd|] eqn:Hi; [|done]. destruct (zhd _ !! j) as [hd'|] eqn:Hj; [|done]. cbn.
  intros [= <-] [= He]. rewrite (Hl _ _ Hi), (Hl _ _ Hj) in He. done.
Qed.

Definition y_header (w : zmgr) (x : string) : zmgr * nat :=
  match y_vars w !! x with
  | Some h => (w, h)
  | None =>
      let '(z, h) := zdd_create_header (y_zdd w) (size (y_vars w)) x in
      (ZMgr z (y_roots w) (y_thr w) (y_floor w) (<[x := h]> (y_vars w)), h)
  end.
Lemma y_header_ok w H x : zok w H → zsolo w →
  ∃ w' h hd, y_header w x = (w', h) ∧ zok w' H ∧ zsolo w' ∧ zhd (y_zdd w') !! h = Some hd ∧ h_label hd = x.
Proof.
  intros Hk Hs. unfold y_header. destruct (y_vars w !! x) as [h|] eqn:Hx.
  { pose proof (proj1 (zs_vars _ Hs x h) Hx) as Hl. destruct (zhd (y_zdd w) !! h) as [hd|] eqn:Hh; [|done]. injection Hl as Hl.
    by exists w, h, hd. }
  destruct (zdd_create_header (y_zdd w) (size (y_vars w)) x) as [z h] eqn:E.
  destruct (zcreate_header_ok _ _ _ _ _ (zk_wf _ _ Hk) E) as (Hw' & He & -> & Hhd & Hns & Hl).
  set (n := length (zhd (y_zdd w))) in *. rewrite (zs_size _ Hs) in *. fold n in Hhd.
  set (w1 := ZMgr z (y_roots w) (y_thr w) (y_floor w) (<[x:=n]> (y_vars w))).
  assert (Hsolo : zsolo w1).
  { destruct Hs as [A B C D]. constructor; cbn [w1 y_zdd y_vars]; rewrite ?Hhd.
    - intros i hd [Hi|[Hi1 Hi2]]%lookup_app_Some; [by apply A|]. apply list_lookup_singleton_Some in Hi2 as [Hi2 <-]. cbn. fold n in Hi1, Hi2. lia.
    - rewrite fmap_app. apply NoDup_app. split; [done|]. split; [|apply NoDup_singleton].
      intros y [i Hi]%elem_of_list_lookup Hy%elem_of_list_singleton. cbn in Hy. subst y. rewrite list_lookup_fmap in Hi. apply C in Hi. congruence.
    - intros y h. destruct (decide (y = x)) as [->|Hne].
      + rewrite lookup_insert. split.
        * intros [= <-]. rewrite lookup_app_r by (unfold n; lia). unfold n. by rewrite Nat.sub_diag.
        * destruct (decide (h < n)) as [Hlt|Hge].
          -- rewrite lookup_app_l by done. intros Hi%C. congruence.
          -- rewrite lookup_app_r by (fold n; lia). fold n. destruct (h - n) eqn:Hz; [intros _; f_equal; lia|done].
      + rewrite lookup_insert_ne by done. rewrite C. destruct (decide (h < n)) as [Hlt|Hge].
        * by rewrite lookup_app_l.
        * rewrite lookup_app_r by (fold n; lia). fold n. rewrite lookup_ge_None_2 by (fold n; lia). split; [done|].
          destruct (h - n); [|done]. cbn. intros [= He']. done.
    - rewrite map_size_insert_None by done. rewrite app_length, D. cbn. fold n. lia. }
  exists w1, n, (Header n n x 2). split; [done|]. split; [|split; [done|split; [|done]]].
  - assert (Hre : zdd_reachable z) by (eapply (zreachable_step _ (ZHeader n x)); [apply Hk|done|exact (f_equal Some E)]).
    pose proof (zok_ext w H z Hk Hre He (solo_nmok _ Hsolo)) as Hk'. by apply (zok_params _ _ (y_thr w) (y_floor w) (<[x:=n]> (y_vars w)) Hk').
  - cbn [w1 y_zdd]. rewrite Hhd. rewrite lookup_app_r by (unfold n; lia). unfold n. by rewrite Nat.sub_diag.
Qed.

Lemma y_singleton_ok w H x : zok w H → zsolo w →
  ∃ w' r, y_singleton w x = Some (w', r) ∧ zok w' ((r, Some (λ S, S = {[x]})) :: H) ∧ zsolo w'.
Proof.
  intros Hk Hs. assert (y_singleton w x = let '(w, h) := y_header w x in y_wrapped w (Some (zdd_create_node (y_zdd w) h zdd_zero zdd_one))) as -> by done.
  destruct (y_header_ok w H x Hk Hs) as (w1 & h & hd & -> & Hk1 & Hs1 & Hh & <-). clear Hk Hs w.
  pose proof (zk_wf _ _ Hk1) as Hw. pose proof (zw_good _ Hw) as Hg.
  assert (Hlegal : zdd_legal (y_zdd w1) (ZNode h zdd_zero zdd_one)).
  { cbn. rewrite Hh. destruct (zvalid_consts _ Hw). pose proof (zg_zero _ Hg) as R0. pose proof (zg_one _ Hg) as R1.
    sp; try done; (eapply zbelow_of_rank; [done|cbn; lia]). }
  destruct (zcreate_node_spec (y_zdd w1) h hd zdd_zero zdd_one (Leaf TZero) (Leaf TOne)) as (m' & r & dr & Heq & Hst & Hr & Hd);
    [done|done|apply Hg|apply Hg|cbn; lia|cbn; lia|]. destruct Hd as [[? ?]|[_ ->]]; [done|].
  rewrite Heq. unfold y_wrapped. cbn [mbind option_bind].
  assert (Hre : zdd_reachable m') by (eapply (zreachable_step _ (ZNode h zdd_zero zdd_one)); [apply Hk1|done|cbn [zdd_exec]; by rewrite Heq]).
  pose proof (zok_step _ _ _ Hk1 Hre Hst) as Hk2.
  destruct (zok_wrap (with_zdd w1 m') H r (Some (λ S, S = {[h_label hd]}))) as (w' & E & Hk' & Hh' & Hv'); [done| |].
  - split; [by eapply zvalid_of_repr|]. intros F' [= <-]. cbn [with_zdd y_zdd].
    destruct (zrepr_node2 _ _ _ _ (zw_good _ (proj1 Hst)) Hr) as (h' & lo & hi & dlo & dhi & [= <- <-] & Hx & Hh1 & Hlo & Hhi & _).
    apply repr_leaf in Hlo as [_ Hlo], Hhi as [_ Hhi].
    assert (Hpath : ∀ t S, named_has m' t r S → (t = TZero ∧ S = ∅) ∨ (t = TOne ∧ S = {[h_label hd]})).
    { intros t S HS. inversion HS as [id Hn|id a b c S' Hn HP|id a b c hd' S' Hn Hn' HP]; subst; [congruence| |];
        rewrite Hx in Hn; injection Hn as <- <- <-.
      - left. inversion HP; subst; [split; [congruence|done]|congruence..].
      - right. rewrite Hh1 in Hn'. injection Hn' as <-. inversion HP; subst; [split; [congruence|set_solver]|congruence..]. }
    split; [by eapply zvalid_of_repr|]. split; [intros S HS%Hpath; naive_solver|]. intros S. split; [intros HS%Hpath; naive_solver|].
    intros ->. replace ({[h_label hd]} : gset string) with ({[h_label hd]} ∪ ∅ : gset string) by set_solver. eapply nh_high; [done|done|]. by constructor.
  - exists w', r. split; [done|]. split; [done|]. apply (zsolo_same w1); [rewrite Hh'; apply Hst|exact Hv'|done].
Qed.

(** equal families, equal handles *)
Lemma solo_equal w H f g F G : zok w H → zsolo w → (f, Some F) ∈ H → (g, Some G) ∈ H → f = g ↔ ∀ S, F S ↔ G S.
Proof.
  intros Hk Hs Hf Hg. pose proof (zk_held _ _ Hk _ _ Hf) as Sf. pose proof (zk_held _ _ Hk _ _ Hg) as Sg. split.
  - intros <-. destruct Sf as (_ & _ & Sf), Sg as (_ & _ & Sg). intros S. by rewrite <- Sf, <- Sg.
  - intros He. pose proof (solo_nmok _ Hs) as Hn. apply stands_iff in Sf as [(Vf & Df & Mf) _]; [|done]. apply stands_iff in Sg as [(Vg & Dg & Mg) _]; [|done].
    apply (zcanonical_l (y_zdd w)); try done; [apply Hk|by apply solo_distinct|]. intros A. split; intros HA; pose proof (has_lvls _ _ _ _ HA).
    + apply Mg; [done|]. apply He. by apply Mf.
    + apply Mf; [done|]. apply He. by apply Mg.
Qed.

Lemma fam_weaken w H f F G : zok w ((f, Some F) :: H) → (∀ S, F S ↔ G S) → zok w ((f, Some G) :: H).
Proof.
  intros [A B' C D E ?] He. constructor; try done. intros g G' [Hg|Hg]%elem_of_cons; [|apply E; by right].
  injection Hg as -> <-. destruct (E f F ltac:(left)) as (V & U & M). split; [done|]. split; [done|]. intros S. by rewrite <- He, <- M.
Qed.

(** one operation keeps everything *)
Lemma y_op_ok o w H f F g G R : zok w H → (f, F) ∈ H → (g, G) ∈ H → zop_gives o F G R →
  ∃ w' r, y_op o w f g = Some (w', r) ∧ zok w' ((r, R) :: H) ∧ zhd (y_zdd w') = zhd (y_zdd w) ∧ y_vars w' = y_vars w.
Proof.
  intros Hk Hf Hg Hgv.
  destruct (zop_ok_named o (y_zdd w) f g F G R) as (m' & r' & Heq & Hre & Hst & Hfa); [apply Hk|apply Hk|by eapply zk_facts..|done|].
  assert (y_op o w f g = y_wrapped w (zdd_op o (y_zdd w) f g)) as -> by (by destruct o). rewrite Heq. unfold y_wrapped. cbn [mbind option_bind].
  destruct (zok_wrap (with_zdd w m') H r' R) as (w1 & E1 & Hk' & Hh & Hv); [by apply zok_step|done|].
  exists w1, r'. split; [done|]. split; [done|]. split; [|done]. rewrite Hh. apply Hst.
Qed.
Lemma y_empty_ok w H : zok w H →
  ∃ w' r, y_empty w = Some (w', r) ∧ zok w' ((r, Some (λ _, False)) :: H) ∧ zhd (y_zdd w') = zhd (y_zdd w) ∧ y_vars w' = y_vars w.
Proof.
  intros Hk. pose proof (zk_wf _ _ Hk) as Hw. destruct (zok_wrap w H zdd_zero (Some (λ _, False)) Hk) as (w1 & E1 & Hk' & Hh).
  { split; [by apply zvalid_consts|]. intros F' [= <-]. by apply stands_empty. }
  by exists w1, zdd_zero.
Qed.
Lemma y_base_ok w H : zok w H →
  ∃ w' r, y_base w = Some (w', r) ∧ zok w' ((r, Some (λ S, S = ∅)) :: H) ∧ zhd (y_zdd w') = zhd (y_zdd w) ∧ y_vars w' = y_vars w.
Proof.
  intros Hk. pose proof (zk_wf _ _ Hk) as Hw. destruct (zok_wrap w H zdd_one (Some (λ S, S = ∅)) Hk) as (w1 & E1 & Hk' & Hh).
  { split; [by apply zvalid_consts|]. intros F' [= <-]. by apply stands_base. }
  by exists w1, zdd_one.
Qed.

Lemma from_elems_ok s : ∀ w H f T, zok w ((f, Some (λ S, S = T)) :: H) → zsolo w →
  ∃ w' r, from_elems w f s = Some (w', r) ∧ zok w' ((r, Some (λ S, S = T ∪ list_to_set s)) :: H) ∧ zsolo w'.
Proof.
  induction s as [|x s IH]; intros w H f T Hk Hs; cbn [from_elems].
  { exists w, f. split; [done|]. split; [|done]. eapply fam_weaken; [done|]. intros S. cbn. by rewrite (right_id_L ∅ (∪)). }
  destruct (y_singleton_ok w _ x Hk Hs) as (w1 & sg & -> & Hk1 & Hs1). cbn [mbind option_bind].
  destruct (y_op_ok ZProduct w1 _ f (Some (λ S, S = T)) sg (Some (λ S, S = {[x]})) _ Hk1 ltac:(by right; left) ltac:(by left) (zg_product _ _)) as (w2 & f' & -> & Hk2 & Hh2 & Hv2).
  cbn [mbind option_bind].
  assert (Hs2 : zsolo w2) by (by eapply zsolo_same).
  assert (Hk3 : zok (y_drop (y_drop w2 f) sg) ((f', Some (λ S, S = T ∪ {[x]})) :: H)).
  { eapply zok_drop; [eapply zok_drop; [apply (fam_weaken _ _ _ _ (λ S, S = T ∪ {[x]}) Hk2)|]|].
    - intros S. split; [intros (A & B & -> & -> & ->); done|intros ->; by exists T, {[x]}].
    - etrans; [apply Permutation_skip, Permutation_swap|apply Permutation_swap].
    - apply Permutation_swap. }
  destruct (IH _ _ _ _ Hk3) as (w' & r & E & Hk' & Hs'); [by eapply zsolo_same|].
  exists w', r. split; [done|]. split; [|done]. eapply fam_weaken; [done|]. intros S. cbn. by rewrite (assoc_L (∪)).
Qed.
Lemma from_sets_go_ok sets : ∀ w H f F, zok w ((f, Some F) :: H) → zsolo w →
  ∃ w' r, from_sets_go w f sets = Some (w', r) ∧
    zok w' ((r, Some (λ S, F S ∨ ∃ s, s ∈ sets ∧ S = list_to_set s)) :: H) ∧ zsolo w'.
Proof.
  induction sets as [|s sets IH]; intros w H f F Hk Hs; cbn [from_sets_go].
  { exists w, f. split; [done|]. split; [|done]. eapply fam_weaken; [done|]. intros S. split; [by left|].
    intros [?|(s & Hin & _)]; [done|by apply elem_of_nil in Hin]. }
  destruct (y_base_ok w _ Hk) as (w1 & b & -> & Hk1 & Hh1 & Hv1). cbn [mbind option_bind].
  destruct (from_elems_ok s w1 _ b ∅ Hk1) as (w2 & g & -> & Hk2 & Hs2); [by eapply zsolo_same|]. cbn [mbind option_bind].
  destruct (y_op_ok ZUnion w2 _ f (Some F) g (Some (λ S, S = ∅ ∪ list_to_set s)) _ Hk2 ltac:(by right; left) ltac:(by left) (zg_union _ _)) as (w3 & r' & -> & Hk3 & Hh3 & Hv3).
  cbn [mbind option_bind].
  assert (Hs3 : zsolo w3) by (by eapply zsolo_same).
  assert (Hk4 : zok (y_drop (y_drop w3 f) g) ((r', Some (λ S, F S ∨ S = list_to_set s)) :: H)).
  { eapply zok_drop; [eapply zok_drop; [apply (fam_weaken _ _ _ _ (λ S, F S ∨ S = list_to_set s) Hk3)|]|].
    - intros S. by rewrite (left_id_L ∅ (∪)).
    - etrans; [apply Permutation_skip, Permutation_swap|apply Permutation_swap].
    - apply Permutation_swap. }
  destruct (IH _ _ _ _ Hk4) as (w' & r & E & Hk' & Hs'); [by eapply zsolo_same|].
  exists w', r. split; [done|]. split; [|done]. eapply fam_weaken; [done|]. intros S. setoid_rewrite elem_of_cons. split.
  - intros [[?| ->]|(s' & ? & ?)]; [by left|right; exists s; auto|right; exists s'; auto].
  - intros [?|(s' & [->|?] & ?)]; [by left; left|by left; right|right; by exists s'].
Qed.
Lemma y_from_sets_ok w H sets : zok w H → zsolo w →
  ∃ w' r, y_from_sets w sets = Some (w', r) ∧ zok w' ((r, Some (λ S, ∃ s, s ∈ sets ∧ S = list_to_set s)) :: H) ∧ zsolo w'.
Proof.
  intros Hk Hs. unfold y_from_sets. destruct (y_empty_ok w H Hk) as (w1 & e & -> & Hk1 & Hh1 & Hv1). cbn [mbind option_bind].
  destruct (from_sets_go_ok sets w1 H e _ Hk1) as (w' & r & E & Hk' & Hs'); [by eapply zsolo_same|].
  exists w', r. split; [done|]. split; [|done]. eapply fam_weaken; [done|]. naive_solver.
Qed.

End base.

Lemma znew_zok : @zok base0 y_new [] ∧ zsolo y_new.
Proof.
  split.
  - constructor; cbn [y_new y_zdd y_roots].
    + by exists [].
    + intros hd hd' H. by apply elem_of_nil in H.
    + by exists [].
    + intros f H. by apply elem_of_nil in H.
    + intros f F H. by apply elem_of_nil in H.
    + split; [done|]. intros a0 f H. by apply elem_of_nil in H.
  - constructor; cbn [y_new y_zdd y_vars].
    + done.
    + constructor.
    + intros x h. rewrite lookup_empty. done.
    + done.
Qed.
Lemma zdd_held_ok w H : zdd_held w H → @zok base0 w H ∧ zsolo w.
Proof.
  induction 1 as [|w H w' H' Hh [Hk Hs] Hst|w H x w' r Hh [Hk Hs] E|w H sets w' r Hh [Hk Hs] E].
  - apply znew_zok.
  - destruct (y_step_ok _ _ _ _ Hk Hst) as (Hk' & Hhd & Hv). split; [done|]. by eapply zsolo_same.
  - destruct (y_singleton_ok w H x Hk Hs) as (w1 & r1 & E1 & Hk' & Hs'). rewrite E1 in E. injection E as <- <-. done.
  - destruct (y_from_sets_ok w H sets Hk Hs) as (w1 & r1 & E1 & Hk' & Hs'). rewrite E1 in E. injection E as <- <-. done.
Qed.
