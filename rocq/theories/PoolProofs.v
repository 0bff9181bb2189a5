(** Families from several BDD managers in one forest keep their meaning; combining them does not work. *)
From stdpp Require Import strings.
From Verif Require Import Prelude ComputeCache ComputeCacheProofs Arena Trees ArenaProofs ArenaMore Bdd BddProofs SpecBdd SpecBss BddMain
  BssAlg BssGates BssReach BssMgr SpecBssMgr BssMgrProofs BssMgrMain
  Zdd ZddTrees ZddProofs SpecZdd ZddMain ZddAlg MinsolTrees MinsolProofs ZddConv SpecMinsol MinsolMain ZddMgr SpecZddMgr ZddMgrProofs BssJoint
  ZddDet TransS PoolConv SpecPool.

(** ** the names on the paths of one diagram *)
Definition lnamed (b : bdd) (hd : header) : Prop := h_label hd = lab b (h_level hd).
Lemma named_levels b m d id t S : repr (z_ar m) d id → hall (lnamed b) d →
  named_has m t id S ↔ ∃ A, zdd_has m t id A ∧ S = nl b A.
Proof.
  intros Hd Hh. split.
  - intros H. revert d Hd Hh. induction H as [id Hx|id h lo hi S Hx H IH|id h lo hi hd S Hx Hhd H IH]; intros d Hd Hh.
    + exists ∅. split; [by constructor|]. by unfold nl; rewrite set_map_empty.
    + destruct d as [t'|hd' ds]; [apply repr_leaf in Hd as [_ Hy]; congruence|].
      apply repr_br in Hd as [_ (h1 & cs & Hy & Hh1 & Hf)]. rewrite Hx in Hy. injection Hy as <- <-.
      inversion Hf as [|d0 ? ds0 ? H0 Hf0]; subst. inversion Hf0 as [|d1 ? ds1 ? H1 Hf1]; subst. inversion Hf1; subst.
      destruct Hh as (_ & P0 & _). destruct (IH _ H0 P0) as (A & HA & ->). exists A. split; [by eapply zh_low|done].
    + destruct d as [t'|hd' ds]; [apply repr_leaf in Hd as [_ Hy]; congruence|].
      apply repr_br in Hd as [_ (h1 & cs & Hy & Hh1 & Hf)]. rewrite Hx in Hy. injection Hy as <- <-. rewrite Hhd in Hh1. injection Hh1 as <-.
      inversion Hf as [|d0 ? ds0 ? H0 Hf0]; subst. inversion Hf0 as [|d1 ? ds1 ? H1 Hf1]; subst. inversion Hf1; subst.
      destruct Hh as (P & _ & P1 & _). destruct (IH _ H1 P1) as (A & HA & ->). exists ({[h_level hd]} ∪ A).
      split; [by eapply zh_high|]. unfold nl. by rewrite set_map_union_L, set_map_singleton_L, P.
  - intros (A & H & ->). revert d Hd Hh. induction H as [id Hx|id h lo hi S Hx H IH|id h lo hi hd S Hx Hhd H IH]; intros d Hd Hh.
    + replace (nl b ∅) with (∅ : gset string) by (symmetry; unfold nl; by rewrite set_map_empty). by constructor.
    + destruct d as [t'|hd' ds]; [apply repr_leaf in Hd as [_ Hy]; congruence|].
      apply repr_br in Hd as [_ (h1 & cs & Hy & Hh1 & Hf)]. rewrite Hx in Hy. injection Hy as <- <-.
      inversion Hf as [|d0 ? ds0 ? H0 Hf0]; subst. inversion Hf0 as [|d1 ? ds1 ? H1 Hf1]; subst. inversion Hf1; subst.
      destruct Hh as (_ & P0 & _). eapply nh_low; [done|by eapply IH].
    + destruct d as [t'|hd' ds]; [apply repr_leaf in Hd as [_ Hy]; congruence|].
      apply repr_br in Hd as [_ (h1 & cs & Hy & Hh1 & Hf)]. rewrite Hx in Hy. injection Hy as <- <-. rewrite Hhd in Hh1. injection Hh1 as <-.
      inversion Hf as [|d0 ? ds0 ? H0 Hf0]; subst. inversion Hf0 as [|d1 ? ds1 ? H1 Hf1]; subst. inversion Hf1; subst.
      destruct Hh as (P & _ & P1 & _). unfold nl. rewrite set_map_union_L, set_map_singleton_L. rewrite <- P. eapply nh_high; [done|done|by eapply IH].
Qed.
Lemma has_inn b m d id t A : repr (z_ar m) d id → hall (λ hd, h_level hd < length (bhd b)) d → zdd_has m t id A → inn b A.
Proof.
  intros Hd Hh H. revert d Hd Hh. induction H as [id Hx|id h lo hi S Hx H IH|id h lo hi hd S Hx Hhd H IH]; intros d Hd Hh.
  - intros i Hi. set_solver.
  - destruct d as [t'|hd' ds]; [apply repr_leaf in Hd as [_ Hy]; congruence|].
    apply repr_br in Hd as [_ (h1 & cs & Hy & Hh1 & Hf)]. rewrite Hx in Hy. injection Hy as <- <-.
    inversion Hf as [|d0 ? ds0 ? H0 Hf0]; subst. destruct Hh as (_ & P0 & _). by eapply IH.
  - destruct d as [t'|hd' ds]; [apply repr_leaf in Hd as [_ Hy]; congruence|].
    apply repr_br in Hd as [_ (h1 & cs & Hy & Hh1 & Hf)]. rewrite Hx in Hy. injection Hy as <- <-. rewrite Hhd in Hh1. injection Hh1 as <-.
    inversion Hf as [|d0 ? ds0 ? H0 Hf0]; subst. inversion Hf0 as [|d1 ? ds1 ? H1 Hf1]; subst. inversion Hf1; subst.
    destruct Hh as (P & _ & P1 & _). intros i [->%elem_of_singleton|Hi]%elem_of_union; [done|]. by eapply (IH _ H1 P1).
Qed.
Fixpoint hall_mono (P Q : header → Prop) (HPQ : ∀ hd, P hd → Q hd) (d : dd tv) {struct d} : hall P d → hall Q d.
Proof.
  destruct d as [t|hd ds]; [done|]. cbn [hall]. intros [HP Hds]. split; [by apply HPQ|].
  induction ds as [|d ds IH]; [done|]. destruct Hds as [H1 H2]. split; [by apply (hall_mono P Q HPQ)|by apply IH].
Qed.


(** every operation builds its result from headers of its operands *)
Section hall.
Context (P : header → Prop).
Definition oh (x : option (dd tv)) : Prop := ∀ r, x = Some r → hall P r.
Lemma oh_some d : hall P d → oh (Some d).
Proof. by intros H r [= <-]. Qed.
Lemma oh_bind x k : oh x → (∀ d, hall P d → oh (k d)) → oh (x ≫= k).
Proof. intros H1 H2 r. destruct x as [d|]; [|done]. cbn. apply H2. by apply H1. Qed.
Lemma hall_zn hd lo hi : P hd → hall P lo → hall P hi → hall P (zn hd lo hi).
Proof. intros H H0 H1. unfold zn. destruct hi as [[]|]; try done. Qed.
Lemma hall_ztree (R : zop → dd tv → dd tv → option (dd tv)) : (∀ o x y, hall P x → hall P y → oh (R o x y)) →
  ∀ o df dg, hall P df → hall P dg → oh (ztree R o df dg).
Proof.
  intros HR o df dg Hf Hg.
  destruct o; cbn [ztree]; try (destruct (deq df dg); [apply oh_some; try done; by destruct (deq _ _)|]).
  all: destruct df as [[]|hf [|f0 [|f1 [|]]]], dg as [[]|hg [|g0 [|g1 [|]]]]; try (by apply oh_some); try (by intros ?).
  all: unfold lvl3; try (destruct Hf as (Pf & F0 & F1 & _)); try (destruct Hg as (Pg & G0 & G1 & _)).
  all: repeat match goal with |- oh (if ?c then _ else _) => destruct c end.
  all: repeat first [ apply HR | apply oh_bind; [|intros ? ?] | apply oh_some | apply hall_zn | done | by cbn ].
Qed.
Lemma hall_zt o df dg dr : zt o df dg dr → hall P df → hall P dg → hall P dr.
Proof.
  intros [n Hn]. assert (HR : ∀ o x y, hall P x → hall P y → oh (ztf n o x y)).
  { clear. induction n as [|n IH]; intros o x y Hx Hy; [by intros ?|]. cbn [ztf]. by apply hall_ztree. }
  intros Hf Hg. by apply (HR o df dg Hf Hg).
Qed.
End hall.

(** ** the family a diagram spells with the names of manager [b] *)
Definition fden (b : bdd) (d : dd tv) (F : fam) : Prop := hall (named b) d ∧ zdet d ∧ ∀ S, F S ↔ ∃ A, zmem A d ∧ S = nl b A.
Definition lvok (b : bdd) : Prop := (∀ i hd, bhd b !! i = Some hd → h_level hd = i) ∧ NoDup (h_label <$> bhd b).
Lemma wok_lvok w H : @wok base0 w H → lvok (w_bdd w).
Proof. intros Hk. split; [apply (wk_lvl _ _ Hk)|apply (wk_nodup _ _ Hk)]. Qed.
Lemma named_l b : lvok b → ∀ hd, named b hd → lnamed b hd.
Proof. intros [Hl _] hd Hh. by apply named_lab. Qed.
Lemma mem_inn b m d id A : lvok b → zgood (z_ar m) → repr (z_ar m) d id → hall (named b) d → zmem A d → inn b A.
Proof.
  intros [Hl _] Hg Hr Hh HA%(mem_zmem _ _ _ _ Hg Hr). eapply has_inn; [exact Hr| |exact HA].
  eapply hall_mono; [|exact Hh]. intros hd Hx. by apply named_lab.
Qed.
Lemma fden_stands b m d id F : lvok b → zgood (z_ar m) → repr (z_ar m) d id → fden b d F → stands_for m id F.
Proof.
  intros Hb Hg Hr (Hh & Hd & HF). pose proof (hall_mono _ _ (named_l b Hb) _ Hh) as Hl. split; [exact (zvalid_of_repr _ _ _ Hr)|]. split.
  - intros S (A & HA & _)%(named_levels b _ _ _ _ _ Hr Hl). by eapply (det_zdet _ _ _ Hg Hr).
  - intros S. rewrite (named_levels b _ _ _ _ _ Hr Hl), HF. by setoid_rewrite (mem_zmem _ _ _ _ Hg Hr).
Qed.
Lemma fden_grow b b' m d id F : lvok b → bhd b `prefix_of` bhd b' → zgood (z_ar m) → repr (z_ar m) d id → fden b d F → fden b' d F.
Proof.
  intros Hb Hp Hg Hr (Hh & Hd & HF). split.
  { eapply hall_mono; [|exact Hh]. intros hd (i & h0 & Hi & ?). exists i, h0. split; [by eapply prefix_lookup|done]. }
  split; [done|]. intros S. rewrite HF. assert (He : ∀ A, zmem A d → nl b' A = nl b A).
  { intros A HA. pose proof (mem_inn b _ _ _ _ Hb Hg Hr Hh HA) as Hi. apply set_eq. intros x. unfold nl. rewrite !elem_of_map.
    assert (Hx : ∀ i, i ∈ A → lab b' i = lab b i).
    { intros i Hii%Hi. apply lookup_lt_is_Some in Hii as [h0 Hh0]. unfold lab. by rewrite (prefix_lookup _ _ _ _ Hh0 Hp), Hh0. }
    split; intros (i & -> & Hii); exists i; by rewrite Hx. }
  split; intros (A & HA & ->); exists A; by rewrite He.
Qed.
Lemma nl_inj b A B : lvok b → inn b A → inn b B → nl b A = nl b B → A = B.
Proof. intros [Hl Hn] HA HB He. rewrite <- (lv_nl b Hn A), <- (lv_nl b Hn B) by done. by rewrite He. Qed.
Lemma nl_union b A B : nl b (A ∪ B) = nl b A ∪ nl b B.
Proof. unfold nl. by rewrite set_map_union_L. Qed.

(** a set operation on two families of one manager *)
Lemma fden_op b o m f g df dg F G R : lvok b → zx m → repr (z_ar m) df f → repr (z_ar m) dg g → fden b df F → fden b dg G →
  zop_gives o (Some F) (Some G) (Some R) →
  ∃ m' r dr, zdd_op o m f g = Some (m', r) ∧ zx m' ∧ ext (z_ar m) (z_ar m') ∧ repr (z_ar m') dr r ∧ fden b dr R.
Proof.
  intros Hb Hx Hf Hg (Nf & Df & HF) (Ng & Dg & HG) Hgiv. pose proof (zw_good _ (proj1 Hx)) as Gm.
  destruct (zx_op o m f g df dg Hx Hf Hg) as (m' & r & dr & E & Hx' & He & _ & Hr & Ht). exists m', r, dr. split; [done|]. split; [done|]. split; [done|].
  split; [done|]. split; [by eapply hall_zt|]. pose proof (zw_good _ (proj1 Hx')) as Gm'.
  pose proof (zvalid_of_repr _ _ _ Hf) as Vf. pose proof (zvalid_of_repr _ _ _ Hg) as Vg.
  destruct (zalgebra_wf o m f g (proj1 Hx) Vf Vg) as (m1 & r1 & E1 & _ & Hsem). rewrite E in E1. injection E1 as <- <-.
  assert (JF : ∀ A, zmem A df → inn b A) by (intros A; exact (mem_inn b m df f A Hb Gm Hf Nf)). assert (JG : ∀ A, zmem A dg → inn b A) by (intros A; exact (mem_inn b m dg g A Hb Gm Hg Ng)).
  assert (Mf : ∀ A, zdd_mem m f A ↔ zmem A df) by (intros A; by apply mem_zmem). assert (Mg : ∀ A, zdd_mem m g A ↔ zmem A dg) by (intros A; by apply mem_zmem).
  assert (Mr : ∀ A, zmem A dr ↔ zdd_mem m' r A) by (intros A; symmetry; by apply mem_zmem).
  apply (det_zdet _ _ _ Gm Hf) in Df. apply (det_zdet _ _ _ Gm Hg) in Dg.
  inversion Hgiv as [F0 G0|F0 G0|F0 G0|F0 G0 Hap|F0 G0 Hone|]; subst; clear Hgiv.
  - destruct (Hsem ltac:(done) Df Dg) as [Dr Hm]. split; [by apply (det_zdet _ _ _ Gm' Hr)|]. intros S. setoid_rewrite Mr. setoid_rewrite Hm.
    setoid_rewrite Mf. setoid_rewrite Mg. rewrite HF, HG. naive_solver.
  - destruct (Hsem ltac:(done) Df Dg) as [Dr Hm]. split; [by apply (det_zdet _ _ _ Gm' Hr)|]. intros S. setoid_rewrite Mr. setoid_rewrite Hm.
    setoid_rewrite Mf. setoid_rewrite Mg. rewrite HF, HG. split.
    + intros [(A & HA & ->) Hno]. exists A. split; [|done]. split; [done|]. intros HA'. apply Hno. by exists A.
    + intros (A & [HA Hno] & ->). split; [by exists A|]. intros (A' & HA' & Hn). apply nl_inj in Hn; [by subst|done|by apply JF|by apply JG].
  - destruct (Hsem ltac:(done) Df Dg) as [Dr Hm]. split; [by apply (det_zdet _ _ _ Gm' Hr)|]. intros S. setoid_rewrite Mr. setoid_rewrite Hm.
    setoid_rewrite Mf. setoid_rewrite Mg. split.
    + intros (S1 & S2 & -> & (A & HA & ->)%HF & (A' & HA' & ->)%HG). exists (A ∪ A'). split; [by exists A, A'|by rewrite nl_union].
    + intros (A0 & (A & A' & -> & HA & HA') & ->). exists (nl b A), (nl b A'). rewrite nl_union, HF, HG. split; [done|]. split; [by exists A|by exists A'].
  - destruct (Hsem ltac:(done) Df Dg) as [Dr Hm]. split; [by apply (det_zdet _ _ _ Gm' Hr)|].
    assert (Hs : ∀ A, zmem A dr ↔ zmem A df ∧ zmem A dg).
    { intros A. rewrite Mr, Hm, settles_both, Mf, Mg; [done|]. intros A1 A2 H1%Mf H2%Mg Hs. apply (nl_inj b); [done|by apply JF|by apply JG|].
      apply Hap; [apply HF; by exists A1|apply HG; by exists A2|]. destruct Hs as [Hs|Hs]; [left|right]; by apply set_map_mono. }
    intros S. setoid_rewrite Hs. rewrite HF, HG. split.
    + intros [(A & HA & ->) (A' & HA' & Hn)]. apply nl_inj in Hn; [subst A'|done|by apply JF|by apply JG]. by exists A.
    + intros (A & [HA HA'] & ->). split; by exists A.
  - assert (g = zdd_one) as ->.
    { apply (unit_one m); try done; [apply Hx|]. intros A. rewrite Mg. split.
      - intros HA. assert (nl b A = ∅) as Hn by (apply Hone, HG; by exists A). apply set_eq; intros i; split; [intros Hi; exfalso; assert (lab b i ∈ (∅ : gset string)) by (rewrite <- Hn; by apply elem_of_map_2); set_solver|set_solver].
      - intros ->. assert (HG0 : G ∅) by (by apply Hone). apply HG in HG0 as (A & HA & Hn). assert (A = ∅) as ->; [|done].
        apply set_eq; intros i; split; [|set_solver]. intros Hi. exfalso. assert (lab b i ∈ (∅ : gset string)) by (rewrite Hn; by apply elem_of_map_2). set_solver. }
    destruct (zdivide_one m f (proj1 Hx) Vf) as (m2 & E2 & _). cbn [zdd_op] in E. rewrite E2 in E. injection E as -> <-.
    pose proof (repr_fun _ _ _ _ Hr (repr_mono _ _ _ _ He Hf)) as ->. split; [by apply (det_zdet _ _ _ Gm Hf)|done].
Qed.

Lemma minpath_deep b z f d : bwf b → bdd_levels_distinct b → zx z → repr (b_ar b) d f → noU d →
  ∃ b' z' x, minpath b z f = Some (b', z', x) ∧ step b b' ∧ zx z' ∧ ext (z_ar z) (z_ar z') ∧
    match x with
    | None => z' = z ∧ ¬ mono d
    | Some r => mono d ∧ ∃ dz, repr (z_ar z') dz r ∧ hall (named b) dz ∧ zdet dz ∧ ∀ S, zmem S dz ↔ minset d S
    end.
Proof.
  intros Hw Hl Hzx Hd Hn.
  unfold minpath. destruct (bdd_minsol_ok b f d Hw Hl Hd Hn) as (b' & x & -> & St & Hx). cbn [mbind option_bind].
  pose proof (cstep_wf _ _ St) as Hw'. destruct x as [r|]; cbn in Hx.
  - destruct Hx as (Hm & dr & Hr & Nr & Rr & Hz').
    destruct (to_zdd_named b' z r dr Hw' (proj1 Hzx) Hr) as (z' & r' & d' & Ez & Sz & Hr' & Ed & Hh).
    destruct (to_zdd_pair b' b' Hw' Hw' eq_refl dr r r z z Hr Hr Hzx Hzx eq_refl) as (z1 & r1 & z2 & r2 & d2 & E1 & _ & X1 & _).
    rewrite Ez in E1. injection E1 as <- <-. rewrite Ez. cbn [mbind option_bind].
    exists b', z', (Some r'). split; [done|]. split; [apply St|]. split; [done|]. split; [apply Sz|].
    split; [done|]. exists d'. split; [done|]. sp.
    + eapply hall_mono; [|exact Hh]. intros hd (s & hd0 & H0 & ?). exists s, hd0. by rewrite (proj2 (proj2 (proj1 St))) in H0.
    + intros S. rewrite Ed. apply noU_zdet; [|done]. eapply good_ok; [apply Hw'|done].
    + intros S. unfold zmem. rewrite Ed. apply Hz'.
  - exists b', z, None. split; [done|]. split; [apply St|]. split; [done|]. split; [apply ext_refl|done].
Qed.

(** ** the forest *)
Definition facts (P : pool) (m : zdd) (f : nat) (X : option (nat * fam)) : Prop :=
  ∃ d, repr (z_ar m) d f ∧ ∀ i F, X = Some (i, F) → ∃ w HB, P !! i = Some (w, HB) ∧ fden (w_bdd w) d F.
Record fok (P : pool) (w : zmgr) (H : tholds) : Prop := {
  fk_zx : zx (y_zdd w);
  fk_roots : ∃ l, y_roots w = roots_of l ∧ l ≡ₚ H.*1;
  fk_held : ∀ f X, (f, X) ∈ H → facts P (y_zdd w) f X;
}.
Definition pok (P : pool) : Prop := ∀ i w HB, P !! i = Some (w, HB) → @wok base0 w HB.
Lemma facts_ext P m m' f X : ext (z_ar m) (z_ar m') → facts P m f X → facts P m' f X.
Proof. intros He (d & Hr & Hx). exists d. split; [by eapply repr_mono|done]. Qed.
Lemma fok_pin P w H f X : fok P w H → facts P (y_zdd w) f X → fok P (y_pin w f) ((f, X) :: H).
Proof.
  intros [H1 [l [Hr Hp]] H5] HX. constructor; cbn [y_pin y_zdd y_roots]; try done.
  - exists (f :: l). split; [by rewrite Hr|]. cbn. by rewrite Hp.
  - intros g G [Hg|Hg]%elem_of_cons; [|by apply H5]. by injection Hg as -> ->.
Qed.
Lemma fok_drop P w H f X H' : fok P w H → H ≡ₚ (f, X) :: H' → fok P (y_drop w f) H'.
Proof.
  intros [H1 [l [Hr Hp]] H5] He. constructor; cbn [y_drop y_zdd y_roots]; try done.
  - exists (H'.*1). split; [|done]. rewrite Hr, (roots_perm l (f :: H'.*1)); [apply unpin_pin|]. rewrite Hp, He. done.
  - intros g G Hg. apply H5. rewrite He. by right.
Qed.
Lemma fok_params P w H t f vs : fok P w H → fok P (ZMgr (y_zdd w) (y_roots w) t f vs) H.
Proof. by intros []. Qed.
Lemma fok_ext P w H z : fok P w H → zx z → ext (z_ar (y_zdd w)) (z_ar z) → fok P (with_zdd w z) H.
Proof.
  intros [H1 H3 H5] Hw He. constructor; cbn [with_zdd y_zdd y_roots]; try done.
  intros f X Hf. exact (facts_ext _ _ _ _ _ He (H5 _ _ Hf)).
Qed.
Lemma fok_gc P w H : fok P w H → ∃ z n, zdd_gc (y_zdd w) (root_keys (y_roots w)) = Some (z, n) ∧ fok P (with_zdd w z) H.
Proof.
  intros [H1 [l [Hr Hp]] H5].
  assert (Hin : ∀ f, f ∈ root_keys (y_roots w) ↔ f ∈ H.*1) by (intros f; by rewrite Hr, root_keys_elem, Hp).
  destruct (zx_gc (y_zdd w) (root_keys (y_roots w)) H1) as (z & n & Heq & Hx & _ & Hk).
  { intros f ([f' X] & -> & Hf)%Hin%elem_of_list_fmap. destruct (H5 _ _ Hf) as (d & Hd & _). exact (repr_live _ _ _ Hd). }
  exists z, n. split; [done|]. constructor; cbn [with_zdd y_zdd y_roots]; try done.
  - by exists l.
  - intros f X Hf. destruct (H5 _ _ Hf) as (d & Hd & HX). exists d. split; [|done]. apply Hk; [|done]. apply Hin, elem_of_list_fmap. by exists (f, X).
Qed.
Lemma fok_wrap P w H f X : fok P w H → facts P (y_zdd w) f X → ∃ w', y_wrap w f = Some (w', f) ∧ fok P w' ((f, X) :: H).
Proof.
  intros Hk Hd. pose proof (fok_pin _ _ _ _ _ Hk Hd) as Hp. unfold y_wrap, y_maybe_gc. destruct (_ <? _); [by eexists|].
  destruct (fok_gc _ _ _ Hp) as (z & n & -> & Hk'). cbn [mbind option_bind]. eexists. split; [done|]. apply (fok_params _ _ _ _ _ _ Hk').
Qed.
Lemma fok_mixed o P w H f X g Y : fok P w H → (f, X) ∈ H → (g, Y) ∈ H → ∃ w' r, y_op o w f g = Some (w', r) ∧ fok P w' ((r, None) :: H).
Proof.
  intros Hk Hf Hg. destruct (fk_held _ _ _ Hk _ _ Hf) as (df & Rf & _). destruct (fk_held _ _ _ Hk _ _ Hg) as (dg & Rg & _).
  destruct (zx_op o (y_zdd w) f g df dg (fk_zx _ _ _ Hk) Rf Rg) as (m' & r & dr & Heq & Hx & He & _ & Hr & _).
  assert (y_op o w f g = y_wrapped w (zdd_op o (y_zdd w) f g)) as -> by (by destruct o). rewrite Heq. unfold y_wrapped. cbn [mbind option_bind].
  destruct (fok_wrap P (with_zdd w m') H r None) as (w' & -> & Hk').
  - by apply fok_ext.
  - exists dr. split; [done|]. by intros ? ?.
  - by exists w', r.
Qed.
Lemma fok_same o P w H i f F g G R : pok P → fok P w H → (f, Some (i, F)) ∈ H → (g, Some (i, G)) ∈ H → zop_gives o (Some F) (Some G) (Some R) →
  ∃ w' r, y_op o w f g = Some (w', r) ∧ fok P w' ((r, Some (i, R)) :: H).
Proof.
  intros HP Hk Hf Hg Hgiv. destruct (fk_held _ _ _ Hk _ _ Hf) as (df & Rf & Xf). destruct (fk_held _ _ _ Hk _ _ Hg) as (dg & Rg & Xg).
  destruct (Xf _ _ eq_refl) as (v & HB & Hi & Ff). destruct (Xg _ _ eq_refl) as (v' & HB' & Hi' & Fg). rewrite Hi in Hi'. injection Hi' as <- <-.
  destruct (fden_op (w_bdd v) o (y_zdd w) f g df dg F G R (wok_lvok _ _ (HP _ _ _ Hi)) (fk_zx _ _ _ Hk) Rf Rg Ff Fg Hgiv) as (m' & r & dr & Heq & Hx & He & Hr & Fr).
  assert (y_op o w f g = y_wrapped w (zdd_op o (y_zdd w) f g)) as -> by (by destruct o). rewrite Heq. unfold y_wrapped. cbn [mbind option_bind].
  destruct (fok_wrap P (with_zdd w m') H r (Some (i, R))) as (w' & -> & Hk').
  - by apply fok_ext.
  - exists dr. split; [done|]. intros i' R' [= <- <-]. by exists v, HB.
  - by exists w', r.
Qed.
Lemma fok_leaf P w H i t id F : pok P → i < length P → fok P w H → repr (z_ar (y_zdd w)) (Leaf t) id → t ≠ TUndet → (∀ S, F S ↔ t = TOne ∧ S = ∅) →
  ∃ w', y_wrap w id = Some (w', id) ∧ fok P w' ((id, Some (i, F)) :: H).
Proof.
  intros HP [[v HB] Hi]%lookup_lt_is_Some Hk Hr Ht HF. apply fok_wrap; [done|]. exists (Leaf t). split; [done|]. intros i' F' [= <- <-]. exists v, HB. split; [done|].
  split; [done|]. split; [intros S; cbn; by destruct (decide _)|]. intros S. rewrite HF. unfold zmem. cbn. split.
  - intros [-> ->]. exists ∅. rewrite decide_True by done. split; [done|]. by unfold nl; rewrite set_map_empty.
  - intros (A & HA & ->). destruct (decide _) as [->|]; [|done]. split; [done|]. by unfold nl; rewrite set_map_empty.
Qed.
Lemma fok_tidy P w H w' H' : pok P → fok P w H → tidy (length P) w H w' H' → fok P w' H'.
Proof.
  intros HP Hk Ht. revert Hk. destruct Ht as [i w1 H1 w2 r Hi E|i w1 H1 w2 r Hi E|o i w1 H1 f F g G R w2 r Hf Hg Hgiv E|o w1 H1 f F g G w2 r Hf Hg E|w1 H1 f F Hf|w1 H1 f F H2 E|w1 H1 t|w1 H1]; intros Hk.
  - destruct (fok_leaf P w1 H1 i TZero zdd_zero (λ _, False) HP Hi Hk) as (w3 & E3 & Hk3); [apply (zw_good _ (proj1 (fk_zx _ _ _ Hk)))|done|intros S; naive_solver|].
    unfold y_empty in E. rewrite E3 in E. by injection E as <- <-.
  - destruct (fok_leaf P w1 H1 i TOne zdd_one (λ S, S = ∅) HP Hi Hk) as (w3 & E3 & Hk3); [apply (zw_good _ (proj1 (fk_zx _ _ _ Hk)))|done|intros S; naive_solver|].
    unfold y_base in E. rewrite E3 in E. by injection E as <- <-.
  - destruct (fok_same o P _ _ _ _ _ _ _ _ HP Hk Hf Hg Hgiv) as (w3 & r3 & E3 & Hk3). rewrite E3 in E. by injection E as <- <-.
  - destruct (fok_mixed o P _ _ _ _ _ _ Hk Hf Hg) as (w3 & r3 & E3 & Hk3). rewrite E3 in E. by injection E as <- <-.
  - apply fok_pin; [done|]. by apply (fk_held _ _ _ Hk).
  - by eapply fok_drop.
  - by apply fok_params.
  - apply fok_ext; [done|by apply zx_clear, Hk|]. apply ext_refl.
Qed.
(** a manager of the pool moves on *)
Lemma fok_grow P i w HB w' HB' y HZ : pok P → P !! i = Some (w, HB) → bhd (w_bdd w) `prefix_of` bhd (w_bdd w') → fok P y HZ → fok (<[i := (w', HB')]> P) y HZ.
Proof.
  intros HP Hi Hp [H1 H2 H3]. constructor; try done. intros f X Hf. destruct (H3 _ _ Hf) as (d & Hr & HX). exists d. split; [done|].
  intros j F ->. destruct (HX _ _ eq_refl) as (v & HV & Hj & HF). destruct (decide (j = i)) as [->|Hne].
  - rewrite Hi in Hj. injection Hj as <- <-. exists w', HB'. split; [by apply list_lookup_insert; eapply lookup_lt_Some|].
    eapply fden_grow; [by eapply wok_lvok, HP|exact Hp|apply (zw_good _ (proj1 H1))|exact Hr|done].
  - exists v, HV. split; [etrans; [by apply list_lookup_insert_ne|done]|done].
Qed.

Local Notation ok := (@wok base0).
(** ** one call *)
Lemma f_minpath P i w HB y HZ f F : pok P → fok P y HZ → P !! i = Some (w, HB) → (f, F) ∈ HB →
  ∃ s r, s_minpath (BssM w y) f = Some (s, r) ∧ (r = None ↔ ¬ increasing F) ∧ ok (s_bdd s) HB ∧ bhd (w_bdd w) = bhd (w_bdd (s_bdd s)) ∧
    fok P (s_zdd s) (match r with Some z => (z, Some (i, min_paths F)) :: HZ | None => HZ end).
Proof.
  intros HP Hz Hi Hf. pose proof (HP _ _ _ Hi) as Hb. pose proof (wk_wf _ _ Hb) as Hw. pose proof (bw_good _ Hw) as Hg. pose proof (fk_zx _ _ _ Hz) as Hzx.
  pose proof (wk_held _ _ Hb _ _ Hf) as HF. set (b := w_bdd w) in *.
  pose proof (wk_lvl _ _ Hb) as Hlv. pose proof (wk_nodup _ _ Hb) as Hnd. fold b in Hlv, Hnd.
  destruct (valid_repr _ _ Hw (proj1 HF)) as [d Hd].
  assert (Hdet : bdd_determined b f).
  { intros rho Hv. assert (bdd_value b (rho_of b (back b rho)) f TUndet) as Hv'.
    { eapply (value_agree b Hlv); [|exact Hv]. intros l Hl. symmetry. by apply back_spec. }
    pose proof (value_fun _ _ _ _ _ Hv' (den_value b Hlv f F HF (back b rho))) as He. by destruct (F _). }
  pose proof (ok_distinct _ _ Hb) as Hld.
  destruct (minpath_deep b (y_zdd y) f d Hw Hld Hzx Hd) as (b' & z' & x & Heq & Hst & Hx' & He & Hx); [by eapply determined_noU|].
  unfold s_minpath. cbn [s_bdd s_zdd]. fold b. rewrite Heq. cbn [mbind option_bind].
  pose proof (wok_step _ _ _ Hb Hst) as Hb'.
  assert (Hinc : increasing F ↔ mono d) by (by rewrite (increasing_mono b Hlv Hnd f F HF), (monotone_mono _ _ _ Hg Hd)).
  assert (Hhd : bhd b = bhd b') by (symmetry; apply Hst).
  destruct x as [r|].
  - destruct Hx as (Hm & dz & Rz & Nz & Dz & HS).
    destruct (fok_wrap P (with_zdd y z') HZ r (Some (i, min_paths F)) (fok_ext _ _ _ _ Hz Hx' He)) as (y' & E & Hk').
    { exists dz. split; [done|]. intros j F' [= <- <-]. exists w, HB. split; [done|]. split; [done|]. split; [done|]. intros S. split.
      - intros Hp. pose proof (min_paths_over b Hlv Hnd f F HF S Hp) as Heq'. exists (lv b S). split; [|done].
        apply HS. apply (min_path_minset _ _ _ _ Hg Hd). apply (min_paths_nl b Hlv Hnd f F HF); [apply lv_inn|]. by rewrite Heq'.
      - intros (A & HA & ->). pose proof (mem_inn b _ _ _ _ (conj Hlv Hnd) (zw_good _ (proj1 Hx')) Rz Nz HA) as HiA.
        apply (min_paths_nl b Hlv Hnd f F HF); [done|]. apply HS in HA. by apply (min_path_minset _ _ _ _ Hg Hd). }
    rewrite E. cbn [mbind option_bind]. eexists _, _. split; [done|]. split; [rewrite Hinc; split; [done|intros H; by destruct (H Hm)]|]. done.
  - destruct Hx as [_ Hm]. eexists _, _. split; [done|]. split; [by rewrite Hinc|]. done.
Qed.
Lemma fam_weaken_f P y HZ z i F G : fok P y ((z, Some (i, F)) :: HZ) → (∀ S, F S ↔ G S) → fok P y ((z, Some (i, G)) :: HZ).
Proof.
  intros [H1 H3 H5] He. constructor; try done. intros f X [Hf|Hf]%elem_of_cons; [|apply H5; by right].
  injection Hf as -> ->. destruct (H5 z _ ltac:(by left)) as (d & Hr & HX). exists d. split; [done|]. intros j G' [= <- <-].
  destruct (HX _ _ eq_refl) as (w & HB & Hi & A & B & C). exists w, HB. split; [done|]. split; [done|]. split; [done|]. intros S. by rewrite <- He.
Qed.
Lemma pok_insert P i w HB : pok P → ok w HB → pok (<[i := (w, HB)]> P).
Proof. intros HP Hw j w' HB'. intros [(_ & [= <- <-] & _)|[_ H]]%list_lookup_insert_Some; [done|by eapply HP]. Qed.
Lemma f_mincut P i w HB y HZ f F : pok P → fok P y HZ → P !! i = Some (w, HB) → (f, F) ∈ HB →
  ∃ s r, s_mincut (BssM w y) f = Some (s, r) ∧ (r = None ↔ ¬ increasing F) ∧ ok (s_bdd s) HB ∧
    fok (<[i := (s_bdd s, HB)]> P) (s_zdd s) (match r with Some z => (z, Some (i, min_cuts F)) :: HZ | None => HZ end).
Proof.
  intros HP Hz Hi Hf. pose proof (HP _ _ _ Hi) as Hb. unfold s_mincut. cbn [s_bdd s_zdd]. destruct (w_dual_ok _ _ Hb f F Hf) as (w1 & g & E & _).
  rewrite E. cbn [mbind option_bind]. pose proof (st_dual _ _ _ _ _ _ Hf E) as St1. pose proof (step_wok _ _ _ _ Hb St1) as Hb1.
  pose proof (lookup_lt_Some _ _ _ Hi) as Hlt.
  pose proof (fok_grow _ _ _ _ w1 ((g, dualf F) :: HB) _ _ HP Hi (step_headers _ _ _ _ Hb St1) Hz) as Hz1.
  assert (Hi1 : <[i := (w1, (g, dualf F) :: HB)]> P !! i = Some (w1, (g, dualf F) :: HB)) by (by apply list_lookup_insert).
  destruct (f_minpath _ i w1 _ y HZ g (dualf F) (pok_insert P i _ _ HP Hb1) Hz1 Hi1) as (s & r & E' & Hr & Hb2 & Hh2 & Hz2); [by left|].
  rewrite E'. cbn [mbind option_bind]. eexists _, _. split; [done|].
  pose proof (wk_held _ _ Hb _ _ Hf) as HF. pose proof (wk_lvl _ _ Hb) as Hlv.
  split; [by rewrite Hr, (dual_increasing _ _ _ Hlv HF)|]. cbn [s_bdd s_zdd].
  split; [exact (step_wok _ _ _ _ Hb2 (st_drop _ _ _ _ _ (Permutation_refl _)))|].
  pose proof (fok_grow _ i _ _ (w_drop (s_bdd s) g) HB _ _ (pok_insert P i _ _ HP Hb1) Hi1 ltac:(cbn; by rewrite Hh2) Hz2) as Hz3.
  pose proof (list_insert_insert P i (w_drop (s_bdd s) g, HB) (w1, (g, dualf F) :: HB)) as Hii. pose proof (eq_rect _ (λ Q, fok Q _ _) Hz3 _ Hii) as Hz4. clear Hz3.
  destruct r as [z|]; [|done]. eapply fam_weaken_f; [exact Hz4|]. by apply (dual_cuts _ _ _ Hlv HF).
Qed.

(** ** the pool *)
Lemma pool_ok P y HZ : pool_held P y HZ → pok P ∧ fok P y HZ.
Proof.
  induction 1 as [n|P i w HB w' HB' y HZ _ [IB IZ] Hi Hs|P y HZ y' HZ' _ [IB IZ] Ht|P i w HB y HZ f F s r _ [IB IZ] Hi Hf E|P i w HB y HZ f F s r _ [IB IZ] Hi Hf E].
  - split.
    + intros i w HB [H _]%lookup_replicate. injection H as -> ->. apply new_wok.
    + constructor; [apply zx_new|exists []; done|intros f F Hf; by apply elem_of_nil in Hf].
  - pose proof (IB _ _ _ Hi) as Hb. split; [apply pok_insert; [done|by eapply step_wok]|]. eapply fok_grow; [done|done|by eapply step_headers|done].
  - split; [done|]. by eapply fok_tidy.
  - destruct (f_minpath P i w HB y HZ f F IB IZ Hi Hf) as (s1 & r1 & E1 & _ & Hb & Hh & Hz). rewrite E1 in E. injection E as <- <-.
    split; [by apply pok_insert|]. eapply fok_grow; [done|done|by rewrite Hh|done].
  - destruct (f_mincut P i w HB y HZ f F IB IZ Hi Hf) as (s1 & r1 & E1 & _ & Hb & Hz). rewrite E1 in E. injection E as <- <-.
    split; [by apply pok_insert|done].
Qed.
Lemma fok_stands P y HZ z i F : pok P → fok P y HZ → (z, Some (i, F)) ∈ HZ → stands_for (y_zdd y) z F.
Proof.
  intros HP HZk Hz. destruct (fk_held _ _ _ HZk _ _ Hz) as (d & Hr & HX). destruct (HX _ _ eq_refl) as (w & HB & Hi & HF).
  eapply fden_stands; [by eapply wok_lvok, HP|apply (zw_good _ (proj1 (fk_zx _ _ _ HZk)))|exact Hr|exact HF].
Qed.
Lemma pool_handles P y HZ : pool_held P y HZ →
  (∀ i w HB f F, P !! i = Some (w, HB) → (f, F) ∈ HB → bdd_valid (w_bdd w) f ∧ ∀ e, bss_value (w_bdd w) e f (tvb (F e))) ∧
  (∀ z i F, (z, Some (i, F)) ∈ HZ → stands_for (y_zdd y) z F).
Proof.
  intros [IB IZ]%pool_ok. split; [|intros z i F; exact (fok_stands P y HZ z i F IB IZ)]. intros i w HB f F Hi Hf. exact (wk_held _ _ (IB _ _ _ Hi) f F Hf).
Qed.
Lemma pool_minpath P y HZ i w HB f F : pool_held P y HZ → P !! i = Some (w, HB) → (f, F) ∈ HB →
  ∃ s r, s_minpath (BssM w y) f = Some (s, r) ∧ (r = None ↔ ¬ increasing F) ∧
    ∀ z, r = Some z → stands_for (y_zdd (s_zdd s)) z (min_paths F).
Proof.
  intros [IB IZ]%pool_ok Hi Hf. destruct (f_minpath P i w HB y HZ f F IB IZ Hi Hf) as (s & r & E & Hr & _ & _ & Hz).
  exists s, r. split; [done|]. split; [done|]. intros z ->. eapply fok_stands; [exact IB|exact Hz|left].
Qed.
Lemma pool_mincut P y HZ i w HB f F : pool_held P y HZ → P !! i = Some (w, HB) → (f, F) ∈ HB →
  ∃ s r, s_mincut (BssM w y) f = Some (s, r) ∧ (r = None ↔ ¬ increasing F) ∧
    ∀ z, r = Some z → stands_for (y_zdd (s_zdd s)) z (min_cuts F).
Proof.
  intros [IB IZ]%pool_ok Hi Hf. destruct (f_mincut P i w HB y HZ f F IB IZ Hi Hf) as (s & r & E & Hr & Hb & Hz).
  exists s, r. split; [done|]. split; [done|]. intros z ->. eapply fok_stands; [by apply pok_insert|exact Hz|left].
Qed.
Lemma pool_same o P y HZ i f F g G R : pool_held P y HZ → (f, Some (i, F)) ∈ HZ → (g, Some (i, G)) ∈ HZ → zop_gives o (Some F) (Some G) (Some R) →
  ∃ y' r, y_op o y f g = Some (y', r) ∧ stands_for (y_zdd y') r R.
Proof.
  intros [IB IZ]%pool_ok Hf Hg Hgiv. destruct (fok_same o _ _ _ _ _ _ _ _ _ IB IZ Hf Hg Hgiv) as (y' & r & E & Hk). exists y', r. split; [done|].
  eapply fok_stands; [exact IB|exact Hk|left].
Qed.
Lemma pool_op o P y HZ f X g Y : pool_held P y HZ → (f, X) ∈ HZ → (g, Y) ∈ HZ → ∃ y' r, y_op o y f g = Some (y', r) ∧
  zdd_valid (y_zdd y') r ∧ ∀ z i F, (z, Some (i, F)) ∈ HZ → stands_for (y_zdd y') z F.
Proof.
  intros [IB IZ]%pool_ok Hf Hg. destruct (fok_mixed o _ _ _ _ _ _ _ IZ Hf Hg) as (y' & r & E & Hk). exists y', r. split; [done|].
  split; [destruct (fk_held _ _ _ Hk r None ltac:(left)) as (d & Hr & _); exact (zvalid_of_repr _ _ _ Hr)|].
  intros z i F Hz. eapply fok_stands; [exact IB|exact Hk|by right].
Qed.

(** the union of [{{"a"}}] and [{{"b"}}] from two managers is [{{"a"}}] *)
Lemma pool_union_wrong : ∃ P y HZ z1 z2 i1 i2 F1 F2 y' r, pool_held P y HZ ∧ (z1, Some (i1, F1)) ∈ HZ ∧ (z2, Some (i2, F2)) ∈ HZ ∧
  y_op ZUnion y z1 z2 = Some (y', r) ∧ ¬ stands_for (y_zdd y') r (λ S, F1 S ∨ F2 S).
Proof.
  destruct (w_defvar w_new "a") as [wa fa] eqn:Ea. destruct (w_defvar w_new "b") as [wb fb] eqn:Eb.
  pose proof (ph_new 2) as H0. cbn [replicate] in H0.
  pose proof (ph_bdd _ 0 _ _ _ _ _ _ H0 eq_refl (st_defvar _ _ _ _ _ Ea)) as H1. cbn in H1.
  pose proof (ph_bdd _ 1 _ _ _ _ _ _ H1 eq_refl (st_defvar _ _ _ _ _ Eb)) as H2. cbn in H2. clear H0 H1.
  assert (Hr : (let '(wa, fa) := w_defvar w_new "a" in let '(wb, fb) := w_defvar w_new "b" in
    '(s, r1) ← s_minpath (BssM wa y_new) fa; '(s, r2) ← s_minpath (BssM wb (s_zdd s)) fb;
    z1 ← r1; z2 ← r2; '(y, r) ← y_op ZUnion (s_zdd s) z1 z2; Some (z1, z2, r)) = Some (3, 4, 3)) by (vm_compute; reflexivity).
  rewrite Ea, Eb in Hr.
  destruct (s_minpath (BssM wa y_new) fa) as [[s1 r1]|] eqn:E1; [|done]. cbn [mbind option_bind] in Hr.
  destruct (s_minpath (BssM wb (s_zdd s1)) fb) as [[s2 r2]|] eqn:E2; [|done]. cbn [mbind option_bind] in Hr.
  destruct r1 as [z1|]; [|done]. destruct r2 as [z2|]; [|done]. cbn [mbind option_bind] in Hr.
  destruct (y_op ZUnion (s_zdd s2) z1 z2) as [[y' r]|] eqn:E3; [|done]. cbn [mbind option_bind] in Hr. injection Hr as -> -> ->.
  pose proof (ph_minpath _ 0 _ _ _ _ _ _ _ _ H2 eq_refl ltac:(by left) E1) as H3. cbn in H3.
  pose proof (ph_minpath _ 1 _ _ _ _ _ _ _ _ H3 eq_refl ltac:(by left) E2) as H4. cbn in H4. clear H2 H3.
  eexists _, _, _, 3, 4, 0, 1, _, _, y', 3. split; [exact H4|]. split; [right; left|]. split; [left|]. split; [exact E3|].
  intros (_ & _ & Hs). pose proof (ph_tidy _ _ _ _ _ H4 (td_mixed _ ZUnion _ _ _ _ _ _ _ _ ltac:(right; left) ltac:(left) E3)) as H5.
  pose proof (proj2 (pool_handles _ _ _ H5)) as Hk.
  assert (Hst : stands_for (y_zdd y') 3 (min_paths (λ e : env, e "a"%string))) by (apply (Hk 3 0); right; right; left).
  destruct Hst as (_ & _ & Hst).
  assert (Hab : min_paths (λ e : env, e "a"%string) {["b"]}%string).
  { apply Hst, Hs. right. split; [by apply bool_decide_true, elem_of_singleton|]. intros S' HS'. apply bool_decide_false. set_solver. }
  destruct Hab as [Hab _]. by apply bool_decide_eq_true, elem_of_singleton in Hab.
Qed.
