(** Results depend on the operands' functions only. *)
From Verif Require Import Prelude ComputeCache ComputeCacheProofs Arena Trees StripTrees ArenaProofs Bdd BddProofs SpecBdd BddMain BddExact SpecExact.

(** ** The relation is a function, and does not look at the identity of variables *)
Lemma topof_level hd hd' ds : topof hd ds → topof hd' ds → h_level hd = h_level hd'.
Proof.
  intros [[cs H1] H2] [[cs' H1'] H2']. rewrite Forall_forall in H2, H2'.
  pose proof (H2 _ H1') as A. pose proof (H2' _ H1) as B. cbn [rank] in A, B. lia.
Qed.
Lemma topof_hd H hd ds : topof hd ds → Forall (hdby H) ds → hd = H (h_level hd).
Proof. intros [[cs H1] _] Hf. rewrite Forall_forall in Hf. by apply Hf, hdby_br in H1 as [? _]. Qed.
Lemma mk2_det hd a b r r' : mk2 hd a b r → mk2 hd a b r' → r = r'.
Proof. unfold mk2. intuition congruence. Qed.
Lemma mk2_hdby H hd a b r : hd = H (h_level hd) → hdby H a → hdby H b → mk2 hd a b r → hdby H r.
Proof. intros Hh Ha Hb [[_ ->]|[_ ->]]; [done|]. apply hdby_br. split; [done|]. by repeat constructor. Qed.
Lemma mk2_strip H hd a b r : hdby H a → hdby H b → mk2 hd a b r → mk2 (bare E2 (h_level hd)) (strip E2 a) (strip E2 b) (strip E2 r).
Proof.
  intros Ha Hb [[-> ->]|[Hne ->]]; [by left|right]. split; [|done]. intros Heq. apply Hne. by eapply strip_inj.
Qed.
Lemma isbr_strip d : isbr d → isbr (strip E2 d).
Proof. by destruct d. Qed.
Lemma topof_strip hd ds : topof hd ds → topof (bare E2 (h_level hd)) (strip E2 <$> ds).
Proof.
  intros [[cs Hin] Hall]. split.
  - exists (map (strip E2) cs). change (Br _ _) with (strip E2 (Br hd cs)). by apply elem_of_list_fmap_1.
  - rewrite Forall_fmap. eapply Forall_impl; [exact Hall|]. intros d Hd. cbn. by rewrite strip_rank.
Qed.

Lemma arm2_hdby H o df dg dr : hdby H df → hdby H dg → arm2 o df dg = Some dr → hdby H dr.
Proof. intros Hf Hg. destruct o, df as [[]|], dg as [[]|]; cbn [arm2]; try done; by intros [= <-]. Qed.
Lemma same2_hdby H o d dr : hdby H d → same2 o d = Some dr → hdby H dr.
Proof. intros Hd. destruct o, d as [[]|]; cbn [same2]; try done; by intros [= <-]. Qed.

Lemma X_hdby H o df dg dr : X o df dg dr → hdby H df → hdby H dg → hdby H dr.
Proof.
  induction 1 as [o d dr Hs|o df dg dr Hn Hd Ha|dg dr Hb HX IH|df dr Hb HX IH|o df dg hd dlo dhi dr Hb Hc Ht H0 IH0 H1 IH1 Hm]; intros Hf Hg.
  - by eapply same2_hdby.
  - by eapply (arm2_hdby _ o df dg).
  - by apply IH.
  - by apply IH.
  - eapply mk2_hdby; [|apply IH0; by apply hdby_cof|apply IH1; by apply hdby_cof|done].
    eapply topof_hd; [done|]. by repeat constructor.
Qed.
Lemma X3_hdby H df dg dh dr : X3 df dg dh dr → hdby H df → hdby H dg → hdby H dh → hdby H dr.
Proof.
  induction 1 as [| | | |df dg dh hd dlo dhi dr Hb Hc Ht H0 IH0 H1 IH1 Hm]; intros Hf Hg Hh; try done.
  eapply mk2_hdby; [|apply IH0; by apply hdby_cof|apply IH1; by apply hdby_cof|done].
  eapply topof_hd; [done|]. by repeat constructor.
Qed.

Lemma X_strip H o df dg dr : X o df dg dr → hdby H df → hdby H dg → X o (strip E2 df) (strip E2 dg) (strip E2 dr).
Proof.
  induction 1 as [o d dr Hs|o df dg dr Hn Hd Ha|dg dr Hb HX IH|df dr Hb HX IH|o df dg hd dlo dhi dr Hb Hc Ht H0 IH0 H1 IH1 Hm]; intros Hf Hg.
  - apply X_same. destruct o, d as [[]|]; cbn [same2] in *; try done; by injection Hs as <-.
  - apply X_arm.
    + intros Ho. by rewrite (Hn Ho).
    + intros Ho Heq. apply (Hd Ho). by eapply strip_inj.
    + destruct o, df as [[]|], dg as [[]|]; cbn [arm2] in *; try done; by injection Ha as <-.
  - apply X_one_l; [by apply isbr_strip|]. by apply IH.
  - apply X_one_r; [by apply isbr_strip|]. by apply IH.
  - eapply (X_br o _ _ (bare E2 (h_level hd)) (strip E2 dlo) (strip E2 dhi)).
    + by apply isbr_strip.
    + destruct (decide (o = OpNot)); [by subst|]. destruct Hc as [Hb' Hne]. split; [by apply isbr_strip|].
      intros Heq. apply Hne. by eapply strip_inj.
    + exact (topof_strip hd [df; dg] Ht).
    + cbn [bare h_level]. rewrite !strip_cof. apply IH0; by apply hdby_cof.
    + cbn [bare h_level]. rewrite !strip_cof. apply IH1; by apply hdby_cof.
    + eapply mk2_strip; [| |exact Hm]; (eapply X_hdby; [eassumption|by apply hdby_cof..]).
Qed.
Lemma X3_strip H df dg dh dr : X3 df dg dh dr → hdby H df → hdby H dg → hdby H dh →
  X3 (strip E2 df) (strip E2 dg) (strip E2 dh) (strip E2 dr).
Proof.
  induction 1 as [| | |df d Hb|df dg dh hd dlo dhi dr Hb Hc Ht H0 IH0 H1 IH1 Hm]; intros Hf Hg Hh.
  - apply X3_one.
  - apply X3_zero.
  - apply X3_undet.
  - apply X3_same. by apply isbr_strip.
  - eapply (X3_br _ _ _ (bare E2 (h_level hd)) (strip E2 dlo) (strip E2 dhi)).
    + by apply isbr_strip.
    + intros Heq. apply Hc. by eapply strip_inj.
    + exact (topof_strip hd [df; dg; dh] Ht).
    + cbn [bare h_level]. rewrite !strip_cof. apply IH0; by apply hdby_cof.
    + cbn [bare h_level]. rewrite !strip_cof. apply IH1; by apply hdby_cof.
    + eapply mk2_strip; [| |exact Hm]; (eapply X3_hdby; [eassumption|by apply hdby_cof..]).
Qed.

Lemma X_det H o df dg dr : X o df dg dr → ∀ dr', X o df dg dr' → hdby H df → hdby H dg → dr = dr'.
Proof.
  induction 1 as [o d dr Hs|o df dg dr Hn Hd Ha|dg dr Hb HX IH|df dr Hb HX IH|o df dg hd dlo dhi dr Hb Hc Ht H0 IH0 H1 IH1 Hm];
    intros dr' HX' Hf Hg.
  - inversion HX' as [? ? ? Hs'|? ? ? ? Hn' Hd' Ha'| | |? ? ? ? ? ? ? Hb' Hc' Ht' H0' H1' Hm']; subst; try done.
    + congruence.
    + destruct (decide (o = OpNot)) as [->|Hno]; [done|]. by destruct (Hd' Hno).
    + destruct (decide (o = OpNot)) as [->|Hno]; [done|]. by destruct Hc'.
  - inversion HX' as [? ? ? Hs'|? ? ? ? Hn' Hd' Ha'|? ? Hb'|? ? Hb'|? ? ? ? ? ? ? Hb' Hc' Ht' H0' H1' Hm']; subst.
    + destruct (decide (o = OpNot)) as [->|Hno]; [done|]. by destruct (Hd Hno).
    + congruence.
    + by destruct dg as [[]|].
    + by destruct df as [[]|].
    + destruct df as [|]; [done|]. destruct (decide (o = OpNot)) as [->|Hno]; [done|].
      destruct Hc' as [Hbg _]. destruct dg; [done|]. by destruct o.
  - inversion HX' as [? ? ? Hs'|? ? ? ? Hn' Hd' Ha'|? ? Hb'|? ? Hb'|? ? ? ? ? ? ? Hb' Hc' Ht' H0' H1' Hm']; subst; try done.
    + by destruct dg as [[]|].
    + by apply IH.
  - inversion HX' as [? ? ? Hs'|? ? ? ? Hn' Hd' Ha'|? ? Hb'|? ? Hb'|? ? ? ? ? ? ? Hb' Hc' Ht' H0' H1' Hm']; subst; try done.
    + by destruct df as [[]|].
    + by apply IH.
    + by destruct Hc'.
  - inversion HX' as [? ? ? Hs'|? ? ? ? Hn' Hd' Ha'|? ? Hb'|? ? Hb'|? ? ? hd' ? ? ? Hb' Hc' Ht' H0' H1' Hm']; subst; try done.
    + destruct (decide (o = OpNot)) as [->|Hno]; [done|]. by destruct Hc.
    + destruct df as [|]; [done|]. destruct (decide (o = OpNot)) as [->|Hno]; [done|].
      destruct Hc as [Hbg _]. destruct dg; [done|]. by destruct o.
    + by destruct Hc.
    + assert (hd' = hd) as ->.
      { rewrite (topof_hd H hd' _ Ht'), (topof_hd H hd _ Ht) by (by repeat constructor). f_equal. by eapply topof_level. }
      rewrite (IH0 _ H0'), (IH1 _ H1') in Hm by (by apply hdby_cof). by eapply mk2_det.
Qed.
Lemma X3_det H df dg dh dr : X3 df dg dh dr → ∀ dr', X3 df dg dh dr' → hdby H df → hdby H dg → hdby H dh → dr = dr'.
Proof.
  induction 1 as [| | |df d Hb|df dg dh hd dlo dhi dr Hb Hc Ht H0 IH0 H1 IH1 Hm]; intros dr' HX' Hf Hg Hh.
  - by inversion HX'.
  - by inversion HX'.
  - by inversion HX'.
  - by inversion HX'; subst.
  - inversion HX' as [| | | |? ? ? hd' ? ? ? Hb' Hc' Ht' H0' H1' Hm']; subst; try done.
    assert (hd' = hd) as ->.
    { rewrite (topof_hd H hd' _ Ht'), (topof_hd H hd _ Ht) by (by repeat constructor). f_equal. by eapply topof_level. }
    rewrite (IH0 _ H0'), (IH1 _ H1') in Hm by (by apply hdby_cof). by eapply mk2_det.
Qed.

(** ** Reachable managers *)
Lemma xvalid_repr m id : xwf m → bdd_valid m id → ∃ d, repr (b_ar m) d id.
Proof. intros Hw. exact (valid_repr _ id (xwf_clear _ Hw)). Qed.

(** the connectives *)
Definition XC (c : conn) (df dg dr : tree) : Prop :=
  match c with
  | And => X OpAnd df dg dr
  | Or => X OpOr df dg dr
  | Xor => X OpXOr df dg dr
  | Imp => ∃ dt, X OpNot df (Leaf TZero) dt ∧ X OpOr dt dg dr
  | Nand => ∃ dt, X OpAnd df dg dt ∧ X OpNot dt (Leaf TZero) dr
  | Nor => ∃ dt, X OpOr df dg dt ∧ X OpNot dt (Leaf TZero) dr
  | Xnor => ∃ dt, X OpXOr df dg dt ∧ X OpNot dt (Leaf TZero) dr
  end.
Lemma xconn c m f g df dg : xwf m → repr (b_ar m) df f → repr (b_ar m) dg g →
  ∃ m' r dr, bdd_conn c m f g = Some (m', r) ∧ xstep m m' ∧ repr (b_ar m') dr r ∧ XC c df dg dr.
Proof.
  intros Hw Hf Hg.
  assert (Hneg : ∀ o (x : option (bdd * nat)), xopres o m df dg x →
    ∃ m' r dr, ('(m, tmp) ← x; bdd_not m tmp) = Some (m', r) ∧ xstep m m' ∧ repr (b_ar m') dr r ∧
      ∃ dt, X o df dg dt ∧ X OpNot dt (Leaf TZero) dr).
  { intros o x (m1 & t & dt & -> & Hst1 & Ht & Hk1 & P1). cbn [mbind option_bind].
    destruct (xbdd_not_ok m1 t dt) as (m2 & r & dr & Heq & Hst2 & Hr & Hk2 & Hev); [apply Hst1|done|].
    exists m2, r, dr. sp; try done; [by eapply xstep_trans|]. by exists dt. }
  destruct c; cbn [bdd_conn XC].
  - destruct (xbdd_and_ok m f g df dg Hw Hf Hg) as (m' & r & dr & ? & ? & ? & ? & ?). by exists m', r, dr.
  - destruct (xbdd_or_ok m f g df dg Hw Hf Hg) as (m' & r & dr & ? & ? & ? & ? & ?). by exists m', r, dr.
  - destruct (xbdd_xor_ok m f g df dg Hw Hf Hg) as (m' & r & dr & ? & ? & ? & ? & ?). by exists m', r, dr.
  - unfold bdd_imp. destruct (xbdd_not_ok m f df Hw Hf) as (m1 & t & dt & -> & Hst1 & Ht & Hk1 & Hev).
    cbn [mbind option_bind]. destruct (xbdd_or_ok m1 t g dt dg) as (m' & r & dr & Heq & Hst & Hr & Hk & Hp);
      [apply Hst1|done|eapply repr_mono; [apply Hst1|done]|].
    exists m', r, dr. sp; try done; [by eapply xstep_trans|]. by exists dt.
  - apply Hneg. by apply xbdd_and_ok.
  - apply Hneg. by apply xbdd_or_ok.
  - apply Hneg. by apply xbdd_xor_ok.
Qed.

Lemma xexec_ok m c : xwf m → bdd_legal m c → ∃ m' r, bdd_exec m c = Some (m', r) ∧ xwf m'.
Proof.
  intros Hw. destruct c as [l s|h lo hi|f|c f g|f g h|roots|]; cbn [bdd_exec bdd_legal]; intros Hl.
  - destruct (bdd_create_header m l s) as [m' h] eqn:Hh. exists m', h. split; [done|].
    by eapply xcreate_header_ok.
  - destruct (ar_headers (b_ar m) !! h) as [hd|] eqn:Hh; [|done].
    destruct Hl as [[Vlo Blo] [Vhi Bhi]].
    destruct (xvalid_repr _ _ Hw Vlo) as [dlo Hlo]. destruct (xvalid_repr _ _ Hw Vhi) as [dhi Hhi].
    destruct (xcreate_node_spec m h hd lo hi dlo dhi) as (m' & r & dr & Heq & Hst & _); try done.
    { exact (below_rank _ lo dlo _ (xwf_clear _ Hw) Hlo Blo). } { exact (below_rank _ hi dhi _ (xwf_clear _ Hw) Hhi Bhi). }
    exists m', r. split; [by f_equal|apply Hst].
  - destruct (xvalid_repr _ _ Hw Hl) as [d Hd].
    destruct (xbdd_not_ok m f d Hw Hd) as (m' & r & dr & Heq & Hst & _). exists m', r. split; [done|apply Hst].
  - destruct Hl as [Vf Vg]. destruct (xvalid_repr _ _ Hw Vf) as [df Hf]. destruct (xvalid_repr _ _ Hw Vg) as [dg Hg].
    destruct (xconn c m f g df dg Hw Hf Hg) as (m' & r & dr & Heq & Hst & _).
    exists m', r. split; [done|apply Hst].
  - destruct Hl as (Vf & Vg & Vh). destruct (xvalid_repr _ _ Hw Vf) as [df Hf].
    destruct (xvalid_repr _ _ Hw Vg) as [dg Hg]. destruct (xvalid_repr _ _ Hw Vh) as [dh Hh].
    destruct (xbdd_ite_ok m f g h df dg dh Hw Hf Hg Hh) as (m' & r & dr & Heq & Hst & _).
    exists m', r. split; [done|apply Hst].
  - destruct (xgc_ok m roots Hw) as (m' & n & Heq & Hw' & _).
    { intros r Hr. rewrite Forall_forall in Hl. by apply Hl. }
    by exists m', n.
  - eexists _, _. split; [done|]. by apply xclear_cache_ok.
Qed.
Lemma xrun_ok m cs m' : xwf m → bdd_run m cs = Some m' → xwf m'.
Proof.
  revert m. induction cs as [|c cs IH]; intros m Hw; cbn [bdd_run]; [by intros [= <-]|].
  destruct (decide (bdd_legal m c)) as [Hl|]; [|done].
  destruct (xexec_ok m c Hw Hl) as (m1 & r & -> & Hw1). cbn [mbind option_bind]. by apply IH.
Qed.
Lemma reachable_xwf m : bdd_reachable m → xwf m.
Proof. intros [cs Hcs]. eapply xrun_ok; [apply xnew_ok|done]. Qed.

(** ** Two managers *)
Lemma same_ev m1 m2 d1 d2 f1 f2 : good (b_ar m1) → good (b_ar m2) → repr (b_ar m1) d1 f1 → repr (b_ar m2) d2 f2 →
  same_fun m1 f1 m2 f2 ↔ ∀ ρ, vok E2 ρ → eval ρ d1 = eval ρ d2.
Proof.
  intros G1 G2 R1 R2. split.
  - intros Hs ρ Hv. pose proof (good_ok _ _ _ G1 R1) as O1. pose proof (good_ok _ _ _ G2 R2) as O2.
    destruct (eval_total E2 ρ d1 O1 Hv) as [t1 Ht1]. destruct (eval_total E2 ρ d2 O2 Hv) as [t2 Ht2].
    rewrite Ht1, Ht2. f_equal.
    assert (He1 : ev (asg (λ l, ρ l =? 1)) d1 = t1).
    { rewrite <- (ev_ext ρ _ d1 O1 (vok_asg _ Hv)). unfold ev. by rewrite Ht1. }
    assert (He2 : ev (asg (λ l, ρ l =? 1)) d2 = t2).
    { rewrite <- (ev_ext ρ _ d2 O2 (vok_asg _ Hv)). unfold ev. by rewrite Ht2. }
    eapply ev_val in He1; [|exact G1|exact R1]. apply Hs in He1. eapply val_ev in He1; [|exact G2|exact R2]. congruence.
  - intros He rho t. rewrite (value_ev _ _ _ _ _ G1 R1), (value_ev _ _ _ _ _ G2 R2). unfold ev.
    by rewrite (He _ (asg_ok rho)).
Qed.

Lemma same_strip m1 m2 d1 d2 f1 f2 : xwf m1 → xwf m2 → bdd_levels_distinct m1 → bdd_levels_distinct m2 →
  repr (b_ar m1) d1 f1 → repr (b_ar m2) d2 f2 → same_fun m1 f1 m2 f2 ↔ strip E2 d1 = strip E2 d2.
Proof.
  intros W1 W2 D1 D2 R1 R2. pose proof (xw_good _ W1) as G1. pose proof (xw_good _ W2) as G2.
  rewrite (same_ev m1 m2 d1 d2 f1 f2 G1 G2 R1 R2). split.
  - intros He. destruct (hdby_exists _ (gd_wf _ G1) D1) as [H1 Hh1]. destruct (hdby_exists _ (gd_wf _ G2) D2) as [H2 Hh2].
    eapply (strip_canon E2 H1 H2); try done; eauto using good_ok, repr_redd. unfold E2. lia.
  - intros Heq ρ Hv. rewrite <- (strip_eval E2 ρ d1), <- (strip_eval E2 ρ d2). by rewrite Heq.
Qed.

(** what is needed of an operation for its result not to depend on the history *)
Lemma det2 (R : tree → tree → tree → Prop) (op : bdd → nat → nat → option (bdd * nat)) m1 m2 f1 g1 f2 g2 :
  (∀ m f g df dg, xwf m → repr (b_ar m) df f → repr (b_ar m) dg g →
     ∃ m' r dr, op m f g = Some (m', r) ∧ xstep m m' ∧ repr (b_ar m') dr r ∧ R df dg dr) →
  (∀ H df dg dr, R df dg dr → hdby H df → hdby H dg → R (strip E2 df) (strip E2 dg) (strip E2 dr)) →
  (∀ H df dg dr dr', R df dg dr → R df dg dr' → hdby H df → hdby H dg → dr = dr') →
  xwf m1 → xwf m2 → bdd_levels_distinct m1 → bdd_levels_distinct m2 →
  bdd_valid m1 f1 → bdd_valid m1 g1 → bdd_valid m2 f2 → bdd_valid m2 g2 →
  same_fun m1 f1 m2 f2 → same_fun m1 g1 m2 g2 →
  ∃ m1' r1 m2' r2, op m1 f1 g1 = Some (m1', r1) ∧ op m2 f2 g2 = Some (m2', r2) ∧ same_fun m1' r1 m2' r2.
Proof.
  intros Hop Hstrip Hdet W1 W2 D1 D2 Vf1 Vg1 Vf2 Vg2 Sf Sg.
  destruct (xvalid_repr _ _ W1 Vf1) as [df1 Hf1]. destruct (xvalid_repr _ _ W1 Vg1) as [dg1 Hg1].
  destruct (xvalid_repr _ _ W2 Vf2) as [df2 Hf2]. destruct (xvalid_repr _ _ W2 Vg2) as [dg2 Hg2].
  destruct (Hop m1 f1 g1 df1 dg1 W1 Hf1 Hg1) as (m1' & r1 & dr1 & Heq1 & (W1' & _ & Hd1) & Hr1 & HR1).
  destruct (Hop m2 f2 g2 df2 dg2 W2 Hf2 Hg2) as (m2' & r2 & dr2 & Heq2 & (W2' & _ & Hd2) & Hr2 & HR2).
  exists m1', r1, m2', r2. sp; try done.
  apply (same_strip m1' m2' dr1 dr2 r1 r2); try done.
  { unfold bdd_levels_distinct. by rewrite Hd1. }
  { unfold bdd_levels_distinct. by rewrite Hd2. }
  apply (same_strip m1 m2 df1 df2 f1 f2) in Sf; try done. apply (same_strip m1 m2 dg1 dg2 g1 g2) in Sg; try done.
  destruct (hdby_exists _ (gd_wf _ (xw_good _ W1)) D1) as [H1 Hh1]. destruct (hdby_exists _ (gd_wf _ (xw_good _ W2)) D2) as [H2 Hh2].
  apply (Hstrip H1) in HR1; [|by eauto..]. apply (Hstrip H2) in HR2; [|by eauto..]. rewrite Sf, Sg in HR1.
  eapply (Hdet (bare E2)); [exact HR1|exact HR2|apply strip_hdby..].
Qed.

Lemma XC_strip H c df dg dr : XC c df dg dr → hdby H df → hdby H dg → XC c (strip E2 df) (strip E2 dg) (strip E2 dr).
Proof.
  intros HX Hf Hg. destruct c; cbn [XC] in *; try (by eapply X_strip).
  - destruct HX as (dt & H1 & H2). exists (strip E2 dt). pose proof (X_hdby H _ _ _ _ H1 Hf I). split.
    + exact (X_strip H _ _ _ _ H1 Hf I).
    + by eapply X_strip.
  - destruct HX as (dt & H1 & H2). exists (strip E2 dt). pose proof (X_hdby H _ _ _ _ H1 Hf Hg) as Ht. split; [by eapply X_strip|].
    exact (X_strip H _ _ _ _ H2 Ht I).
  - destruct HX as (dt & H1 & H2). exists (strip E2 dt). pose proof (X_hdby H _ _ _ _ H1 Hf Hg) as Ht. split; [by eapply X_strip|].
    exact (X_strip H _ _ _ _ H2 Ht I).
  - destruct HX as (dt & H1 & H2). exists (strip E2 dt). pose proof (X_hdby H _ _ _ _ H1 Hf Hg) as Ht. split; [by eapply X_strip|].
    exact (X_strip H _ _ _ _ H2 Ht I).
Qed.
Lemma XC_det H c df dg dr dr' : XC c df dg dr → XC c df dg dr' → hdby H df → hdby H dg → dr = dr'.
Proof.
  intros HX HX' Hf Hg. destruct c; cbn [XC] in *; try (by eapply X_det).
  - destruct HX as (dt & H1 & H2), HX' as (dt' & H1' & H2'). pose proof (X_hdby H _ _ _ _ H1 Hf I).
    rewrite <- (X_det H _ _ _ _ H1 _ H1' Hf I) in H2'. by eapply X_det.
  - destruct HX as (dt & H1 & H2), HX' as (dt' & H1' & H2'). pose proof (X_hdby H _ _ _ _ H1 Hf Hg) as Ht.
    rewrite <- (X_det H _ _ _ _ H1 _ H1' Hf Hg) in H2'. exact (X_det H _ _ _ _ H2 _ H2' Ht I).
  - destruct HX as (dt & H1 & H2), HX' as (dt' & H1' & H2'). pose proof (X_hdby H _ _ _ _ H1 Hf Hg) as Ht.
    rewrite <- (X_det H _ _ _ _ H1 _ H1' Hf Hg) in H2'. exact (X_det H _ _ _ _ H2 _ H2' Ht I).
  - destruct HX as (dt & H1 & H2), HX' as (dt' & H1' & H2'). pose proof (X_hdby H _ _ _ _ H1 Hf Hg) as Ht.
    rewrite <- (X_det H _ _ _ _ H1 _ H1' Hf Hg) in H2'. exact (X_det H _ _ _ _ H2 _ H2' Ht I).
Qed.

Lemma conn_same c m1 m2 f1 g1 f2 g2 : bdd_reachable m1 → bdd_reachable m2 → bdd_levels_distinct m1 → bdd_levels_distinct m2 →
  bdd_valid m1 f1 → bdd_valid m1 g1 → bdd_valid m2 f2 → bdd_valid m2 g2 →
  same_fun m1 f1 m2 f2 → same_fun m1 g1 m2 g2 →
  ∃ m1' r1 m2' r2, bdd_conn c m1 f1 g1 = Some (m1', r1) ∧ bdd_conn c m2 f2 g2 = Some (m2', r2) ∧ same_fun m1' r1 m2' r2.
Proof.
  intros R1 R2. apply (det2 (XC c)); eauto using reachable_xwf, xconn, XC_strip, XC_det.
Qed.

Lemma ite_same m1 m2 f1 g1 h1 f2 g2 h2 : bdd_reachable m1 → bdd_reachable m2 → bdd_levels_distinct m1 → bdd_levels_distinct m2 →
  bdd_valid m1 f1 → bdd_valid m1 g1 → bdd_valid m1 h1 → bdd_valid m2 f2 → bdd_valid m2 g2 → bdd_valid m2 h2 →
  same_fun m1 f1 m2 f2 → same_fun m1 g1 m2 g2 → same_fun m1 h1 m2 h2 →
  ∃ m1' r1 m2' r2, bdd_ite m1 f1 g1 h1 = Some (m1', r1) ∧ bdd_ite m2 f2 g2 h2 = Some (m2', r2) ∧ same_fun m1' r1 m2' r2.
Proof.
  intros W1%reachable_xwf W2%reachable_xwf D1 D2 Vf1 Vg1 Vh1 Vf2 Vg2 Vh2 Sf Sg Sh.
  destruct (xvalid_repr _ _ W1 Vf1) as [df1 Hf1]. destruct (xvalid_repr _ _ W1 Vg1) as [dg1 Hg1]. destruct (xvalid_repr _ _ W1 Vh1) as [dh1 Hh1].
  destruct (xvalid_repr _ _ W2 Vf2) as [df2 Hf2]. destruct (xvalid_repr _ _ W2 Vg2) as [dg2 Hg2]. destruct (xvalid_repr _ _ W2 Vh2) as [dh2 Hh2].
  destruct (xbdd_ite_ok m1 f1 g1 h1 df1 dg1 dh1 W1 Hf1 Hg1 Hh1) as (m1' & r1 & dr1 & Heq1 & (W1' & _ & Hd1) & Hr1 & _ & HR1).
  destruct (xbdd_ite_ok m2 f2 g2 h2 df2 dg2 dh2 W2 Hf2 Hg2 Hh2) as (m2' & r2 & dr2 & Heq2 & (W2' & _ & Hd2) & Hr2 & _ & HR2).
  exists m1', r1, m2', r2. sp; try done.
  apply (same_strip m1' m2' dr1 dr2 r1 r2); try done.
  { unfold bdd_levels_distinct. by rewrite Hd1. }
  { unfold bdd_levels_distinct. by rewrite Hd2. }
  apply (same_strip m1 m2 df1 df2 f1 f2) in Sf; try done. apply (same_strip m1 m2 dg1 dg2 g1 g2) in Sg; try done.
  apply (same_strip m1 m2 dh1 dh2 h1 h2) in Sh; try done.
  destruct (hdby_exists _ (gd_wf _ (xw_good _ W1)) D1) as [H1 Hb1]. destruct (hdby_exists _ (gd_wf _ (xw_good _ W2)) D2) as [H2 Hb2].
  apply (X3_strip H1) in HR1; [|by eauto..]. apply (X3_strip H2) in HR2; [|by eauto..]. rewrite Sf, Sg, Sh in HR1.
  eapply (X3_det (bare E2)); [exact HR1|exact HR2|apply strip_hdby..].
Qed.

(** the call repeated where operands and first result are still there *)
Lemma same_fun_trans m1 f1 m2 f2 m3 f3 : same_fun m1 f1 m2 f2 → same_fun m2 f2 m3 f3 → same_fun m1 f1 m3 f3.
Proof. intros A B rho t. by rewrite (A rho t). Qed.
Lemma same_fun_sym m1 f1 m2 f2 : same_fun m1 f1 m2 f2 → same_fun m2 f2 m1 f1.
Proof. intros A rho t. by rewrite (A rho t). Qed.
Lemma same_fun_ext m m' f : bwf m → bwf m' → ext (b_ar m) (b_ar m') → bdd_valid m f → same_fun m f m' f.
Proof.
  intros Hw Hw' He Hv. destruct (valid_repr _ _ Hw Hv) as [d Hd].
  apply (same_ev m m' d d f f (bw_good _ Hw) (bw_good _ Hw') Hd); [by eapply repr_mono|done].
Qed.

Lemma conn_again c m f g m1 r m2 f2 g2 r2 : bdd_reachable m → bdd_levels_distinct m → bdd_valid m f → bdd_valid m g →
  bdd_conn c m f g = Some (m1, r) →
  bdd_reachable m2 → bdd_levels_distinct m2 → bdd_valid m2 f2 → bdd_valid m2 g2 → bdd_valid m2 r2 →
  same_fun m f m2 f2 → same_fun m g m2 g2 → same_fun m1 r m2 r2 →
  ∃ m3, bdd_conn c m2 f2 g2 = Some (m3, r2).
Proof.
  intros Re D Vf Vg Heq Re2 D2 Vf2 Vg2 Vr2 Sf Sg Sr.
  destruct (conn_same c m m2 f g f2 g2) as (m1' & r1' & m3 & r3 & Heq1 & Heq3 & Hs); try done.
  rewrite Heq in Heq1. injection Heq1 as <- <-. exists m3. rewrite Heq3. f_equal. f_equal.
  pose proof (reachable_wf _ Re2) as W2.
  destruct (valid_repr _ _ W2 Vf2) as [df Hf]. destruct (valid_repr _ _ W2 Vg2) as [dg Hg].
  destruct (conn_tree c m2 f2 g2 df dg W2 Hf Hg) as (m' & r' & dr & Heq' & (W3 & Hext & Hhd) & Hr & _).
  rewrite Heq3 in Heq'. injection Heq' as <- <-.
  assert (Vr3 : bdd_valid m3 r2) by (by eapply ext_live).
  apply (canonical_wf m3); try done.
  - unfold bdd_levels_distinct. by rewrite Hhd.
  - by eapply repr_live.
  - assert (Hsr : same_fun m3 r3 m3 r2).
    { eapply same_fun_trans; [apply same_fun_sym, Hs|]. eapply same_fun_trans; [exact Sr|]. by apply same_fun_ext. }
    intros rho t. apply Hsr.
Qed.
Lemma ite_again m f g h m1 r m2 f2 g2 h2 r2 : bdd_reachable m → bdd_levels_distinct m → bdd_valid m f → bdd_valid m g → bdd_valid m h →
  bdd_ite m f g h = Some (m1, r) →
  bdd_reachable m2 → bdd_levels_distinct m2 → bdd_valid m2 f2 → bdd_valid m2 g2 → bdd_valid m2 h2 → bdd_valid m2 r2 →
  same_fun m f m2 f2 → same_fun m g m2 g2 → same_fun m h m2 h2 → same_fun m1 r m2 r2 →
  ∃ m3, bdd_ite m2 f2 g2 h2 = Some (m3, r2).
Proof.
  intros Re D Vf Vg Vh Heq Re2 D2 Vf2 Vg2 Vh2 Vr2 Sf Sg Sh Sr.
  destruct (ite_same m m2 f g h f2 g2 h2) as (m1' & r1' & m3 & r3 & Heq1 & Heq3 & Hs); try done.
  rewrite Heq in Heq1. injection Heq1 as <- <-. exists m3. rewrite Heq3. f_equal. f_equal.
  pose proof (reachable_wf _ Re2) as W2.
  destruct (valid_repr _ _ W2 Vf2) as [df Hf]. destruct (valid_repr _ _ W2 Vg2) as [dg Hg]. destruct (valid_repr _ _ W2 Vh2) as [dh Hh].
  destruct (bdd_ite_ok m2 f2 g2 h2 df dg dh W2 Hf Hg Hh) as (m' & r' & dr & Heq' & (W3 & Hext & Hhd) & Hr & _).
  rewrite Heq3 in Heq'. injection Heq' as <- <-.
  assert (Vr3 : bdd_valid m3 r2) by (by eapply ext_live).
  apply (canonical_wf m3); try done.
  - unfold bdd_levels_distinct. by rewrite Hhd.
  - by eapply repr_live.
  - assert (Hsr : same_fun m3 r3 m3 r2).
    { eapply same_fun_trans; [apply same_fun_sym, Hs|]. eapply same_fun_trans; [exact Sr|]. by apply same_fun_ext. }
    intros rho t. apply Hsr.
Qed.

(** ** constant operands *)
Lemma conn_const c m f g r df dg dr : xwf m → repr (b_ar m) df f → repr (b_ar m) dg g → repr (b_ar m) dr r →
  (∀ dr', XC c df dg dr' → dr' = dr) → ∃ m', bdd_conn c m f g = Some (m', r).
Proof.
  intros Hw Hf Hg Hr Hu. destruct (xconn c m f g df dg Hw Hf Hg) as (m' & r' & dr' & -> & (Hw' & He & _) & Hr' & HX).
  apply Hu in HX as ->. exists m'. do 2 f_equal.
  eapply (repr_inj Rb); [apply (xw_good _ Hw')|exact Hr'|by eapply repr_mono].
Qed.

Ltac xinv := let H := fresh in intros ? H; inversion H as [? ? ? Hs|? ? ? ? Hn Hd Ha|? ? Hb|? ? Hb|? ? ? ? ? ? ? Hb Hc]; subst;
  repeat match goal with
  | H : same2 _ _ = Some _ |- _ => cbn [same2] in H; injection H as <-
  | H : isbr (Leaf _) |- _ => by destruct H
  | H : if decide (?a = ?b) then _ else _ |- _ => rewrite decide_False in H by done; destruct H
  end.
Lemma and_consts m g : bdd_reachable m → bdd_valid m g →
  (∃ m', bdd_and m bdd_zero g = Some (m', bdd_zero)) ∧ (∃ m', bdd_and m g bdd_zero = Some (m', bdd_zero)) ∧
  (∃ m', bdd_and m bdd_one g = Some (m', g)) ∧ (∃ m', bdd_and m g bdd_one = Some (m', g)) ∧
  (g ≠ bdd_zero → g ≠ bdd_one →
   (∃ m', bdd_and m bdd_undet g = Some (m', bdd_undet)) ∧ (∃ m', bdd_and m g bdd_undet = Some (m', bdd_undet))).
Proof.
  intros Hw%reachable_xwf Vg. pose proof (xw_good _ Hw) as [_ Hz Ho Hu _]. destruct (xvalid_repr _ _ Hw Vg) as [dg Hg].
  sp.
  - eapply (conn_const And); [done|exact Hz|exact Hg|exact Hz|]. xinv; [done|]. by destruct dg as [[]|]; injection Ha as <-.
  - eapply (conn_const And); [done|exact Hg|exact Hz|exact Hz|]. xinv; [done|]. by destruct dg as [[]|]; injection Ha as <-.
  - eapply (conn_const And); [done|exact Ho|exact Hg|exact Hg|]. xinv; [done|]. by destruct dg as [[]|]; injection Ha as <-.
  - eapply (conn_const And); [done|exact Hg|exact Ho|exact Hg|]. xinv; [done|]. by destruct dg as [[]|]; injection Ha as <-.
  - intros N0 N1.
    assert (Hnz : dg ≠ Leaf TZero) by (intros ->; apply N0; exact (repr_inj Rb _ _ _ _ (gd_wf _ (xw_good _ Hw)) Hg Hz)).
    assert (Hno : dg ≠ Leaf TOne) by (intros ->; apply N1; exact (repr_inj Rb _ _ _ _ (gd_wf _ (xw_good _ Hw)) Hg Ho)).
    sp.
    + eapply (conn_const And); [done|exact Hu|exact Hg|exact Hu|]. xinv; [done|]. by destruct dg as [[]|]; injection Ha as <-.
    + eapply (conn_const And); [done|exact Hg|exact Hu|exact Hu|]. xinv; [done|]. by destruct dg as [[]|]; injection Ha as <-.
Qed.
Lemma or_consts m g : bdd_reachable m → bdd_valid m g →
  (∃ m', bdd_or m bdd_one g = Some (m', bdd_one)) ∧ (∃ m', bdd_or m g bdd_one = Some (m', bdd_one)) ∧
  (∃ m', bdd_or m bdd_zero g = Some (m', g)) ∧ (∃ m', bdd_or m g bdd_zero = Some (m', g)) ∧
  (g ≠ bdd_zero → g ≠ bdd_one →
   (∃ m', bdd_or m bdd_undet g = Some (m', bdd_undet)) ∧ (∃ m', bdd_or m g bdd_undet = Some (m', bdd_undet))).
Proof.
  intros Hw%reachable_xwf Vg. pose proof (xw_good _ Hw) as [_ Hz Ho Hu _]. destruct (xvalid_repr _ _ Hw Vg) as [dg Hg].
  sp.
  - eapply (conn_const Or); [done|exact Ho|exact Hg|exact Ho|]. xinv; [done|]. by destruct dg as [[]|]; injection Ha as <-.
  - eapply (conn_const Or); [done|exact Hg|exact Ho|exact Ho|]. xinv; [done|]. by destruct dg as [[]|]; injection Ha as <-.
  - eapply (conn_const Or); [done|exact Hz|exact Hg|exact Hg|]. xinv; [done|]. by destruct dg as [[]|]; injection Ha as <-.
  - eapply (conn_const Or); [done|exact Hg|exact Hz|exact Hg|]. xinv; [done|]. by destruct dg as [[]|]; injection Ha as <-.
  - intros N0 N1.
    assert (Hnz : dg ≠ Leaf TZero) by (intros ->; apply N0; exact (repr_inj Rb _ _ _ _ (gd_wf _ (xw_good _ Hw)) Hg Hz)).
    assert (Hno : dg ≠ Leaf TOne) by (intros ->; apply N1; exact (repr_inj Rb _ _ _ _ (gd_wf _ (xw_good _ Hw)) Hg Ho)).
    sp.
    + eapply (conn_const Or); [done|exact Hu|exact Hg|exact Hu|]. xinv; [done|]. by destruct dg as [[]|]; injection Ha as <-.
    + eapply (conn_const Or); [done|exact Hg|exact Hu|exact Hu|]. xinv; [done|]. by destruct dg as [[]|]; injection Ha as <-.
Qed.
Lemma xor_consts m g : bdd_reachable m → bdd_valid m g →
  (∃ m', bdd_xor m bdd_zero g = Some (m', g)) ∧ (∃ m', bdd_xor m g bdd_zero = Some (m', g)) ∧
  (∃ m', bdd_xor m bdd_undet g = Some (m', bdd_undet)) ∧ (∃ m', bdd_xor m g bdd_undet = Some (m', bdd_undet)).
Proof.
  intros Hw%reachable_xwf Vg. pose proof (xw_good _ Hw) as [_ Hz Ho Hu _]. destruct (xvalid_repr _ _ Hw Vg) as [dg Hg].
  sp.
  - eapply (conn_const Xor); [done|exact Hz|exact Hg|exact Hg|]. xinv; [done|]. by destruct dg as [[]|]; injection Ha as <-.
  - eapply (conn_const Xor); [done|exact Hg|exact Hz|exact Hg|]. xinv; [done|]. by destruct dg as [[]|]; injection Ha as <-.
  - eapply (conn_const Xor); [done|exact Hu|exact Hg|exact Hu|]. xinv; [done|..].
    + by destruct dg as [[]|]; injection Ha as <-.
  - eapply (conn_const Xor); [done|exact Hg|exact Hu|exact Hu|]. xinv; [done|..].
    + by destruct dg as [[]|]; injection Ha as <-.
Qed.
