(** minpath and mincut on the managers; families held by the user. *)
From stdpp Require Import strings.
From Verif Require Import Prelude ComputeCache Arena Bdd Mdd MtMdd MtMdd2 Zmdd ZmddAlg BssMgr MddMinsol MssConv MssMgr
  Trees ArenaProofs ArenaMore SpecBdd SpecMdd SpecZmdd SpecZmddAlg SpecBssMgr SpecMss NaryProofs MddProofs MddMain MtProofs MmProofs MmMain
  BssMgrProofs ZmddTrees ZmddProofs ZmddMain MssTrees MssSol MddMinsolProofs MssConvProofs MssSolMain MssMgrProofs MssMgrVar MssRpn.

Notation bar m := (d_ar (mm_b m)).
Notation var m := (t_ar (mm_v m)).
Notation hdrs m := (ar_headers (bar m)).

(** evaluation at the extreme state vector *)
Lemma extreme_ok {T} rv (a : arena T) n : ∀ d id, awf Rn a → hcons (ar_headers a) → lrepr rv a d id → rank d < n →
  extreme_f n a rv id = eval (λ _, 0) d ∧ is_Some (eval (λ _, 0) d).
Proof.
  induction n as [|n IH]; intros d id Hwf Hc Hd Hn; [lia|]. cbn [extreme_f]. destruct d as [t|hd ds].
  - apply lrepr_leaf in Hd as [_ ->]. cbn. eauto.
  - pose proof Hd as [_ (h & cs & Hnd & _)]%lrepr_br.
    destruct (lrepr_kids rv a hd ds id h cs Hwf Hc Hd Hnd) as (Hh & Hf & Hlen & Hpos).
    rewrite Hnd. cbn [mbind option_bind]. rewrite eval_br.
    replace (if rv then last cs else head cs) with (ch rv cs !! 0) by (rewrite <- ch_base; done).
    destruct (lookup_lt_is_Some_2 (ch rv cs) 0) as [c Hci]; [by rewrite ch_length|].
    destruct (Forall2_lookup_r _ _ _ _ _ Hf Hci) as (dc & Hdc & Hrc). rewrite Hci, Hdc. cbn [mbind option_bind].
    apply IH; try done. destruct (okh_kid _ _ _ _ _ (lrepr_okh rv a _ _ Hwf Hc Hd) Hdc) as [Hk _]. cbn [rank] in Hn. lia.
Qed.

(** the level a terminal stands for *)
Definition vsc (t : vt) : option Z := match t with VVal z => Some z | VUndet => None end.
Definition bsc (t : tv) : option Z := match t with TOne => Some 1%Z | TZero => Some 0%Z | TUndet => None end.

Section half.
(** what a computed family denotes once the base vector is added *)
Context (hs : list header) (Hc : hcons hs) (Hlv : ∀ i hd, hs !! i = Some hd → h_level hd = i)
  (Hnd : NoDup (h_label <$> hs)) (rv : bool).
Notation vars := ((λ hd, (h_label hd, h_edges hd)) <$> hs).
Notation off := (offset rv vars).
Context {T : Type} (sc : T → option Z) (le : T → T → Prop)
  (le_refl : ∀ a, le a a) (le_trans : ∀ a b e, le a b → le b e → le a e) (le_anti : ∀ a b, le a b → le b a → a = b)
  (sc_le : ∀ t t' z z', sc t = Some z → sc t' = Some z' → le t t' ↔ (z <= z')%Z)
  (sc_inj : ∀ t t' z, sc t = Some z → sc t' = Some z → t = t').

Lemma off_eval (df : dd T) e rho : okh hs df → states vars e → (∀ hd, hd ∈ hs → rho (h_level hd) = e (h_label hd)) →
  eval (off e) df = eval rho (fl rv df).
Proof.
  intros Ho He Hr. assert (Hv : vokh hs rho).
  { intros hd Hin. rewrite Hr by done. exact (proj1 (states_iff hs e) He hd Hin). }
  assert (Hat : ∀ l, l < length hs → off e l = (if rv then flipx hs rho else rho) l).
  { intros l [hd Hl]%lookup_lt_is_Some. rewrite (off_at hs rv e l hd Hl). pose proof (elem_of_list_lookup_2 _ _ _ Hl) as Hin.
    pose proof (Hr hd Hin) as Hr'. pose proof (flipx_at hs rho hd Hc Hin) as Hf. rewrite (Hlv _ _ Hl) in *.
    destruct rv; congruence. }
  rewrite (eval_low hs Hc Hlv df _ _ Ho Hat). unfold fl. destruct rv; [|done]. symmetry. by apply eval_drev.
Qed.

Definition phi_of (df : dd T) (phi : menv → Z) : Prop :=
  ∀ e, states vars e → ∃ t, eval (off e) df = Some t ∧ sc t = Some (phi e).

Lemma family_ok (leaf : T → option Z) (o : T → option T) (listed : T → Prop) (a : arena T) df dr r z b :
  awf Rn a → ar_headers a = hs →
  (∀ l n, leaf l = Some n ↔ ∃ t, o l = Some t ∧ sc t = Some n) →
  (∀ t z, sc t = Some z → listed t ∨ ¬ listed t ∧ ∀ t' z', sc t' = Some z' → lle rv le t' t → t' = t) →
  okh hs df → lrepr rv a dr r → rank dr ≤ rank df → chain (lle rv le) hs df → solspec o hs listed df dr →
  (∀ t, eval (λ _, 0) df = Some t → default 0%Z (sc t) = b) →
  zm_reachable z → (∀ hd, hd ∈ ar_headers (t_ar z) → hmatch hs hd) →
  ∃ s id, to_zmdd_f leaf (ar_fuel a) a rv (CSt z ∅ ∅) r = Some (s, id) ∧ zm_reachable (cv_z s) ∧ ext (t_ar z) (t_ar (cv_z s)) ∧
    (∀ hd, hd ∈ ar_headers (t_ar (cv_z s)) → hmatch hs hd) ∧ node_valid (t_ar (cv_z s)) id ∧
    (∀ x n l, zmember (t_ar (cv_z s)) id x n → length hs ≤ l → x l = 0) ∧
    ∀ phi, phi_of df phi → ∀ x n,
      (zmember (t_ar (cv_z s)) id x n ∨ ((∀ l, x l = 0) ∧ n = b ∧ ∀ n', ¬ zmember (t_ar (cv_z s)) id (λ _, 0) n')) ↔
      extremal rv vars phi x n.
Proof.
  intros Hwf Hhs Hleaf Hlist Ho Hr Hrk Hch Hsol Hb Hz Hhd.
  assert (Hca : hcons (ar_headers a)) by by rewrite Hhs.
  destruct (to_zmdd_ok leaf rv a Hwf Hca (ar_fuel a) (CSt z ∅ ∅) dr r) as (s & id & Heq & [Hi He] & (dz & Hdz & Hkz & Hden)).
  - constructor; cbn; try done. by rewrite Hhs.
  - done.
  - by eapply lrepr_fuel.
  - exists s, id. pose proof (ci_re _ _ _ _ Hi) as Hre. pose proof (zm_reachable_wf _ Hre) as Hw.
    sp; [done|done|done| | | |].
    + rewrite <- Hhs. by apply Hi.
    + by eapply repr_live.
    + intros x n l Hm Hl. apply (zmem_zden _ _ _ _ _ Hdz) in Hm. pose proof (df_rank hs Hc Hlv df Ho).
      eapply zden_low; [by eapply zm_ok|lia|done].
    + intros phi Hphi x n.
      assert (Hv0 : vokh hs (λ _, 0)). { intros hd Hin. by apply Hc. }
      destruct (vec_states hs Hc Hlv Hnd rv sc df Ho phi Hphi _ Hv0) as (e0 & t0 & _ & _ & Ht0 & Hs0).
      apply (baseline_iff hs Hc Hlv Hnd rv sc le le_anti sc_inj df Ho phi Hphi listed _ x n t0 b).
      * apply chain_monot; try done; unfold lle; destruct rv; eauto.
      * done.
      * rewrite <- (Hb t0 Ht0), Hs0. done.
      * done.
      * intros y k. rewrite (zmem_zden _ _ _ _ _ Hdz), (Hden y k). setoid_rewrite Hleaf. split.
        -- intros (l & Hl & t & Hol & Hs). assert (Hd : fden o dr y t) by (apply fden_some; eauto).
           apply (Hsol y t) in Hd as [??]. eauto.
        -- intros (t & Hli & Hs & Hlm). assert (Hd : fden o dr y t) by (by apply (Hsol y t)).
           apply fden_some in Hd as (l & ? & ?). eauto.
Qed.
Lemma mono_chain df phi : okh hs df → phi_of df phi → monotone vars phi ↔ chain (lle rv le) hs df.
Proof.
  intros Ho Hphi. rewrite (monotone_iff hs Hc Hlv Hnd rv sc le sc_le df Ho phi Hphi). split.
  - apply monot_chain; try done; unfold lle; destruct rv; eauto.
  - apply chain_monot; try done; unfold lle; destruct rv; eauto.
Qed.
End half.

Section mss.
Context (I : vint) {B : mbase}.
Definition s_inner (rv : bool) : mm → mnode → option (mm * option mnode) := if rv then mdd_maxsol I else mdd_minsol I.

Lemma held_phi w H x F phi : gok I w H → (x, Some F) ∈ H → is_phi (vorder (g_mm w)) F phi → ∀ e, states (vorder (g_mm w)) e →
  match x with
  | NVal f => ∃ t, node_value (var (g_mm w)) (rho_of (g_mm w) e) f t ∧ vsc t = Some (phi e)
  | NBool f => ∃ t, node_value (bar (g_mm w)) (rho_of (g_mm w) e) f t ∧ bsc t = Some (phi e)
  end.
Proof.
  intros Hk Hx Hphi e He. pose proof (gk_held _ _ _ Hk _ _ Hx) as [_ Hd].
  assert (Hr : mrange (g_mm w) e). { exact (proj1 (states_iff (hdrs (g_mm w)) e) He). }
  specialize (Hd F eq_refl e Hr). specialize (Hphi e He). pose proof (rho_agree (g_mm w) e (gk_lvl _ _ _ Hk)) as Ha.
  destruct x as [f|f], (F e) as [b|t]; cbn [mvalue] in Hd; try done.
  - exists t. split; [|by destruct t]. apply (named_level _ e); [|done]. rewrite (mmw_h _ _ (gk_wf _ _ _ Hk)). done.
  - exists (tvb b). split; [|by destruct b]. apply (named_level _ e); done.
Qed.
Lemma held_bdet w H f F : gok I w H → (NBool f, Some F) ∈ H → ∀ e, mrange (g_mm w) e →
  ∃ b, node_value (bar (g_mm w)) (rho_of (g_mm w) e) f (tvb b).
Proof.
  intros Hk Hx e Hr. pose proof (gk_held _ _ _ Hk _ _ Hx) as [_ Hd]. specialize (Hd F eq_refl e Hr).
  pose proof (rho_agree (g_mm w) e (gk_lvl _ _ _ Hk)) as Ha.
  destruct (F e) as [b|t]; cbn [mvalue] in Hd; try done. exists b. apply (named_level _ e); done.
Qed.

Definition inner_post (rv : bool) (m : mm) (F : mfn) (m' : mm) (fake : option mnode) (b : Z) : Prop :=
  match fake with
  | None => ∀ phi, is_phi (vorder m) F phi → ¬ monotone (vorder m) phi
  | Some f => (∀ phi, is_phi (vorder m) F phi → monotone (vorder m) phi) ∧
      ∀ z, zm_reachable z → (∀ hd, hd ∈ ar_headers (t_ar z) → hmatch (hdrs m) hd) →
      ∃ z' id, to_zmdd m' f z rv = Some (z', id) ∧ zm_reachable z' ∧ ext (t_ar z) (t_ar z') ∧
        (∀ hd, hd ∈ ar_headers (t_ar z') → hmatch (hdrs m) hd) ∧ node_valid (t_ar z') id ∧
        (∀ x n l, zmember (t_ar z') id x n → length (hdrs m) ≤ l → x l = 0) ∧
        ∀ phi, is_phi (vorder m) F phi → ∀ x n,
          (zmember (t_ar z') id x n ∨ ((∀ l, x l = 0) ∧ n = b ∧ ∀ n', ¬ zmember (t_ar z') id (λ _, 0) n')) ↔
          extremal rv (vorder m) phi x n
  end.

Lemma vsc_le t t' z z' : vsc t = Some z → vsc t' = Some z' → vle t t' ↔ (z <= z')%Z.
Proof. destruct t, t'; cbn; try done. intros [= ->] [= ->]. done. Qed.
Lemma vsc_inj t t' z : vsc t = Some z → vsc t' = Some z → t = t'.
Proof. destruct t, t'; cbn; try done. intros [= ->] [= ->]. done. Qed.
Lemma bsc_le t t' z z' : bsc t = Some z → bsc t' = Some z' → ble t t' ↔ (z <= z')%Z.
Proof. destruct t, t'; cbn; try done; intros [= <-] [= <-]; split; try done; lia. Qed.
Lemma bsc_inj t t' z : bsc t = Some z → bsc t' = Some z → t = t'.
Proof. destruct t, t'; cbn; try done; intros [= <-]; done. Qed.

Lemma inner_ok rv w H x F : gok I w H → (x, Some F) ∈ H →
  ∃ m' fake b, s_inner rv (g_mm w) x = Some (m', fake) ∧ mmstep I (g_mm w) m' ∧ eval_extreme m' x rv = Some b ∧
    inner_post rv (g_mm w) F m' fake b.
Proof.
  intros Hk Hx. pose proof (gk_wf _ _ _ Hk) as Hw. pose proof (gok_hc _ _ _ Hk) as Hc. pose proof (gk_lvl _ _ _ Hk) as Hlv.
  pose proof (gk_nodup _ _ _ Hk) as Hnd. destruct (gok_levels _ _ _ Hk) as [Lb Lv].
  pose proof (gk_held _ _ _ Hk _ _ Hx) as [Vx _]. pose proof (held_phi w H x F) as Hphi0.
  assert (Hrho : ∀ e hd, hd ∈ hdrs (g_mm w) → rho_of (g_mm w) e (h_level hd) = e (h_label hd)).
  { intros e hd Hin. by apply rho_agree. }
  destruct x as [f|f]; cbn [mm_valid] in Vx.
  - assert (Hvw : vwf I (mm_v (g_mm w))) by (split; [apply Hw|done]). destruct (vwf_ar I _ Hvw) as [Hwf Hcv].
    destruct (nvalid_repr _ _ _ Hwf Vx) as [d Hd]. set (df := fl rv d).
    assert (Hdf : lrepr rv (var (g_mm w)) df f) by (unfold lrepr, df; by rewrite fl_fl).
    pose proof (lrepr_okh rv _ _ _ Hwf Hcv Hdf) as Ho. rewrite (mmw_h _ _ Hw) in Ho, Hcv.
    assert (Hphi : ∀ phi, is_phi (vorder (g_mm w)) F phi → phi_of (hdrs (g_mm w)) rv vsc df phi).
    { intros phi Hp e He. destruct (Hphi0 phi Hk Hx Hp e He) as (t & Ht & Hs). exists t. split; [|done].
      rewrite (off_eval _ Hc Hlv rv df e _ Ho He (Hrho e)). by apply (nval_eval _ _ _ _ _ Hdf). }
    destruct (vsol_ok I rv (mm_v (g_mm w)) f df Hvw Hdf Logic.I) as (v' & r & Heq & Hst & Hres).
    pose proof Hst as ([Hw' _] & He' & Hh').
    assert (Hstep : mmstep I (g_mm w) (mm_with_v (g_mm w) v')) by (by apply with_v_step).
    assert (Hdf' : lrepr rv (t_ar v') df f) by by eapply lrepr_mono.
    destruct (vwf_ar I v' ltac:(apply Hst)) as [Hwf' _].
    assert (Hhs' : ar_headers (t_ar v') = hdrs (g_mm w)) by (rewrite Hh'; apply (mmw_h _ _ Hw)).
    destruct (extreme_ok rv (t_ar v') (ar_fuel (t_ar v')) df f Hwf') as [Hex [t0 Ht0]]; [by rewrite Hhs'|done|by eapply lrepr_fuel|].
    exists (mm_with_v (g_mm w) v'), (option_map NVal r), (default 0%Z (vsc t0)). sp.
    + unfold s_inner, mdd_maxsol, mdd_minsol. destruct rv; rewrite Heq; done.
    + done.
    + cbn [eval_extreme mm_with_v mm_v]. rewrite Hex, Ht0. cbn. by destruct t0.
    + rewrite (mmw_h _ _ Hw) in Hres. destruct r as [r|]; cbn [option_map inner_post].
      * destruct Hres as (dr & Hr & Hrk & Hch & Hsol & _). split.
        { intros phi Hp. eapply (mono_chain (hdrs (g_mm w)) Hc Hlv Hnd rv vsc vle); [apply vle_refl|apply vle_trans|apply vsc_le|exact Ho|by apply Hphi|done]. }
        intros z Hz Hm.
        destruct (family_ok (hdrs (g_mm w)) Hc Hlv Hnd rv vsc vle) with (leaf := cv_vleaf) (o := vorig) (listed := vlisted)
          (a := t_ar v') (df := df) (dr := dr) (r := r) (z := z) (b := default 0%Z (vsc t0)) as (s & id & Hs & Hrest); try done.
        -- apply vle_refl.
        -- apply vle_trans.
        -- apply vle_anti.
        -- apply vsc_inj.
        -- intros [|n] k; cbn; [naive_solver|]. split; [intros [= ->]; by exists (VVal k)|by intros (t & [= <-] & ?)].
        -- intros t k Hk'. left. by destruct t.
        -- intros t Ht. rewrite Ht0 in Ht. by injection Ht as <-.
        -- exists (cv_z s), id. destruct Hrest as (? & ? & ? & ? & ? & Hfin). sp; try done.
           ++ unfold to_zmdd. cbn [mm_with_v mm_v]. rewrite Hs. done.
           ++ intros phi Hp. apply Hfin. by apply Hphi.
      * intros phi Hp Hm. apply Hres.
        eapply (mono_chain (hdrs (g_mm w)) Hc Hlv Hnd rv vsc vle); [apply vle_refl|apply vle_trans|apply vsc_le|exact Ho|by apply Hphi|done].
  - assert (Hbw : bwf (mm_b (g_mm w))) by (split; [apply Hw|done]). destruct (bwf_ar _ Hbw) as [Hwf Hcb].
    destruct (nvalid_repr _ _ _ Hwf Vx) as [d Hd]. set (df := fl rv d).
    assert (Hdf : lrepr rv (bar (g_mm w)) df f) by (unfold lrepr, df; by rewrite fl_fl).
    pose proof (lrepr_okh rv _ _ _ Hwf Hcb Hdf) as Ho.
    assert (Hphi : ∀ phi, is_phi (vorder (g_mm w)) F phi → phi_of (hdrs (g_mm w)) rv bsc df phi).
    { intros phi Hp e He. destruct (Hphi0 phi Hk Hx Hp e He) as (t & Ht & Hs). exists t. split; [|done].
      rewrite (off_eval _ Hc Hlv rv df e _ Ho He (Hrho e)). by apply (nval_eval _ _ _ _ _ Hdf). }
    assert (Hnl : noleaf TUndet df).
    { eapply (noleaf_of _ (hdrs (g_mm w))); [done|done|]. intros x Hv Hev.
      destruct (off_surj (hdrs (g_mm w)) Hlv Hnd rv x Hv) as (e & He & Hl).
      destruct (held_bdet w H f F Hk Hx e) as [b Hb]; [exact (proj1 (states_iff (hdrs (g_mm w)) e) He)|].
      apply (nval_eval _ _ _ _ _ Hdf) in Hb. rewrite <- (off_eval _ Hc Hlv rv df e _ Ho He (Hrho e)) in Hb.
      rewrite (eval_low (hdrs (g_mm w)) Hc Hlv df _ x Ho Hl), Hev in Hb. by destruct b. }
    destruct (bsol_ok rv rv (mm_b (g_mm w)) f df Hbw Hdf Hnl) as (v' & r & Heq & Hst & Hres).
    pose proof Hst as ([Hw' _] & He' & Hh').
    assert (Hstep : mmstep I (g_mm w) (mm_with_b (g_mm w) v')) by (by apply with_b_step).
    assert (Hdf' : lrepr rv (d_ar v') df f) by by eapply lrepr_mono.
    destruct (bwf_ar v' ltac:(apply Hst)) as [Hwf' _].
    destruct (extreme_ok rv (d_ar v') (ar_fuel (d_ar v')) df f Hwf') as [Hex [t0 Ht0]]; [by rewrite Hh'|done|by eapply lrepr_fuel|].
    exists (mm_with_b (g_mm w) v'), (option_map NBool r), (default 0%Z (bsc t0)). sp.
    + unfold s_inner, mdd_maxsol, mdd_minsol. destruct rv; rewrite Heq; done.
    + done.
    + cbn [eval_extreme mm_with_b mm_b]. rewrite Hex, Ht0. cbn. by destruct t0.
    + destruct r as [r|]; cbn [option_map inner_post].
      * destruct Hres as (dr & Hr & Hrk & Hch & Hsol & _). split.
        { intros phi Hp. eapply (mono_chain (hdrs (g_mm w)) Hc Hlv Hnd rv bsc ble); [apply ble_refl|apply ble_trans|apply bsc_le|exact Ho|by apply Hphi|done]. }
        intros z Hz Hm.
        destruct (family_ok (hdrs (g_mm w)) Hc Hlv Hnd rv bsc ble) with (leaf := cv_bleaf rv) (o := if rv then bmax_orig else bmin_orig)
          (listed := λ t, t = if rv then TZero else TOne)
          (a := d_ar v') (df := df) (dr := dr) (r := r) (z := z) (b := default 0%Z (bsc t0)) as (s & id & Hs & Hrest); try done.
        -- apply ble_refl.
        -- apply ble_trans.
        -- apply ble_anti.
        -- apply bsc_inj.
        -- intros l n. destruct rv, l; cbn; naive_solver.
        -- intros t k Hk'. unfold lle. destruct rv, t; try done; try (by left); right; (split; [done|]); intros [] ? ? ?; done.
        -- intros t Ht. rewrite Ht0 in Ht. by injection Ht as <-.
        -- exists (cv_z s), id. destruct Hrest as (? & ? & ? & ? & ? & Hfin). sp; try done.
           ++ unfold to_zmdd. cbn [mm_with_b mm_b]. rewrite Hs. done.
           ++ intros phi Hp. apply Hfin. by apply Hphi.
      * intros phi Hp Hm. apply Hres.
        eapply (mono_chain (hdrs (g_mm w)) Hc Hlv Hnd rv bsc ble); [apply ble_refl|apply ble_trans|apply bsc_le|exact Ho|by apply Hphi|done].
Qed.
End mss.
