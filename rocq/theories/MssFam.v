(** Families held by the user of an MssMgr keep their meaning; extraction. *)
From stdpp Require Import strings.
From Verif Require Import Prelude ComputeCache Arena Bdd Mdd MtMdd MtMdd2 Zmdd ZmddAlg BssMgr MddMinsol MssConv MssMgr
  Trees ArenaProofs Keeps ArenaMore SpecBdd SpecMdd SpecZmdd SpecZmddAlg SpecBssMgr SpecMss NaryProofs MddProofs MddMain MtProofs MmProofs MmMain
  BssMgrProofs ZmddTrees ZmddProofs ZmddMain ZmddAlgProofs MssTrees MssSol MddMinsolProofs MssConvProofs MssSolMain MssMgrProofs MssMgrVar MssRpn MssSolMgr.

Notation vord hs := ((λ hd, (h_label hd, h_edges hd)) <$> hs).
Record famok (hs : list header) (z : mt) (x : zmnode) (R : option family) : Prop := {
  fo_val : node_valid (t_ar z) (zn_id x);
  fo_vars : zn_vars x `prefix_of` vord hs;
  fo_low : ∀ v n l, zmember (t_ar z) (zn_id x) v n → length (zn_vars x) ≤ l → v l = 0;
  fo_den : ∀ R', R = Some R' → ∀ v n, zmember (t_ar z) (zn_id x) v n ↔ R' v n;
}.
(** What others have pinned, each with the arena at that moment: handles inside open iterators. *)
Class qbase := QBase { qb_pins : list (arena vt * nat) }.
Definition qbase0 : qbase := QBase [].
Definition qkept (C : qbase) (a : arena vt) : Prop := ∀ a0 f, (a0, f) ∈ qb_pins → keeps a0 [f] a.
Section fam.
Context {C : qbase}.
Record qok (hs : list header) (q : zmgr) (Q : families) : Prop := {
  qk_re : zm_reachable (q_z q);
  qk_hd : ∀ hd, hd ∈ ar_headers (t_ar (q_z q)) → hmatch hs hd;
  qk_roots : ∃ l, q_roots q = roots_of l ∧ l ≡ₚ (zn_id <$> Q.*1) ++ qb_pins.*2;
  qk_fam : ∀ x R, (x, R) ∈ Q → famok hs (q_z q) x R;
  qk_base : qkept C (t_ar (q_z q));
}.

Lemma hmatch_prefix hs hs' hd : hs `prefix_of` hs' → hmatch hs hd → hmatch hs' hd.
Proof. intros [k ->] (hd' & ? & ?). exists hd'. split; [|done]. apply elem_of_app. by left. Qed.
Lemma famok_prefix hs hs' z x R : hs `prefix_of` hs' → famok hs z x R → famok hs' z x R.
Proof. intros [k ->] []. constructor; try done. etrans; [done|]. rewrite fmap_app. by apply prefix_app_r. Qed.
Lemma qok_prefix hs hs' q Q : hs `prefix_of` hs' → qok hs q Q → qok hs' q Q.
Proof.
  intros Hp []. constructor; try done.
  - intros hd Hin. eapply hmatch_prefix; eauto.
  - intros x R Hin. eapply famok_prefix; eauto.
Qed.
Lemma famok_ext hs z z' x R : zm_reachable z → ext (t_ar z) (t_ar z') → famok hs z x R → famok hs z' x R.
Proof.
  intros Hre He [Hv Hp Hlow Hden]. pose proof (zm_reachable_wf _ Hre) as Hw.
  assert (Hm : ∀ v n, zmember (t_ar z) (zn_id x) v n ↔ zmember (t_ar z') (zn_id x) v n).
  { intros v n. eapply zmem_mono; [done|apply (zmw_good _ Hw)|done]. }
  constructor; try done.
  - by eapply ext_live.
  - intros v n l Hvn%Hm. by eapply Hlow.
  - intros R' HR v n. rewrite <- Hm. by apply Hden.
Qed.
(** replacing the inner manager *)
Lemma qok_with hs q Q z : qok hs q Q → zm_reachable z → ext (t_ar (q_z q)) (t_ar z) →
  (∀ hd, hd ∈ ar_headers (t_ar z) → hmatch hs hd) → qok hs (with_z q z) Q.
Proof.
  intros [Hre Hhd Hro Hfam Hb] Hz He Hh. constructor; try done.
  - intros x R Hin. eapply famok_ext; [exact Hre|exact He|by apply Hfam].
  - intros a0 f Hf. eapply keeps_ext; [by apply Hb|exact He].
Qed.
Lemma qok_params hs q Q t f : qok hs q Q → qok hs (ZMgr (q_z q) (q_roots q) t f) Q.
Proof. by intros []. Qed.
Lemma qok_pin hs q Q x R : qok hs q Q → famok hs (q_z q) x R → qok hs (q_pin q (zn_id x)) ((x, R) :: Q).
Proof.
  intros [Hre Hhd [l [Hl Hp]] Hfam Hb] Hx. constructor; try done.
  - exists (zn_id x :: l). cbn. rewrite Hl. split; [done|]. by rewrite Hp.
  - intros y S [[= -> ->]|Hin]%elem_of_cons; [done|by apply Hfam].
Qed.
Lemma qok_drop hs q Q x R Q' : qok hs q Q → Q ≡ₚ (x, R) :: Q' → qok hs (q_drop q x) Q'.
Proof.
  intros [Hre Hhd [l [Hl Hp]] Hfam Hb] HQ. constructor; try done.
  - exists ((zn_id <$> Q'.*1) ++ qb_pins.*2). split; [|done]. cbn [q_drop q_roots]. rewrite Hl, (roots_perm l (zn_id x :: (zn_id <$> Q'.*1) ++ qb_pins.*2)).
    + apply unpin_pin.
    + rewrite Hp, HQ. done.
  - intros y S Hin. apply Hfam. rewrite HQ. by right.
Qed.
Lemma qok_maybe_gc hs q Q : qok hs q Q → ∃ q', q_maybe_gc q = Some q' ∧ qok hs q' Q.
Proof.
  intros Hq. unfold q_maybe_gc. destruct (_ <? _); [by exists q|]. pose proof Hq as [Hre Hhd [l [Hl Hp]] Hfam Hb].
  assert (Hkeys : ∀ id, id ∈ root_keys (q_roots q) ↔ (∃ x R, (x, R) ∈ Q ∧ id = zn_id x) ∨ ∃ a0, (a0, id) ∈ qb_pins).
  { intros id. rewrite Hl, root_keys_elem, Hp, elem_of_app. f_equiv.
    - split.
      + intros (x & -> & ([y R] & -> & Hy)%elem_of_list_fmap)%elem_of_list_fmap. by exists y, R.
      + intros (x & R & Hin & ->). apply elem_of_list_fmap_1, elem_of_list_fmap. by exists (x, R).
    - rewrite elem_of_list_fmap. split; [intros ([a0 g] & -> & ?); by exists a0|intros [a0 ?]; by exists (a0, id)]. }
  assert (Hroots : Forall (node_valid (t_ar (q_z q))) (root_keys (q_roots q))).
  { apply Forall_forall. intros id [(x & R & Hin & ->)|[a0 Hin]]%Hkeys; [by apply (Hfam _ _ Hin)|].
    apply (Hb _ _ Hin). constructor. by left. }
  destruct (zm_gc_l (q_z q) _ Hre Hroots) as (z & n & Heq & Hlive & Hmem & _). rewrite Heq. cbn [mbind option_bind].
  destruct (zm_gc_ok (q_z q) (root_keys (q_roots q)) (zm_reachable_wf _ Hre)) as (z1 & n1 & Heq1 & _ & Hh & Hnn & Hll & _).
  { rewrite Forall_forall in Hroots. done. }
  rewrite Heq in Heq1. injection Heq1 as <- _.
  eexists. split; [done|]. constructor; cbn [q_z q_roots].
  - eapply (zm_reachable_step _ (ZGc (root_keys (q_roots q)))); [exact Hre|done|exact Heq].
  - by rewrite Hh.
  - by exists l.
  - intros x R Hin. destruct (Hfam x R Hin) as [Hv Hpre Hlow Hden].
    assert (Hv' : node_valid (t_ar z) (zn_id x)). { apply Hlive. right. apply nrs_root, Hkeys. left. eauto. }
    constructor; try done.
    + intros v k i Hm. eapply Hlow. by apply Hmem.
    + intros R' HR v k. rewrite Hmem by done. by apply Hden.
  - intros a0 f Hin. eapply keeps_gc; [by apply Hb|done|done|]. intros id Hid. apply Hll. right.
    eapply reach_mono; [|exact Hid]. intros r ->%elem_of_list_singleton. apply Hkeys. right. by exists a0.
Qed.
Lemma qok_wrap hs q Q id rv vars R : qok hs q Q → famok hs (q_z q) (ZMNode id rv vars) R →
  ∃ q', q_wrap q id rv vars = Some (q', ZMNode id rv vars) ∧ qok hs q' ((ZMNode id rv vars, R) :: Q).
Proof.
  intros Hq Hf. unfold q_wrap. destruct (qok_maybe_gc hs (q_pin q id) ((ZMNode id rv vars, R) :: Q)) as (q' & -> & Hq').
  - by apply (qok_pin hs q Q (ZMNode id rv vars) R).
  - by exists q'.
Qed.
Lemma zm_hdrs m c m' r : zm_reachable m → zm_legal m c → (∀ l s e, c ≠ ZHeader l s e) → zm_exec m c = Some (m', r) →
  ar_headers (t_ar m') = ar_headers (t_ar m).
Proof.
  intros Hre Hl Hnh He. pose proof (zm_reachable_wf _ Hre) as Hw.
  destruct c as [l s e|z|h cs|f g|f g|f z|roots|]; cbn [zm_exec zm_legal] in *.
  - by destruct (Hnh l s e).
  - destruct (zm_value_ok m z Hw) as (m1 & r1 & E & (_ & _ & Hh) & _). rewrite E in He. by injection He as <- <-.
  - destruct (zm_node_l' m h cs Hw Hl) as (hd & m1 & r1 & _ & E & (_ & _ & Hh) & _). rewrite E in He. by injection He as <- <-.
  - destruct Hl as [Vf Vg]. destruct (zm_bin_l' ZInter m f g Hw Vf Vg) as (m1 & r1 & E & (_ & _ & Hh) & _). rewrite E in He. by injection He as <- <-.
  - destruct Hl as [Vf Vg]. destruct (zm_bin_l' ZDiff m f g Hw Vf Vg) as (m1 & r1 & E & (_ & _ & Hh) & _). rewrite E in He. by injection He as <- <-.
  - destruct (zm_base_l' m f z Hw Hl) as (m1 & r1 & E & (_ & _ & Hh) & _). rewrite E in He. by injection He as <- <-.
  - destruct (zm_gc_ok m roots Hw) as (m1 & n & E & _ & Hh & _); [by apply Forall_forall|]. rewrite E in He. by injection He as <- <-.
  - by injection He as <- <-.
Qed.
(** a call on the inner manager that returns a node over the variables of [x] *)
Lemma qok_call hs q Q c z r : qok hs q Q → zm_legal (q_z q) c → (∀ l s e, c ≠ ZHeader l s e) → (∀ roots, c ≠ ZGc roots) →
  zm_exec (q_z q) c = Some (z, r) → qok hs (with_z q z) Q.
Proof.
  intros Hq Hl Hnh Hng He. pose proof (qk_re _ _ _ Hq) as Hre. apply qok_with; [done| | |].
  - by eapply zm_reachable_step.
  - destruct (zm_exec_ok _ c (zm_reachable_wf _ Hre) Hl) as (z' & r' & He' & _ & Hx). rewrite He in He'. injection He' as <- <-.
    by apply Hx.
  - rewrite (zm_hdrs _ c z r Hre Hl Hnh He). apply Hq.
Qed.

Lemma qok_bin hs q Q (diff : bool) x R y S : qok hs q Q → (x, R) ∈ Q → (y, S) ∈ Q →
  ∃ q' r, (if diff then q_setdiff else q_intersect) q x y = Some (q', r) ∧ zn_rev r = zn_rev x ∧ zn_vars r = zn_vars x ∧
    qok hs q' ((r, R ← R; S ← S; Some (λ v z, R v z ∧ if diff then ¬ S v z else S v z)) :: Q).
Proof.
  intros Hq Hx Hy. pose proof (qk_fam _ _ _ Hq _ _ Hx) as [Vx Px Lx Dx]. pose proof (qk_fam _ _ _ Hq _ _ Hy) as [Vy Py Ly Dy].
  assert (∃ z id, (if diff then zm_setdiff else zm_intersect) (q_z q) (zn_id x) (zn_id y) = Some (z, id) ∧ node_valid (t_ar z) id ∧
    (∀ v n, zmember (t_ar z) id v n ↔ zmember (t_ar (q_z q)) (zn_id x) v n ∧
      if diff then ¬ zmember (t_ar (q_z q)) (zn_id y) v n else zmember (t_ar (q_z q)) (zn_id y) v n) ∧
    qok hs (with_z q z) Q) as (z & id & Heq & Vr & Dr & Hq').
  { destruct diff.
    - destruct (zm_diff_l (q_z q) (zn_id x) (zn_id y) (qk_re _ _ _ Hq) Vx Vy) as (z & id & Heq & ? & ?). exists z, id. sp; try done.
      eapply (qok_call hs q Q (ZSetdiff (zn_id x) (zn_id y))); done.
    - destruct (zm_inter_l (q_z q) (zn_id x) (zn_id y) (qk_re _ _ _ Hq) Vx Vy) as (z & id & Heq & ? & ?). exists z, id. sp; try done.
      eapply (qok_call hs q Q (ZIntersect (zn_id x) (zn_id y))); done. }
  destruct (qok_wrap hs (with_z q z) Q id (zn_rev x) (zn_vars x)
    (R ← R; S ← S; Some (λ v z, R v z ∧ if diff then ¬ S v z else S v z)) Hq') as (q' & Hwr & Hq'').
  { constructor; cbn [zn_id zn_vars with_z q_z]; try done.
    - intros v n l [Hm _]%Dr. by eapply Lx.
    - intros R' HR v n. destruct R as [R|]; [|done]. destruct S as [S|]; [|done]. injection HR as <-.
      rewrite (Dr v n), (Dx _ eq_refl). destruct diff; by rewrite (Dy _ eq_refl). }
  exists q', (ZMNode id (zn_rev x) (zn_vars x)). sp; [|done|done|exact Hq'']. destruct diff; unfold q_setdiff, q_intersect; rewrite Heq; cbn [mbind option_bind]; done.
Qed.

End fam.

(** ** the variables listed with a family cover its diagram *)
Lemma zreach_rank z d f id : zm_reachable z → repr (t_ar z) d f → node_reaches (t_ar z) [f] id →
  ∃ d', repr (t_ar z) d' id ∧ rank d' ≤ rank d.
Proof.
  intros Hre Hd. pose proof (zm_reachable_wf _ Hre) as Hw.
  induction 1 as [r Hr|id h cs c _ (d' & Hd' & Hk) Hn Hc].
  - apply elem_of_list_singleton in Hr as ->. by exists d.
  - destruct d' as [t|hd ds].
    + apply repr_leaf in Hd' as [_ Hn']. congruence.
    + pose proof (zm_ok _ _ _ Hw Hd') as [_ Ho]%okdd_br. apply repr_br in Hd' as [_ (h' & cs' & Hn' & _ & Hf)].
      rewrite Hn in Hn'. injection Hn' as <- <-. apply elem_of_list_lookup in Hc as [i Hi].
      destruct (Forall2_lookup_r _ _ _ _ _ Hf Hi) as (dc & Hdc & Hrc). exists dc. split; [done|].
      rewrite Forall_lookup in Ho. destruct (Ho _ _ Hdc) as [? _]. cbn [rank] in Hk. lia.
Qed.
Lemma famok_vars hs z x R : hcons hs → NoDup (h_label <$> hs) → famok hs z x R → vars_ok (zn_vars x).
Proof.
  intros Hc Hnd [_ [k Hk] _ _]. split.
  - apply (f_equal (fmap fst)) in Hk. rewrite <- list_fmap_compose, fmap_app in Hk.
    assert (Hn : NoDup (fst ∘ (λ hd, (h_label hd, h_edges hd)) <$> hs)) by exact Hnd. rewrite Hk in Hn. by apply NoDup_app in Hn as [? _].
  - apply Forall_forall. intros v Hv. assert (Hin : v ∈ vord hs) by (rewrite Hk; apply elem_of_app; by left).
    apply elem_of_list_fmap in Hin as (hd & -> & Hin). by apply Hc.
Qed.
Lemma famok_cover hs z x R : (∀ i hd, hs !! i = Some hd → h_level hd = i) → zm_reachable z →
  (∀ hd, hd ∈ ar_headers (t_ar z) → hmatch hs hd) → famok hs z x R → vars_cover (t_ar z) (zn_vars x) (zn_id x).
Proof.
  intros Hlv Hre Hh [Vx [k Hk] Hlow _] id h cs hd Hr Hn Hhd. pose proof (zm_reachable_wf _ Hre) as Hw.
  destruct (nvalid_repr _ _ _ (zmg_wf _ _ (zmw_good _ Hw)) Vx) as [d Hd].
  destruct (zreach_rank _ _ _ _ Hre Hd Hr) as (d' & Hd' & Hrk).
  assert (Hlt : h_level hd < rank d).
  { destruct d' as [t|hd' ds].
    - apply repr_leaf in Hd' as [_ Hn']. congruence.
    - apply repr_br in Hd' as [_ (h' & cs' & Hn' & Hhd' & _)]. rewrite Hn in Hn'. injection Hn' as <- <-. rewrite Hhd in Hhd'. injection Hhd' as <-.
      done. }
  assert (Hlen : rank d ≤ length (zn_vars x)).
  { destruct (decide (rank d ≤ length (zn_vars x))) as [|Hgt]; [done|]. exfalso.
    destruct (redz_member _ d (zm_ok _ _ _ Hw Hd) (zm_red _ _ _ Hw Hd)) as (v & n & Hv & Hpos); [intros ->; cbn in Hgt; lia|].
    apply (zmem_zden _ _ _ _ _ Hd) in Hv. rewrite (Hlow v n (pred (rank d)) Hv) in Hpos by lia. lia. }
  destruct (Hh hd (elem_of_list_lookup_2 _ _ _ Hhd)) as (hd0 & [i Hi]%elem_of_list_lookup & Hl & Hla & He).
  rewrite Hl, Hla, He, (Hlv _ _ Hi). rewrite Hl, (Hlv _ _ Hi) in Hlt.
  assert (Hvi : vord hs !! i = Some (h_label hd0, h_edges hd0)) by (by rewrite list_lookup_fmap, Hi).
  rewrite Hk, lookup_app_l in Hvi by lia. done.
Qed.

(** ** the calls of MssMgr *)
Section mss.
Context (I : vint) {B : mbase} {C : qbase}.
Lemma s_sol_unfold rv w q x : s_sol I rv (Mss w q) x =
  ('(m, fake) ← s_inner I rv (g_mm w) x;
   vars ← g_varorder (with_mm w m);
   baseline ← eval_extreme m x rv;
   match fake with
   | None => Some (Mss (with_mm w m) q, None)
   | Some f => '(q, r) ← q_convert q m f rv vars baseline; Some (Mss (with_mm w m) q, Some r)
   end).
Proof. by destruct rv. Qed.

Lemma s_sol_ok rv w q H Q x F : gok I w H → qok (hdrs (g_mm w)) q Q → (x, Some F) ∈ H →
  match g_varorder w with
  | None => s_sol I rv (Mss w q) x = None
  | Some vars => ∃ w' q' r, s_sol I rv (Mss w q) x = Some (Mss w' q', r) ∧ gok I w' H ∧ hdrs (g_mm w') = hdrs (g_mm w) ∧
      g_varorder w' = Some vars ∧
      match r with
      | None => q' = q ∧ ∀ phi, is_phi vars F phi → ¬ monotone vars phi
      | Some p => zn_rev p = rv ∧ zn_vars p = vars ∧ (∀ phi, is_phi vars F phi → monotone vars phi) ∧
          ∀ R, (∀ R', R = Some R' → ∃ phi, is_phi vars F phi ∧ R' = extremal rv vars phi) →
            qok (hdrs (g_mm w)) q' ((p, R) :: Q)
      end
  end.
Proof.
  intros Hk Hq Hx. destruct (inner_ok I rv w H x F Hk Hx) as (m' & fake & b & Hin & Hst & Hb & Hpost).
  pose proof (gok_step I w H m' Hk Hst) as Hk'. assert (Hh : hdrs m' = hdrs (g_mm w)) by apply Hst.
  rewrite s_sol_unfold, Hin. cbn [mbind option_bind].
  destruct (g_varorder w) as [vars|] eqn:Hvo.
  - destruct (varorder_some I w H vars Hk Hvo) as [-> H2].
    assert (Hvo' : g_varorder (with_mm w m') = Some (vorder (g_mm w))).
    { rewrite (varorder_ok I (with_mm w m') H Hk'); cbn [with_mm g_mm]; [|by rewrite Hh]. unfold vorder. by rewrite Hh. }
    rewrite Hvo', Hb. cbn [mbind option_bind]. destruct fake as [f|].
    + destruct Hpost as [Hmono Hconv].
      destruct (Hconv (q_z q) (qk_re _ _ _ Hq) (qk_hd _ _ _ Hq)) as (z & id & Hz & Hrz & Hez & Hhz & Vz & Lz & Dz).
      pose proof (qok_with _ q Q z Hq Hrz Hez Hhz) as Hq1.
      destruct (zm_base_l z id b Hrz Vz) as (z2 & id2 & Hb2 & V2 & D2).
      pose proof (qok_call _ (with_z q z) Q (ZBaseline id b) z2 id2 Hq1 Vz ltac:(done) ltac:(done) Hb2) as Hq2.
      assert (Hfam : ∀ R, (∀ R', R = Some R' → ∃ phi, is_phi (vorder (g_mm w)) F phi ∧ R' = extremal rv (vorder (g_mm w)) phi) →
         famok (hdrs (g_mm w)) z2 (ZMNode id2 rv (vorder (g_mm w))) R).
      { intros R HR. constructor; cbn [zn_id zn_vars].
        - done.
        - done.
        - intros v n l [Hm|(Hz0 & _)]%D2 Hl; [|done]. eapply Lz; [done|]. unfold vorder in Hl. by rewrite fmap_length in Hl.
        - intros R' HR' v n. destruct (HR R' HR') as (phi & Hp & ->). rewrite (D2 v n). by apply Dz. }
      destruct (qok_wrap _ (with_z (with_z q z) z2) Q id2 rv (vorder (g_mm w)) None Hq2) as (q3 & Hw3 & _).
      { apply Hfam. done. }
      exists (with_mm w m'), q3, (Some (ZMNode id2 rv (vorder (g_mm w)))). sp; try done.
      * unfold q_convert. rewrite Hz. cbn [mbind option_bind]. rewrite Hb2. cbn [mbind option_bind].
        change (with_z q z2) with (with_z (with_z q z) z2). rewrite Hw3. done.
      * intros R HR. destruct (qok_wrap _ (with_z (with_z q z) z2) Q id2 rv (vorder (g_mm w)) R Hq2) as (q4 & Hw4 & Hq4); [by apply Hfam|].
        rewrite Hw3 in Hw4. by injection Hw4 as <-.
    + exists (with_mm w m'), q, None. sp; done.
  - destruct (g_varorder (with_mm w m')) as [vars|] eqn:Hvo'; [|done].
    destruct (varorder_some I _ H vars Hk' Hvo') as [_ H2]. cbn [with_mm g_mm] in H2. rewrite Hh in H2.
    rewrite (varorder_ok I w H Hk H2) in Hvo. done.
Qed.

Lemma mss_step_ok s H Q s' H' Q' : gok I (s_m s) H → qok (hdrs (g_mm (s_m s))) (s_z s) Q → mss_step I s H Q s' H' Q' →
  gok I (s_m s') H' ∧ qok (hdrs (g_mm (s_m s'))) (s_z s') Q' ∧ prefix (hdrs (g_mm (s_m s))) (hdrs (g_mm (s_m s'))).
Proof.
  intros Hk Hq. destruct 1 as [w q H Q w' H' Hst|rv [w q] H Q x F s' Hx Hs|rv [w q] H Q x F s' r R Hx Hs HR
    |w q H Q x R y S q' r Hx Hy Hs|w q H Q x R y S q' r Hx Hy Hs|w q H Q x R Hx|w q H Q x R Q' Hx|[w q] H Q]; cbn [s_m s_z] in *.
  - destruct (step_gok I w H w' H' Hk Hst) as [Hk' Hp]. split; [done|]. split; [|done]. by eapply qok_prefix.
  - pose proof (s_sol_ok rv w q H Q x F Hk Hq Hx) as Ho. destruct (g_varorder w) as [vars|]; [|congruence].
    destruct Ho as (w' & q' & r & Heq & Hk' & Hh & _ & Hr). rewrite Hs in Heq. injection Heq as -> <-. destruct Hr as [-> _].
    cbn [s_m s_z]. by rewrite Hh.
  - pose proof (s_sol_ok rv w q H Q x F Hk Hq Hx) as Ho. destruct (g_varorder w) as [vars|] eqn:Hvo; [|congruence].
    destruct Ho as (w' & q' & r' & Heq & Hk' & Hh & _ & Hr). rewrite Hs in Heq. injection Heq as -> <-. destruct Hr as (_ & _ & _ & Hr).
    cbn [s_m s_z]. rewrite Hh. split; [done|]. split; [|done]. apply Hr. intros R' HR'. destruct (HR R' HR') as (vars' & phi & Hv & Hp & ->).
    injection Hv as ->. by exists phi.
  - split; [done|]. split; [|done]. destruct (qok_bin _ q Q false x R y S Hq Hx Hy) as (q1 & r1 & Heq & _ & _ & Hq'). rewrite Hs in Heq. injection Heq as <- <-. done.
  - split; [done|]. split; [|done]. destruct (qok_bin _ q Q true x R y S Hq Hx Hy) as (q1 & r1 & Heq & _ & _ & Hq'). rewrite Hs in Heq. injection Heq as <- <-. done.
  - split; [done|]. split; [|done]. apply qok_pin; [done|]. by apply Hq.
  - split; [done|]. split; [|done]. by eapply qok_drop.
  - split; [|split; [|done]].
    + destruct (step_gok I w H (g_clear_cache w) H Hk (ds_clear _ _ _)) as [? _]. done.
    + change (hdrs (g_mm (g_clear_cache w))) with (hdrs (g_mm w)).
      exact (qok_call _ q Q ZClear (zm_clear_cache (q_z q)) 0 Hq Logic.I ltac:(done) ltac:(done) eq_refl).
Qed.
End mss.

Lemma qok_new hs : @qok qbase0 hs q_new [].
Proof.
  constructor; cbn.
  - by exists [].
  - intros hd Hin. by apply elem_of_nil in Hin.
  - by exists [].
  - intros x R Hin. by apply elem_of_nil in Hin.
  - intros a0 f Hin. by apply elem_of_nil in Hin.
Qed.
Section held.
Context (I : vint).
#[local] Existing Instance mbase0.
#[local] Existing Instance qbase0.
Lemma mss_held_ok s H Q : mss_held I s H Q → gok I (s_m s) H ∧ qok (hdrs (g_mm (s_m s))) (s_z s) Q.
Proof.
  induction 1 as [|s H Q s' H' Q' _ [Hk Hq] Hst]; [split; [apply gok_new|apply qok_new]|].
  destruct (mss_step_ok I s H Q s' H' Q' Hk Hq Hst) as (? & ? & _). done.
Qed.
(** the steps, one by one *)
Lemma ms_mdd w q H Q w' H' : mss_held I (Mss w q) H Q → mdd_step I w H w' H' → mss_held I (Mss w' q) H' Q.
Proof. intros Hh Hs. eapply ms_step; [exact Hh|]. by constructor. Qed.
Lemma ms_none rev s H Q x F s' : mss_held I s H Q → (x, Some F) ∈ H → s_sol I rev s x = Some (s', None) → mss_held I s' H Q.
Proof. intros Hh Hx Hs. eapply ms_step; [exact Hh|]. by eapply qs_none. Qed.
Lemma ms_sol rev s H Q x F s' r R : mss_held I s H Q → (x, Some F) ∈ H → s_sol I rev s x = Some (s', Some r) →
  (∀ R', R = Some R' → ∃ vars phi, g_varorder (s_m s) = Some vars ∧ is_phi vars F phi ∧ R' = extremal rev vars phi) →
  mss_held I s' H ((r, R) :: Q).
Proof. intros Hh Hx Hs HR. eapply ms_step; [exact Hh|]. by eapply qs_sol. Qed.
Lemma ms_intersect w q H Q x R y S q' r : mss_held I (Mss w q) H Q → (x, R) ∈ Q → (y, S) ∈ Q → q_intersect q x y = Some (q', r) →
  mss_held I (Mss w q') H ((r, R ← R; S ← S; Some (λ v z, R v z ∧ S v z)) :: Q).
Proof. intros Hh Hx Hy Hs. eapply ms_step; [exact Hh|]. by eapply qs_intersect. Qed.
Lemma ms_setdiff w q H Q x R y S q' r : mss_held I (Mss w q) H Q → (x, R) ∈ Q → (y, S) ∈ Q → q_setdiff q x y = Some (q', r) →
  mss_held I (Mss w q') H ((r, R ← R; S ← S; Some (λ v z, R v z ∧ ¬ S v z)) :: Q).
Proof. intros Hh Hx Hy Hs. eapply ms_step; [exact Hh|]. by eapply qs_setdiff. Qed.
End held.
