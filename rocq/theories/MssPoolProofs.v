(** An MssMgr given nodes of other managers with the same variables. *)
From stdpp Require Import strings.
From Verif Require Import Prelude ComputeCache Arena Bdd Mdd MtMdd MtMdd2 Zmdd ZmddAlg BssMgr MddMinsol MssConv MssMgr MssPool
  Trees ArenaProofs Keeps ArenaMore SpecBdd SpecMdd SpecZmdd SpecZmddAlg SpecBssMgr SpecMss SpecMssPool
  NaryProofs MddProofs MddMain MtProofs MmProofs MmMain BssMgrProofs ZmddTrees ZmddProofs ZmddMain ZmddAlgProofs
  MssTrees MssSol MddMinsolProofs MssConvProofs MssSolMain MssMgrProofs MssMgrVar MssRpn MssSolMgr MssFam MssExtract.

(** headers matter by level, label and number of states *)
Lemma hmatch_vord hs hs' hd : (∀ i h, hs !! i = Some h → h_level h = i) → (∀ i h, hs' !! i = Some h → h_level h = i) →
  vord hs = vord hs' → hmatch hs hd → hmatch hs' hd.
Proof.
  intros Hl Hl' Heq (h & Hin & Hm). apply elem_of_list_lookup in Hin as [i Hi].
  assert (Hv : vord hs' !! i = Some (h_label h, h_edges h)) by (by rewrite <- Heq, list_lookup_fmap, Hi).
  rewrite list_lookup_fmap in Hv. destruct (hs' !! i) as [h'|] eqn:Hi'; [|done]. injection Hv as Hv1 Hv2.
  exists h'. split; [by eapply elem_of_list_lookup_2|]. pose proof (Hl _ _ Hi). pose proof (Hl' _ _ Hi').
  destruct Hm as (? & ? & ?). sp; congruence.
Qed.

Section pool.
Context (I : vint).
#[local] Existing Instance mbase0.
#[local] Existing Instance qbase0.

Lemma sol_of_none rv w q v HV x F s' m : gok I v HV → (x, Some F) ∈ HV →
  s_sol_of I rv (Mss w q) (g_mm v) x = Some (s', m, None) →
  s' = Mss w q ∧ gok I (with_mm v m) HV ∧ hdrs m = hdrs (g_mm v).
Proof.
  intros Hv Hx Hs. destruct (inner_ok I rv v HV x F Hv Hx) as (m' & fake & b & Hin & Hst & _).
  unfold s_sol_of in Hs. unfold s_inner in Hin. rewrite Hin in Hs. cbn [mbind option_bind s_m s_z] in Hs.
  destruct (g_varorder w) as [vars|]; [|done]. cbn [mbind option_bind] in Hs.
  destruct (eval_extreme _ x _) as [b'|]; [|done]. cbn [mbind option_bind] in Hs. destruct fake as [f|].
  - destruct (q_convert _ _ f _ _ b') as [[??]|]; done.
  - injection Hs as <- <-. sp; [done|by apply gok_step|apply Hst].
Qed.

Lemma sol_of_ok rv w q H Q v HV x F vars : gok I w H → qok (hdrs (g_mm w)) q Q → gok I v HV → (x, Some F) ∈ HV →
  g_varorder w = Some vars → g_varorder v = Some vars →
  ∃ q' m r, s_sol_of I rv (Mss w q) (g_mm v) x = Some (Mss w q', m, r) ∧ gok I (with_mm v m) HV ∧
    match r with
    | None => q' = q ∧ ∀ phi, is_phi vars F phi → ¬ monotone vars phi
    | Some p => zn_rev p = rv ∧ zn_vars p = vars ∧ (∀ phi, is_phi vars F phi → monotone vars phi) ∧
        ∀ R, (∀ R', R = Some R' → ∃ phi, is_phi vars F phi ∧ R' = extremal rv vars phi) → qok (hdrs (g_mm w)) q' ((p, R) :: Q)
    end.
Proof.
  intros Hk Hq Hv Hx Hvw Hvv. destruct (inner_ok I rv v HV x F Hv Hx) as (m' & fake & b & Hin & Hst & Hb & Hpost).
  pose proof (gok_step I v HV m' Hv Hst) as Hv'.
  destruct (varorder_some I w H vars Hk Hvw) as [Ew _]. destruct (varorder_some I v HV vars Hv Hvv) as [Ev _].
  assert (Hvo : vord (hdrs (g_mm v)) = vord (hdrs (g_mm w))) by (unfold vorder in Ew, Ev; congruence).
  assert (Hto : ∀ hd, hmatch (hdrs (g_mm v)) hd → hmatch (hdrs (g_mm w)) hd).
  { intros hd. apply hmatch_vord; [apply (gk_lvl _ _ _ Hv)|apply (gk_lvl _ _ _ Hk)|done]. }
  assert (Hof : ∀ hd, hmatch (hdrs (g_mm w)) hd → hmatch (hdrs (g_mm v)) hd).
  { intros hd. apply hmatch_vord; [apply (gk_lvl _ _ _ Hk)|apply (gk_lvl _ _ _ Hv)|done]. }
  assert (Hlen : length (hdrs (g_mm v)) = length vars) by (rewrite Ev; unfold vorder; by rewrite fmap_length).
  unfold s_sol_of. unfold s_inner in Hin. rewrite Hin. cbn [mbind option_bind s_m s_z]. rewrite Hvw. cbn [mbind option_bind].
  rewrite Hb. cbn [mbind option_bind]. destruct fake as [f|]; cycle 1.
  { exists q, m', None. sp; [done|done|done|]. rewrite Ev. exact Hpost. }
  unfold inner_post in Hpost. rewrite <- Ev in Hpost. destruct Hpost as [Hmono Hconv].
  destruct (Hconv (q_z q) (qk_re _ _ _ Hq)) as (z & id & Hz & Hrz & Hez & Hhz & Vz & Lz & Dz).
  { intros hd Hd. by apply Hof, (qk_hd _ _ _ Hq). }
  assert (Hhz' : ∀ hd, hd ∈ ar_headers (t_ar z) → hmatch (hdrs (g_mm w)) hd) by eauto.
  pose proof (qok_with _ q Q z Hq Hrz Hez Hhz') as Hq1.
  destruct (zm_base_l z id b Hrz Vz) as (z2 & id2 & Hb2 & V2 & D2).
  pose proof (qok_call _ (with_z q z) Q (ZBaseline id b) z2 id2 Hq1 Vz ltac:(done) ltac:(done) Hb2) as Hq2.
  assert (Hfam : ∀ R, (∀ R', R = Some R' → ∃ phi, is_phi vars F phi ∧ R' = extremal rv vars phi) →
     famok (hdrs (g_mm w)) z2 (ZMNode id2 rv vars) R).
  { intros R HR. constructor; cbn [zn_id zn_vars].
    - done.
    - rewrite Ew. done.
    - intros y n l [Hm|(Hz0 & _)]%D2 Hl; [|done]. eapply Lz; [done|]. by rewrite Hlen.
    - intros R' HR' y n. destruct (HR R' HR') as (phi & Hp & ->). rewrite (D2 y n). by apply Dz. }
  destruct (qok_wrap _ (with_z (with_z q z) z2) Q id2 rv vars None Hq2) as (q3 & Hw3 & _).
  { apply Hfam. done. }
  exists q3, m', (Some (ZMNode id2 rv vars)). sp; try done.
  - unfold q_convert. rewrite Hz. cbn [mbind option_bind]. rewrite Hb2. cbn [mbind option_bind].
    change (with_z q z2) with (with_z (with_z q z) z2). rewrite Hw3. done.
  - intros R HR. destruct (qok_wrap _ (with_z (with_z q z) z2) Q id2 rv vars R Hq2) as (q4 & Hw4 & Hq4); [by apply Hfam|].
    rewrite Hw3 in Hw4. by injection Hw4 as <-.
Qed.

Lemma sol_of_frame rv s src x s' m r : s_sol_of I rv s src x = Some (s', m, r) → s_m s' = s_m s ∧
  ∀ p, r = Some p → zn_rev p = rv ∧ g_varorder (s_m s) = Some (zn_vars p).
Proof.
  unfold s_sol_of, q_convert, q_wrap. intros Hs. destruct s as [w q].
  destruct ((if rv then _ else _) src x) as [[m' fake]|]; [|done]. cbn [mbind option_bind s_m s_z] in *.
  destruct (g_varorder w) as [vars|]; [|done]. cbn [mbind option_bind] in Hs.
  destruct (eval_extreme _ x _) as [b|]; [|done]. cbn [mbind option_bind] in Hs. destruct fake as [f|].
  - destruct (to_zmdd _ f _ _) as [[z id]|]; [|done]. cbn [mbind option_bind] in Hs.
    destruct (zm_set_baseline z id b) as [[z2 id2]|]; [|done]. cbn [mbind option_bind] in Hs.
    destruct (q_maybe_gc _) as [q'|]; [|done]. cbn [mbind option_bind] in Hs. injection Hs as <- <- <-.
    split; [done|]. intros p [= <-]. done.
  - injection Hs as <- <- <-. done.
Qed.

Definition srcs_ok (P : list (mmgr * handles)) : Prop := ∀ i w HW, P !! i = Some (w, HW) → gok I w HW.
Lemma srcs_insert P i w HW : srcs_ok P → gok I w HW → srcs_ok (<[i := (w, HW)]> P).
Proof.
  intros HP Hw j v HV [(_ & Heq & _)|[_ Hj]]%list_lookup_insert_Some; [by injection Heq as <- <-|by eapply HP].
Qed.
Lemma mpool_ok P s H Q : mpool_held I P s H Q →
  srcs_ok P ∧ gok I (s_m s) H ∧ qok (hdrs (g_mm (s_m s))) (s_z s) Q.
Proof.
  induction 1 as [|P s H Q _ (HP & Hk & Hq)|P s H Q i w HW w' HW' _ (HP & Hk & Hq) Hi Hst|P s H Q s' H' Q' _ (HP & Hk & Hq) Hst
    |rv P [w0 q0] H Q i w HW x F s' m _ (HP & Hk & Hq) Hi Hx Hs|rv P [w0 q0] H Q i w HW x F s' m r R _ (HP & Hk & Hq) Hi Hx Hvo Hs HR].
  - split; [|split; [apply gok_new|apply qok_new]]. intros i w HW Hi. done.
  - split; [|done]. intros i w HW [Hi|[_ Hi]]%lookup_app_Some; [by eapply HP|].
    apply list_lookup_singleton_Some in Hi as [_ Heq]. injection Heq as <- <-. apply gok_new.
  - split; [|done]. apply srcs_insert; [done|]. by destruct (step_gok I w HW w' HW' (HP _ _ _ Hi) Hst).
  - split; [done|]. destruct (mss_step_ok I s H Q s' H' Q' Hk Hq Hst) as (? & ? & _). done.
  - destruct (sol_of_none rv w0 q0 w HW x F s' m (HP _ _ _ Hi) Hx Hs) as (-> & Hg & _).
    split; [by apply srcs_insert|done].
  - cbn [s_m s_z] in *. destruct (g_varorder w0) as [vars|] eqn:Hvw; cycle 1.
    { unfold s_sol_of in Hs. destruct ((if rv then mdd_maxsol I else mdd_minsol I) (g_mm w) x) as [[??]|]; [|done].
      cbn [mbind option_bind s_m] in Hs. rewrite Hvw in Hs. done. }
    destruct (sol_of_ok rv w0 q0 H Q w HW x F vars Hk Hq (HP _ _ _ Hi) Hx Hvw Hvo) as (q' & m' & r' & Heq & Hg & Hr).
    rewrite Hs in Heq. injection Heq as -> <- <-. cbn [s_m s_z]. split; [by apply srcs_insert|]. split; [done|].
    destruct Hr as (_ & _ & _ & Hr). apply Hr. intros R' HR'. destruct (HR R' HR') as (vars' & phi & Hv' & Hp & ->).
    rewrite Hvo in Hv'. injection Hv' as <-. by exists phi.
Qed.

Lemma mpool_fam P s H Q p phi : mpool_held I P s H Q → (p, Some (extremal (zn_rev p) (zn_vars p) phi)) ∈ Q →
  zm_reachable (q_z (s_z s)) ∧ node_valid (t_ar (q_z (s_z s))) (zn_id p) ∧ vars_ok (zn_vars p) ∧
  vars_cover (t_ar (q_z (s_z s))) (zn_vars p) (zn_id p) ∧
  ∀ x z, zmember (t_ar (q_z (s_z s))) (zn_id p) x z ↔ extremal (zn_rev p) (zn_vars p) phi x z.
Proof.
  intros (_ & Hk & Hq)%mpool_ok Hp. pose proof (qk_fam _ _ _ Hq _ _ Hp) as Hf. sp.
  - apply Hq.
  - apply Hf.
  - eapply famok_vars; [apply (gok_hc I _ _ Hk)|apply (gk_nodup _ _ _ Hk)|done].
  - eapply famok_cover; [apply (gk_lvl _ _ _ Hk)|apply Hq|apply Hq|done].
  - by apply Hf.
Qed.
Lemma mpool_lists P s H Q p phi ss : mpool_held I P s H Q → (p, Some (extremal (zn_rev p) (zn_vars p) phi)) ∈ Q →
  ∃ L k, NoDup L ∧ (∀ M, M ∈ L ↔ ∃ v, v ∈ ss ∧ lists (zn_rev p) (zn_vars p) phi v M) ∧
    (∀ fuel, k ≤ fuel → zm_extract fuel (q_z (s_z s)) ss p = Some L) ∧
    zm_count (q_z (s_z s)) ss (zn_id p) = Some (N.of_nat (length L)).
Proof.
  intros Hh Hp. destruct (mpool_fam P s H Q p phi Hh Hp) as (Hre & Hv & Hok & Hcov & Hden).
  destruct p as [f rv vars]. cbn [zn_id zn_rev zn_vars] in *.
  destruct (fam_extract vars Hok rv _ f Hre Hv Hcov phi Hden ss) as (L & k & Hnd & Hin & Hex). exists L, k. sp; try apply Hex; [done|].
  intros M. rewrite Hin. unfold lists. naive_solver.
Qed.
Lemma mpool_levels P s H Q p phi v : mpool_held I P s H Q → (p, Some (extremal (zn_rev p) (zn_vars p) phi)) ∈ Q →
  ∃ L k, NoDup L ∧
    (∀ M, M ∈ L ↔ ∃ e, M = dense (zn_vars p) e ∧
       if zn_rev p then maximal (zn_vars p) (λ e, phi e <= v)%Z e else minimal (zn_vars p) (λ e, v <= phi e)%Z e) ∧
    ∀ fuel, k ≤ fuel → zm_extract_level fuel (q_z (s_z s)) v p = Some L.
Proof.
  intros Hh Hp. destruct (mpool_fam P s H Q p phi Hh Hp) as (Hre & Hv & Hok & Hcov & Hden).
  destruct p as [f rv vars]. cbn [zn_id zn_rev zn_vars] in *.
  destruct (fam_level vars Hok rv _ f Hre Hv Hcov phi Hden v) as (L & k & Hnd & Hin & Hex). exists L, k. sp; try done.
  intros M. rewrite Hin. destruct rv; split; intros (e & ? & ?); by exists e.
Qed.

Lemma mpool_sol rv P s H Q i w HW x F vars phi : mpool_held I P s H Q → P !! i = Some (w, HW) → (x, Some F) ∈ HW →
  g_varorder w = Some vars → g_varorder (s_m s) = Some vars → is_phi vars F phi →
  ∃ s' m r, s_sol_of I rv s (g_mm w) x = Some (s', m, r) ∧ (r = None ↔ ¬ monotone vars phi) ∧
    ∀ p, r = Some p →
      mpool_held I (<[i := (with_mm w m, HW)]> P) s' H ((p, Some (extremal rv vars phi)) :: Q) ∧
      ∀ ss, ∃ L k, NoDup L ∧ (∀ M, M ∈ L ↔ ∃ v, v ∈ ss ∧ lists rv vars phi v M) ∧
        (∀ fuel, k ≤ fuel → zm_extract fuel (q_z (s_z s')) ss p = Some L) ∧
        zm_count (q_z (s_z s')) ss (zn_id p) = Some (N.of_nat (length L)).
Proof.
  intros Hh Hi Hx Hvw Hvs Hphi. destruct (mpool_ok _ _ _ _ Hh) as (HP & Hk & Hq). destruct s as [w0 q0]. cbn [s_m s_z] in *.
  destruct (sol_of_ok rv w0 q0 H Q w HW x F vars Hk Hq (HP _ _ _ Hi) Hx Hvs Hvw) as (q' & m & r & Heq & _ & Hr).
  exists (Mss w0 q'), m, r. sp; [done| |].
  - destruct r as [p|]; [|split; [intros _; by apply Hr|done]]. split; [done|]. intros Hn. destruct Hr as (_ & _ & Hm & _).
    by destruct (Hn (Hm _ Hphi)).
  - intros p ->. destruct Hr as (Hrev & Hvars & _ & _).
    assert (Hh' : mpool_held I (<[i := (with_mm w m, HW)]> P) (Mss w0 q') H ((p, Some (extremal rv vars phi)) :: Q)).
    { eapply (mp_sol I rv); [exact Hh|exact Hi|exact Hx| |exact Heq|].
      - cbn [s_m]. congruence.
      - intros R' [= <-]. by exists vars, phi. }
    split; [done|]. intros ss. pose proof (mpool_lists _ _ _ _ p phi ss Hh') as Hl. rewrite Hrev, Hvars in Hl. apply Hl. by left.
Qed.
Lemma mpool_value P s H Q i w HW x F : mpool_held I P s H Q → P !! i = Some (w, HW) → (x, Some F) ∈ HW →
  mm_valid (g_mm w) x ∧ ∀ e, mrange (g_mm w) e → mvalue (g_mm w) e x (F e).
Proof. intros (HP & _)%mpool_ok Hi Hx. destruct (gk_held _ _ _ (HP _ _ _ Hi) _ _ Hx) as [? Hd]. split; [done|]. by apply Hd. Qed.
Lemma mpool_value_own P s H Q x F : mpool_held I P s H Q → (x, Some F) ∈ H →
  mm_valid (g_mm (s_m s)) x ∧ ∀ e, mrange (g_mm (s_m s)) e → mvalue (g_mm (s_m s)) e x (F e).
Proof. intros (_ & Hk & _)%mpool_ok Hx. destruct (gk_held _ _ _ Hk _ _ Hx) as [? Hd]. split; [done|]. by apply Hd. Qed.
(** on nodes of the MssMgr's own manager this is the call modelled before *)
Lemma sol_of_own rv s H Q x F : mss_held I s H Q → (x, Some F) ∈ H →
  s_sol I rv s x = ('(s', m, r) ← s_sol_of I rv s (g_mm (s_m s)) x; Some (Mss (with_mm (s_m s) m) (s_z s'), r)).
Proof.
  intros [Hk _]%mss_held_ok Hx. destruct s as [w q]. cbn [s_m s_z] in *.
  destruct (inner_ok I rv w H x F Hk Hx) as (m' & fake & b & Hin & Hst & Hb & _).
  pose proof (gok_step I w H m' Hk Hst) as Hk'. assert (Hh : hdrs m' = hdrs (g_mm w)) by apply Hst.
  assert (Hvo : g_varorder (with_mm w m') = g_varorder w).
  { destruct (g_varorder w) as [vars|] eqn:Hvo.
    - destruct (varorder_some I w H vars Hk Hvo) as [-> H2].
      rewrite (varorder_ok I (with_mm w m') H Hk'); cbn [with_mm g_mm]; [|by rewrite Hh]. unfold vorder. by rewrite Hh.
    - destruct (g_varorder (with_mm w m')) as [vars|] eqn:Hvo'; [|done].
      destruct (varorder_some I _ H vars Hk' Hvo') as [_ H2]. cbn [with_mm g_mm] in H2. rewrite Hh in H2.
      rewrite (varorder_ok I w H Hk H2) in Hvo. done. }
  rewrite s_sol_unfold. unfold s_sol_of. unfold s_inner in Hin |- *. rewrite Hin. cbn [mbind option_bind s_m s_z]. rewrite Hvo.
  destruct (g_varorder w) as [vars|]; [|done]. cbn [mbind option_bind]. rewrite Hb. cbn [mbind option_bind].
  destruct fake as [f|]; [|done]. by destruct (q_convert q m' f rv vars b) as [[??]|].
Qed.

(** combinations of two families, whatever managers they came from *)
Lemma mpool_famr P s H Q p R : mpool_held I P s H Q → (p, R) ∈ Q →
  zm_reachable (q_z (s_z s)) ∧ node_valid (t_ar (q_z (s_z s))) (zn_id p) ∧ vars_ok (zn_vars p) ∧
  vars_cover (t_ar (q_z (s_z s))) (zn_vars p) (zn_id p) ∧
  ∀ R', R = Some R' → ∀ x z, zmember (t_ar (q_z (s_z s))) (zn_id p) x z ↔ R' x z.
Proof.
  intros (_ & Hk & Hq)%mpool_ok Hp. pose proof (qk_fam _ _ _ Hq _ _ Hp) as Hf. sp.
  - apply Hq.
  - apply Hf.
  - eapply famok_vars; [apply (gok_hc I _ _ Hk)|apply (gk_nodup _ _ _ Hk)|done].
  - eapply famok_cover; [apply (gk_lvl _ _ _ Hk)|apply Hq|apply Hq|done].
  - apply Hf.
Qed.
Lemma mpool_members P s H Q p R ss : mpool_held I P s H Q → (p, Some R) ∈ Q →
  ∃ L k0, NoDup L ∧
    (∀ M, M ∈ L ↔ ∃ y v, length y = length (zn_vars p) ∧ v ∈ ss ∧ R (vec y) v ∧ M = report (zn_rev p) (zn_vars p) y) ∧
    (∀ fuel, k0 ≤ fuel → zm_extract fuel (q_z (s_z s)) ss p = Some L) ∧
    zm_count (q_z (s_z s)) ss (zn_id p) = Some (N.of_nat (length L)).
Proof.
  intros Hh Hp. destruct (mpool_famr P s H Q p _ Hh Hp) as (Hre & Hv & Hok & Hcov & Hden). specialize (Hden _ eq_refl).
  destruct p as [f rv vars]. cbn [zn_id zn_rev zn_vars] in *.
  destruct (zm_extract_l _ ss f rv vars Hre Hv Hok Hcov) as (Ls & k0 & _ & Hnd & _ & Hin & Hex & Hct).
  exists (map (report rv vars) Ls), k0. rewrite map_length. sp; try done.
  intros M. change (map ?g ?l) with (g <$> l). rewrite elem_of_list_fmap. split.
  - intros (y & -> & (Hl & z & Hz & Hm)%Hin). exists y, z. sp; try done. by apply Hden.
  - intros (y & z & Hl & Hz & HR & ->). exists y. split; [done|]. apply Hin. split; [done|]. exists z. split; [done|]. by apply Hden.
Qed.
Lemma mpool_comb P s H Q p phi psi (diff : bool) ss : mpool_held I P s H Q →
  (p, Some (λ x z, extremal (zn_rev p) (zn_vars p) phi x z ∧
       if diff then ¬ extremal (zn_rev p) (zn_vars p) psi x z else extremal (zn_rev p) (zn_vars p) psi x z)) ∈ Q →
  ∃ L k0, NoDup L ∧
    (∀ M, M ∈ L ↔ ∃ v, v ∈ ss ∧ lists (zn_rev p) (zn_vars p) phi v M ∧
       if diff then ¬ lists (zn_rev p) (zn_vars p) psi v M else lists (zn_rev p) (zn_vars p) psi v M) ∧
    (∀ fuel, k0 ≤ fuel → zm_extract fuel (q_z (s_z s)) ss p = Some L) ∧
    zm_count (q_z (s_z s)) ss (zn_id p) = Some (N.of_nat (length L)).
Proof.
  intros Hh Hp. destruct (mpool_famr P s H Q p _ Hh Hp) as (_ & _ & Hok & _ & _).
  destruct (mpool_members P s H Q p _ ss Hh Hp) as (L & k0 & Hnd & Hin & Hex). exists L, k0. sp; try apply Hex; [done|].
  intros M. rewrite Hin. clear Hin Hex. split.
  - intros (y & v & Hl & Hv & [H1 H2] & ->). exists v. sp; [done|by apply lists_iff|].
    destruct diff; [|by apply lists_iff]. intros Hc. apply H2. eapply lists_vec; [done|done|exact Hc|done|].
    destruct H1 as (e & He & Hx). exists e. split; [by apply ext_iff in He as [? _]|]. by apply vec_olist.
  - intros (v & Hv & H1 & H2). pose proof H1 as (e & He & HM). assert (Hst : states (zn_vars p) e) by by apply ext_iff in He as [? _].
    exists (olist (zn_vars p) (zn_rev p) e), v. assert (M = report (zn_rev p) (zn_vars p) (olist (zn_vars p) (zn_rev p) e)) as HM'
      by by rewrite olist_report. sp; [apply olist_length|done| |destruct diff|done].
    + eapply lists_vec; [done|apply olist_length|exact H1|done|by exists e].
    + intros Hc. apply H2. rewrite HM'. apply lists_iff; [done|apply olist_length|done].
    + eapply lists_vec; [done|apply olist_length|exact H2|done|by exists e].
Qed.
Lemma mpool_bin P s H Q p q phi psi (diff : bool) ss : mpool_held I P s H Q →
  zn_rev q = zn_rev p → zn_vars q = zn_vars p →
  (p, Some (extremal (zn_rev p) (zn_vars p) phi)) ∈ Q → (q, Some (extremal (zn_rev q) (zn_vars q) psi)) ∈ Q →
  ∃ z' r, (if diff then q_setdiff else q_intersect) (s_z s) p q = Some (z', r) ∧
    ∃ L k0, NoDup L ∧
    (∀ M, M ∈ L ↔ ∃ v, v ∈ ss ∧ lists (zn_rev p) (zn_vars p) phi v M ∧
       if diff then ¬ lists (zn_rev p) (zn_vars p) psi v M else lists (zn_rev p) (zn_vars p) psi v M) ∧
    (∀ fuel, k0 ≤ fuel → zm_extract fuel (q_z z') ss r = Some L) ∧
    zm_count (q_z z') ss (zn_id r) = Some (N.of_nat (length L)).
Proof.
  intros Hh Hr Hv Hp Hq. destruct (mpool_ok _ _ _ _ Hh) as (_ & _ & Hk). destruct s as [w z]. cbn [s_m s_z] in *.
  destruct (qok_bin _ _ _ diff _ _ _ _ Hk Hp Hq) as (z' & r & He & Hrr & Hrv & _). exists z', r. split; [done|].
  rewrite Hr, Hv in Hq. rewrite <- Hrr, <- Hrv.
  assert (mpool_held I P (Mss w z') H ((r, Some (λ x z, extremal (zn_rev r) (zn_vars r) phi x z ∧
       if diff then ¬ extremal (zn_rev r) (zn_vars r) psi x z else extremal (zn_rev r) (zn_vars r) psi x z)) :: Q)) as Hh'.
  { rewrite Hrr, Hrv. destruct diff.
    - exact (mp_own _ _ _ _ _ _ _ _ Hh (qs_setdiff _ w z H Q _ _ _ _ _ _ Hp Hq He)).
    - exact (mp_own _ _ _ _ _ _ _ _ Hh (qs_intersect _ w z H Q _ _ _ _ _ _ Hp Hq He)). }
  apply (mpool_comb _ _ _ _ _ phi psi diff ss Hh'). by left.
Qed.
End pool.
