(** BDD operations leave no nodes besides their result: proofs. *)
From stdpp Require Import strings.
From Verif Require Import Prelude ComputeCache ComputeCacheProofs Arena Trees ArenaProofs Bdd BddProofs Tidy.

Notation btidy m m' r := (tidy (b_ar m) (b_ar m') r).
Definition tres (m : bdd) (x : option (bdd * nat)) : Prop := ∀ m' r, x = Some (m', r) → btidy m m' r.

Lemma tres_const m r : tres m (Some (m, r)).
Proof. intros m' r' [= <- <-]. apply tidy_refl. Qed.
Lemma cache_put_ar m o f g v m' : bdd_cache_put m o f g v = Some m' → b_ar m' = b_ar m.
Proof. unfold bdd_cache_put. destruct (cc_put _ _ _ _ _); [|done]. cbn. by intros [= <-]. Qed.
Lemma ite_put_ar m f g h v m' : bdd_ite_put m f g h v = Some m' → b_ar m' = b_ar m.
Proof. unfold bdd_ite_put. destruct (cc_put _ _ _ _ _); [|done]. cbn. by intros [= <-]. Qed.
Lemma tres_finish m o f g x : tres m x → tres m ('(m, result) ← x; m ← bdd_cache_put m o f g result; Some (m, result)).
Proof.
  intros Hx m' r Heq. destruct x as [[m1 r1]|]; [|done]. cbn [mbind option_bind] in Heq. destruct (bdd_cache_put m1 o f g r1) as [m2|] eqn:E; [|done].
  injection Heq as <- <-. apply cache_put_ar in E. unfold btidy. rewrite E. by apply Hx.
Qed.
Lemma create_tidy m0 m1 m h hd lo hi dlo dhi m' r : bwf m1 → bwf m → ar_headers (b_ar m) !! h = Some hd →
  repr (b_ar m1) dlo lo → repr (b_ar m) dhi hi → rank dlo ≤ h_level hd → rank dhi ≤ h_level hd →
  ext (b_ar m0) (b_ar m1) → ext (b_ar m1) (b_ar m) → btidy m0 m1 lo → btidy m1 m hi → bdd_create_node m h lo hi = (m', r) → btidy m0 m' r.
Proof.
  intros Hw1 Hw Hh Hlo1 Hhi Hr0 Hr1 He0 He1 T0 T1. pose proof (repr_mono _ _ _ _ He1 Hlo1) as Hlo.
  assert (Hc : chain Rb (b_ar m0) [lo; hi] (b_ar m)).
  { apply chain_cons with (b_ar m1); try done; [apply Hw1|by eapply repr_live|].
    apply chain_cons with (b_ar m); try done; [apply Hw|by eapply repr_live|constructor]. }
  unfold bdd_create_node. pose proof (bw_good m Hw) as Hg. pose proof (gd_wf _ Hg) as Hwf.
  destruct (Nat.eqb_spec lo hi) as [->|Hne].
  { intros [= <- <-]. eapply chain_same; [exact Hc|]. by repeat constructor. }
  destruct (hashcons_spec Rb (b_ar m) h hd [lo; hi]) as (a' & r' & Heq & Hwf' & Hext & Hhd & Hl & Hn & Hnew);
    try done.
  { symmetry. by apply (gd_edges _ Hg h). }
  { intros [c Hcc]. rewrite !Forall_cons in Hcc. destruct Hcc as (-> & -> & _). done. }
  { rewrite !Forall_cons. sp; try constructor; try by eapply repr_live.
    - by eapply repr_rank_below.
    - by eapply repr_rank_below. }
  rewrite Heq. intros [= <- <-]. cbn [with_ar b_ar]. eapply (chain_node Rb _ [lo; hi]); try done.
  - repeat constructor; by eapply repr_live.
  - intros i. apply Hnew.
Qed.

(** two recursive calls, then create_node *)
Lemma recurse2_tidy Rel m h hd df dg (x0 : option (bdd * nat)) (x1 : bdd → option (bdd * nat)) :
  bwf m → ar_headers (b_ar m) !! h = Some hd → okdd E2 df → okdd E2 dg →
  rank df ≤ S (h_level hd) → rank dg ≤ S (h_level hd) →
  opres Rel m (cof df (h_level hd) 0) (cof dg (h_level hd) 0) x0 → tres m x0 →
  (∀ m1, step m m1 → opres Rel m1 (cof df (h_level hd) 1) (cof dg (h_level hd) 1) (x1 m1) ∧ tres m1 (x1 m1)) →
  tres m ('(m, low) ← x0; '(m, high) ← x1 m; Some (bdd_create_node m h low high)).
Proof.
  intros Hw Hh Hof Hog Hrf Hrg (m1 & lo & dlo & -> & Hst1 & Hlo & Hk0 & _) T0 H1.
  cbn [mbind option_bind].
  destruct (H1 _ Hst1) as [(m2 & hi & dhi & E1 & Hst2 & Hhi & Hk1 & _) T1]. rewrite E1 in *. cbn [mbind option_bind].
  pose proof (cof_rank E2 df (h_level hd)) as Cf. pose proof (cof_rank E2 dg (h_level hd)) as Cg.
  assert (0 < E2 (h_level hd)) by (unfold E2; lia). assert (1 < E2 (h_level hd)) by (unfold E2; lia).
  pose proof (Cf 0). pose proof (Cf 1). pose proof (Cg 0). pose proof (Cg 1).
  intros m' r Heq. apply (create_tidy m m1 m2 h hd lo hi dlo dhi m' r); try done.
  - apply Hst1.
  - apply Hst2.
  - pose proof Hst1 as (_ & _ & Hd1). pose proof Hst2 as (_ & _ & Hd2). congruence.
  - etransitivity; [exact Hk0|]. apply Nat.max_lub; auto.
  - etransitivity; [exact Hk1|]. apply Nat.max_lub; auto.
  - apply Hst1.
  - apply Hst2.
  - by apply T0.
  - by apply T1.
  - by injection Heq.
Qed.

Lemma not_tidy n : ∀ m f df, bwf m → repr (b_ar m) df f → rank df < n → tres m (bdd_not_f n m f).
Proof.
  induction n as [|n IH]; intros m f df Hw Hf Hn; [lia|]. cbn [bdd_not_f].
  pose proof (bw_good _ Hw) as Hg.
  rewrite cache_get_eq by done. cbn [mbind option_bind].
  destruct (cfind _ _) as [v|] eqn:Hc; cbn [option_map]; [apply tres_const|].
  destruct df as [t|hd ds].
  - pose proof Hf as [Hl Ht]%repr_leaf. rewrite Ht. cbn [mbind option_bind].
    apply (tres_finish m OpNot). destruct t; apply tres_const.
  - destruct (repr_node2 _ _ _ _ Hg Hf) as (h & lo & hi & dlo & dhi & -> & Hnd & Hh & Hlo & Hhi & Hr0 & Hr1).
    rewrite Hnd. cbn [mbind option_bind edges2]. cbn [rank] in Hn.
    apply (tres_finish m OpNot).
    eapply (recurse2_tidy Rnot m h hd (Br hd [dlo; dhi]) (Leaf TZero) _ (λ m, bdd_not_f n m hi)); try done.
    + by eapply good_ok.
    + cbn; lia.
    + rewrite cof_same. cbn. apply not_spec; [done|done|lia].
    + eapply IH; [done|done|lia].
    + intros m1 Hst1. rewrite cof_same. cbn. assert (repr (b_ar m1) dhi hi) by (eapply repr_mono; [apply Hst1|done]). split.
      * apply not_spec; [apply Hst1|done|lia].
      * eapply IH; [apply Hst1|done|lia].
Qed.

Lemma nt_arms_tidy Rel (rec : bdd → nat → nat → option (bdd * nat)) n m f g hdf dsf hdg dsg
    hf f0 f1 hg g0 g1 df0 df1 dg0 dg1 :
  bwf m →
  (∀ m f g df dg, bwf m → repr (b_ar m) df f → repr (b_ar m) dg g →
     rank df `max` rank dg < n → opres Rel m df dg (rec m f g) ∧ tres m (rec m f g)) →
  dsf = [df0; df1] → dsg = [dg0; dg1] →
  repr (b_ar m) (Br hdf dsf) f → repr (b_ar m) (Br hdg dsg) g →
  ar_headers (b_ar m) !! hf = Some hdf → ar_headers (b_ar m) !! hg = Some hdg →
  repr (b_ar m) df0 f0 → repr (b_ar m) df1 f1 → repr (b_ar m) dg0 g0 → repr (b_ar m) dg1 g1 →
  rank df0 ≤ h_level hdf → rank df1 ≤ h_level hdf → rank dg0 ≤ h_level hdg → rank dg1 ≤ h_level hdg →
  rank (Br hdf dsf) `max` rank (Br hdg dsg) < S n →
  tres m
   (if h_level hdg <? h_level hdf then
      '(m, low) ← rec m f0 g; '(m, high) ← rec m f1 g; Some (bdd_create_node m hf low high)
    else if h_level hdf <? h_level hdg then
      '(m, low) ← rec m f g0; '(m, high) ← rec m f g1; Some (bdd_create_node m hg low high)
    else
      '(m, low) ← rec m f0 g0; '(m, high) ← rec m f1 g1; Some (bdd_create_node m hf low high)).
Proof.
  intros Hw IH -> -> Hf Hg Hhf Hhg Hf0 Hf1 Hg0 Hg1 Rf0 Rf1 Rg0 Rg1 Hn.
  pose proof (bw_good _ Hw) as Hgd.
  pose proof (good_ok _ _ _ Hgd Hf) as Hof. pose proof (good_ok _ _ _ Hgd Hg) as Hog.
  change (rank (Br hdf [df0; df1])) with (S (h_level hdf)) in *.
  change (rank (Br hdg [dg0; dg1])) with (S (h_level hdg)) in *.
  assert (Hmono : ∀ m1 d i, step m m1 → repr (b_ar m) d i → repr (b_ar m1) d i) by (intros m1 d i Hst; eapply repr_mono; apply Hst).
  destruct (Nat.ltb_spec (h_level hdg) (h_level hdf)) as [Hlt|Hge].
  - eapply (recurse2_tidy Rel m hf hdf (Br hdf [df0; df1]) (Br hdg [dg0; dg1])
      (rec m f0 g) (λ m, rec m f1 g)); try done; try (cbn [rank]; lia).
    + rewrite cof_same, cof_low by (cbn [rank]; lia). cbn [lookup list_lookup from_option]; unfold id. apply IH; try done. cbn [rank]; lia.
    + eapply IH; try done. cbn [rank]; lia.
    + intros m1 Hst. rewrite cof_same, cof_low by (cbn [rank]; lia). cbn [lookup list_lookup from_option]; unfold id. apply IH; auto; [apply Hst|]. cbn [rank]; lia.
  - destruct (Nat.ltb_spec (h_level hdf) (h_level hdg)) as [Hlt|Hge'].
    + eapply (recurse2_tidy Rel m hg hdg (Br hdf [df0; df1]) (Br hdg [dg0; dg1])
        (rec m f g0) (λ m, rec m f g1)); try done; try (cbn [rank]; lia).
      * rewrite cof_same, cof_low by (cbn [rank]; lia). cbn [lookup list_lookup from_option]; unfold id. apply IH; try done. cbn [rank]; lia.
      * eapply IH; try done. cbn [rank]; lia.
      * intros m1 Hst. rewrite cof_same, cof_low by (cbn [rank]; lia). cbn [lookup list_lookup from_option]; unfold id. apply IH; auto; [apply Hst|]. cbn [rank]; lia.
    + assert (Hll : h_level hdf = h_level hdg) by lia.
      eapply (recurse2_tidy Rel m hf hdf (Br hdf [df0; df1]) (Br hdg [dg0; dg1])
        (rec m f0 g0) (λ m, rec m f1 g1)); try done; try (cbn [rank]; lia).
      * rewrite cof_same. rewrite Hll, cof_same. cbn [lookup list_lookup from_option]; unfold id. apply IH; try done. cbn [rank]; lia.
      * eapply IH; try done. cbn [rank]; lia.
      * intros m1 Hst. rewrite cof_same. rewrite Hll, cof_same. cbn [lookup list_lookup from_option]; unfold id. apply IH; auto; [apply Hst|]. cbn [rank]; lia.
Qed.

Lemma and_tidy n : ∀ m f g df dg, bwf m → repr (b_ar m) df f → repr (b_ar m) dg g →
  rank df `max` rank dg < n → tres m (bdd_and_f n m f g).
Proof.
  induction n as [|n IH]; intros m f g df dg Hw Hf Hg Hn; [lia|]. cbn [bdd_and_f].
  destruct (Nat.eqb_spec f g) as [->|Hne].
  { apply tres_const. }
  destruct (swap_ops Rand m f g df dg sym_and Hf Hg) as (f' & g' & df' & dg' & -> & Hf' & Hg' & Hmx & _).
  rewrite <- Hmx in Hn. clear Hmx Hne Hf Hg f g df dg.
  pose proof (bw_good _ Hw) as Hgd.
  rewrite cache_get_eq by done. cbn [mbind option_bind].
  destruct (cfind _ _) as [v|] eqn:Hc; cbn [option_map]; [apply tres_const|].
  destruct (live_lookup _ _ (repr_live _ _ _ Hf')) as [fn Hfn].
  destruct (live_lookup _ _ (repr_live _ _ _ Hg')) as [gn Hgn].
  rewrite Hfn, Hgn. cbn [mbind option_bind].
  apply (tres_finish m OpAnd).
  destruct df' as [tf|hdf dsf].
  - pose proof Hf' as [_ Ht]%repr_leaf. rewrite Hfn in Ht. injection Ht as ->.
    destruct dg' as [tg|hdg dsg].
    + pose proof Hg' as [_ Ht]%repr_leaf. rewrite Hgn in Ht. injection Ht as ->.
      destruct tf, tg; apply tres_const.
    + destruct (repr_node2 _ _ _ _ Hgd Hg') as (h & lo & hi & dlo & dhi & -> & Hnd & _).
      rewrite Hgn in Hnd. injection Hnd as ->.
      destruct tf; apply tres_const.
  - destruct (repr_node2 _ _ _ _ Hgd Hf') as (h & lo & hi & dlo & dhi & -> & Hnd & Hh & Hlo & Hhi & Hr0 & Hr1).
    rewrite Hfn in Hnd. injection Hnd as ->.
    destruct dg' as [tg|hdg dsg].
    + pose proof Hg' as [_ Ht]%repr_leaf. rewrite Hgn in Ht. injection Ht as ->.
      destruct tg; apply tres_const.
    + destruct (repr_node2 _ _ _ _ Hgd Hg') as
        (h' & lo' & hi' & dlo' & dhi' & -> & Hnd & Hh' & Hlo' & Hhi' & Hr0' & Hr1').
      rewrite Hgn in Hnd. injection Hnd as ->.
      rewrite (hdr_level_eq _ _ _ Hh), (hdr_level_eq _ _ _ Hh'). cbn [mbind option_bind edges2].
      eapply (nt_arms_tidy Rand); try done. intros m1 f1 g1 df1 dg1 H1 H2 H3 H4. split; [by apply and_spec|by eapply IH].
Qed.

Lemma or_tidy n : ∀ m f g df dg, bwf m → repr (b_ar m) df f → repr (b_ar m) dg g →
  rank df `max` rank dg < n → tres m (bdd_or_f n m f g).
Proof.
  induction n as [|n IH]; intros m f g df dg Hw Hf Hg Hn; [lia|]. cbn [bdd_or_f].
  destruct (Nat.eqb_spec f g) as [->|Hne].
  { apply tres_const. }
  destruct (swap_ops Ror m f g df dg sym_or Hf Hg) as (f' & g' & df' & dg' & -> & Hf' & Hg' & Hmx & _).
  rewrite <- Hmx in Hn. clear Hmx Hne Hf Hg f g df dg.
  pose proof (bw_good _ Hw) as Hgd.
  rewrite cache_get_eq by done. cbn [mbind option_bind].
  destruct (cfind _ _) as [v|] eqn:Hc; cbn [option_map]; [apply tres_const|].
  destruct (live_lookup _ _ (repr_live _ _ _ Hf')) as [fn Hfn].
  destruct (live_lookup _ _ (repr_live _ _ _ Hg')) as [gn Hgn].
  rewrite Hfn, Hgn. cbn [mbind option_bind].
  apply (tres_finish m OpOr).
  destruct df' as [tf|hdf dsf].
  - pose proof Hf' as [_ Ht]%repr_leaf. rewrite Hfn in Ht. injection Ht as ->.
    destruct dg' as [tg|hdg dsg].
    + pose proof Hg' as [_ Ht]%repr_leaf. rewrite Hgn in Ht. injection Ht as ->.
      destruct tf, tg; apply tres_const.
    + destruct (repr_node2 _ _ _ _ Hgd Hg') as (h & lo & hi & dlo & dhi & -> & Hnd & _).
      rewrite Hgn in Hnd. injection Hnd as ->.
      destruct tf; apply tres_const.
  - destruct (repr_node2 _ _ _ _ Hgd Hf') as (h & lo & hi & dlo & dhi & -> & Hnd & Hh & Hlo & Hhi & Hr0 & Hr1).
    rewrite Hfn in Hnd. injection Hnd as ->.
    destruct dg' as [tg|hdg dsg].
    + pose proof Hg' as [_ Ht]%repr_leaf. rewrite Hgn in Ht. injection Ht as ->.
      destruct tg; apply tres_const.
    + destruct (repr_node2 _ _ _ _ Hgd Hg') as
        (h' & lo' & hi' & dlo' & dhi' & -> & Hnd & Hh' & Hlo' & Hhi' & Hr0' & Hr1').
      rewrite Hgn in Hnd. injection Hnd as ->.
      rewrite (hdr_level_eq _ _ _ Hh), (hdr_level_eq _ _ _ Hh'). cbn [mbind option_bind edges2].
      eapply (nt_arms_tidy Ror); try done. intros m1 f1 g1 df1 dg1 H1 H2 H3 H4. split; [by apply or_spec|by eapply IH].
Qed.

Lemma xor_tidy n : ∀ m f g df dg, bwf m → repr (b_ar m) df f → repr (b_ar m) dg g →
  rank df `max` rank dg < n → tres m (bdd_xor_f n m f g).
Proof.
  induction n as [|n IH]; intros m f g df dg Hw Hf Hg Hn; [lia|]. cbn [bdd_xor_f].
  destruct (Nat.eqb_spec f g) as [->|Hne].
  { destruct (Nat.eqb_spec g bdd_undet); apply tres_const. }
  destruct (swap_ops Rxor m f g df dg sym_xor Hf Hg) as (f' & g' & df' & dg' & -> & Hf' & Hg' & Hmx & _).
  rewrite <- Hmx in Hn. clear Hmx Hne Hf Hg f g df dg.
  pose proof (bw_good _ Hw) as Hgd.
  rewrite cache_get_eq by done. cbn [mbind option_bind].
  destruct (cfind _ _) as [v|] eqn:Hc; cbn [option_map]; [apply tres_const|].
  destruct (live_lookup _ _ (repr_live _ _ _ Hf')) as [fn Hfn].
  destruct (live_lookup _ _ (repr_live _ _ _ Hg')) as [gn Hgn].
  rewrite Hfn, Hgn. cbn [mbind option_bind].
  apply (tres_finish m OpXOr).
  destruct df' as [tf|hdf dsf].
  - pose proof Hf' as [_ Ht]%repr_leaf. rewrite Hfn in Ht. injection Ht as ->.
    destruct dg' as [tg|hdg dsg].
    + pose proof Hg' as [_ Ht]%repr_leaf. rewrite Hgn in Ht. injection Ht as ->.
      destruct tf, tg; try (eapply not_tidy; [done|done|cbn [rank] in *; lia]); apply tres_const.
    + destruct (repr_node2 _ _ _ _ Hgd Hg') as (h & lo & hi & dlo & dhi & -> & Hnd & _).
      rewrite Hgn in Hnd. injection Hnd as ->.
      destruct tf; try (eapply not_tidy; [done|done|cbn [rank] in *; lia]); apply tres_const.
  - destruct (repr_node2 _ _ _ _ Hgd Hf') as (h & lo & hi & dlo & dhi & -> & Hnd & Hh & Hlo & Hhi & Hr0 & Hr1).
    rewrite Hfn in Hnd. injection Hnd as ->.
    destruct dg' as [tg|hdg dsg].
    + pose proof Hg' as [_ Ht]%repr_leaf. rewrite Hgn in Ht. injection Ht as ->.
      destruct tg; try (eapply not_tidy; [done|done|cbn [rank] in *; lia]); apply tres_const.
    + destruct (repr_node2 _ _ _ _ Hgd Hg') as
        (h' & lo' & hi' & dlo' & dhi' & -> & Hnd & Hh' & Hlo' & Hhi' & Hr0' & Hr1').
      rewrite Hgn in Hnd. injection Hnd as ->.
      rewrite (hdr_level_eq _ _ _ Hh), (hdr_level_eq _ _ _ Hh'). cbn [mbind option_bind edges2].
      eapply (nt_arms_tidy Rxor); try done. intros m1 f1 g1 df1 dg1 H1 H2 H3 H4. split; [by apply xor_spec|by eapply IH].
Qed.

Lemma ite_tidy n : ∀ m f g h df dg dh, bwf m →
  repr (b_ar m) df f → repr (b_ar m) dg g → repr (b_ar m) dh h →
  rank df `max` rank dg `max` rank dh < n → tres m (bdd_ite_f n m f g h).
Proof.
  induction n as [|n IH]; intros m f g h df dg dh Hw Hf Hg Hh Hn; [lia|]. cbn [bdd_ite_f].
  pose proof (bw_good _ Hw) as Hgd.
  destruct df as [t|hd ds].
  { pose proof Hf as [_ Ht]%repr_leaf. rewrite Ht. cbn [mbind option_bind]. destruct t; apply tres_const. }
  destruct (repr_node2 _ _ _ _ Hgd Hf) as (hf & lo & hi & dlo & dhi & -> & Hnd & Hhd & Hlo & Hhi & Hr0 & Hr1).
  rewrite Hnd. cbn [mbind option_bind].
  destruct (Nat.eqb_spec g h) as [->|Hne]; [apply tres_const|].
  rewrite ite_get_eq by done. cbn [mbind option_bind].
  destruct (cfind _ _) as [v|] eqn:Hc; cbn [option_map]; [apply tres_const|].
  rewrite (hdr_level_eq _ _ _ Hhd). cbn [mbind option_bind].
  rewrite (top_step_eq _ _ _ _ Hw Hg). cbn [mbind option_bind].
  rewrite (top_step_eq _ _ _ _ Hw Hh). cbn [mbind option_bind].
  set (top := (h_level hd `max` Nat.pred (rank dg)) `max` Nat.pred (rank dh)).
  set (df := Br hd [dlo; dhi]) in *.
  assert (Hrf : rank df = S (h_level hd)) by done. rewrite Hrf in Hn.
  assert (Hmax : rank df `max` rank dg `max` rank dh = S top) by (subst top; lia).
  assert (rank df ≤ S top ∧ rank dg ≤ S top ∧ rank dh ≤ S top) as (Kf & Kg & Kh) by lia.
  destruct (cofactor_eq m df f top Hw Hf Kf) as (f0 & f1 & -> & Hf0 & Hf1).
  destruct (cofactor_eq m dg g top Hw Hg Kg) as (g0 & g1 & -> & Hg0 & Hg1).
  destruct (cofactor_eq m dh h top Hw Hh Kh) as (h0 & h1 & -> & Hh0 & Hh1).
  cbn [mbind option_bind].
  destruct (top_header_eq m [f; g; h] [df; dg; dh] top) as (hid & thd & -> & Hth & Htl); try done.
  { repeat (apply Forall2_cons; split; [done|]). done. }
  { destruct (decide (rank df = S top)); [exists df; split; [set_solver|done]|].
    destruct (decide (rank dg = S top)); [exists dg; split; [set_solver|done]|].
    exists dh; split; [set_solver|lia]. }
  cbn [mbind option_bind].
  pose proof (good_ok _ _ _ Hgd Hf) as Of. pose proof (good_ok _ _ _ Hgd Hg) as Og.
  pose proof (good_ok _ _ _ Hgd Hh) as Oh.
  assert (0 < E2 top) as I0 by (unfold E2; lia). assert (1 < E2 top) as I1 by (unfold E2; lia).
  pose proof (cof_rank E2 df top 0 Of I0 Kf). pose proof (cof_rank E2 df top 1 Of I1 Kf).
  pose proof (cof_rank E2 dg top 0 Og I0 Kg). pose proof (cof_rank E2 dg top 1 Og I1 Kg).
  pose proof (cof_rank E2 dh top 0 Oh I0 Kh). pose proof (cof_rank E2 dh top 1 Oh I1 Kh).
  destruct (ite_spec n m f0 g0 h0 _ _ _ Hw Hf0 Hg0 Hh0) as (m1 & l & dl & E1 & Hst1 & Hl & Hkl & Pl); [lia|].
  pose proof (IH m f0 g0 h0 _ _ _ Hw Hf0 Hg0 Hh0 ltac:(lia) _ _ E1) as T1. rewrite E1.
  cbn [mbind option_bind]. pose proof Hst1 as (Hw1 & He1 & Hd1).
  assert (repr (b_ar m1) (cof df top 1) f1 ∧ repr (b_ar m1) (cof dg top 1) g1 ∧ repr (b_ar m1) (cof dh top 1) h1) as (R1 & R2 & R3).
  { sp; by eapply repr_mono. }
  destruct (ite_spec n m1 f1 g1 h1 _ _ _ Hw1 R1 R2 R3) as (m2 & r & dr & E2' & Hst2 & Hr & Hkr & Pr); [lia|].
  pose proof (IH m1 f1 g1 h1 _ _ _ Hw1 R1 R2 R3 ltac:(lia) _ _ E2') as T2. rewrite E2'.
  cbn [mbind option_bind]. pose proof Hst2 as (Hw2 & He2 & Hd2).
  destruct (bdd_create_node m2 hid l r) as [m3 x] eqn:Ec.
  intros m4 r4 Heq. destruct (bdd_ite_put m3 f g h x) as [m5|] eqn:Ep; [|done]. injection Heq as <- <-. apply ite_put_ar in Ep. rewrite Ep.
  eapply (create_tidy m m1 m2 hid thd l r dl dr m3 x); try done.
  - congruence.
  - lia.
  - lia.
Qed.
