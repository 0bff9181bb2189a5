(** The set operations on ZDDs leave no nodes besides their result: proofs. *)
From stdpp Require Import strings.
From Verif Require Import Prelude Arena Trees ArenaProofs ArenaMore Bdd BddProofs Zdd ZddTrees ZddProofs Tidy.

Definition ztres (m : zdd) (x : option (zdd * nat)) : Prop := ∀ m' r, x = Some (m', r) → tidy (z_ar m) (z_ar m') r.
Lemma ztres_const m r : ztres m (Some (m, r)).
Proof. intros m' r' [= <- <-]. apply tidy_refl. Qed.
Lemma ztres_finish m o f g x : ztres m x → ztres m ('(m, result) ← x; Some (zdd_cache_put m o f g result, result)).
Proof.
  intros Hx m' r Heq. destruct x as [[m1 r1]|]; [|done]. cbn [mbind option_bind] in Heq. injection Heq as <- <-. exact (Hx _ _ eq_refl).
Qed.
Lemma reach_term {T} (a : arena T) r t id : ar_nodes a !! r = Some (Term t) → reach a [r] id → id = r.
Proof.
  intros Hr Hre. induction Hre as [x Hx|x h cs c _ IH Hn Hc]; [by apply elem_of_list_singleton in Hx|]. congruence.
Qed.
Lemma zcreate_tidy m0 m1 m h hd lo hi dlo dhi m' r : zwf m0 → zwf m1 → zwf m → ar_headers (z_ar m) !! h = Some hd →
  repr (z_ar m1) dlo lo → repr (z_ar m) dhi hi → rank dlo ≤ h_level hd → rank dhi ≤ h_level hd →
  ext (z_ar m0) (z_ar m1) → ext (z_ar m1) (z_ar m) → tidy (z_ar m0) (z_ar m1) lo → tidy (z_ar m1) (z_ar m) hi →
  zdd_create_node m h lo hi = (m', r) → tidy (z_ar m0) (z_ar m') r.
Proof.
  intros Hw0 Hw1 Hw Hh Hlo1 Hhi Hr0 Hr1 He0 He1 T0 T1. pose proof (repr_mono _ _ _ _ He1 Hlo1) as Hlo.
  assert (Hc : chain Rz (z_ar m0) [lo; hi] (z_ar m)).
  { apply chain_cons with (z_ar m1); try done; [apply Hw1|by eapply repr_live|].
    apply chain_cons with (z_ar m); try done; [apply Hw|by eapply repr_live|constructor]. }
  unfold zdd_create_node. pose proof (zw_good m Hw) as Hg. pose proof (zg_wf _ Hg) as Hwf.
  destruct (Nat.eqb_spec hi zdd_zero) as [->|Hne].
  { intros [= <- <-] id Hl. destruct (chain_new Rz _ _ _ Hc id Hl) as [?|(x & Hx & Hre)]; [by left|].
    apply elem_of_cons in Hx as [->|Hx%elem_of_list_singleton]; [by right|]. subst x. left.
    pose proof (zg_zero _ Hg) as [_ Hz]%repr_leaf. rewrite (reach_term _ _ _ _ Hz Hre). eapply repr_live, zg_zero, Hw0. }
  destruct (hashcons_spec Rz (z_ar m) h hd [lo; hi]) as (a' & r' & Heq & Hwf' & Hext & Hhd & Hl & Hn & Hnew);
    try done.
  { symmetry. by apply (zg_edges _ Hg h). }
  { by exists lo, hi. }
  { rewrite !Forall_cons. sp; try constructor; try by eapply repr_live.
    - by eapply repr_rank_below.
    - by eapply repr_rank_below. }
  rewrite Heq. intros [= <- <-]. cbn [zwith_ar z_ar]. eapply (chain_node Rz _ [lo; hi]); try done.
  - repeat constructor; by eapply repr_live.
  - intros i. apply Hnew.
Qed.

Lemma znode_hi_tidy o m h hd d1 d2 hi dhi (x : option (zdd * nat)) : zwf m → ar_headers (z_ar m) !! h = Some hd →
  rank d1 `max` rank d2 ≤ h_level hd → repr (z_ar m) dhi hi → rank dhi ≤ h_level hd → zres o m d1 d2 x → ztres m x →
  ztres m ('(m, low) ← x; Some (zdd_create_node m h low hi)).
Proof.
  intros Hw Hh Hk Hhi Rhi (m1 & lo & dlo & -> & Hst & Hlo & Hk0 & _) T0 m' r Heq. cbn [mbind option_bind] in Heq.
  apply (zcreate_tidy m m1 m1 h hd lo hi dlo dhi m' r); try done; try apply Hst.
  - by eapply zstep_hdr.
  - by eapply zstep_repr.
  - lia.
  - by apply T0.
  - apply tidy_refl.
  - by injection Heq.
Qed.
Lemma znode_both_tidy o m h hd d1 d2 d3 d4 (x0 : option (zdd * nat)) (x1 : zdd → option (zdd * nat)) : zwf m → ar_headers (z_ar m) !! h = Some hd →
  rank d1 `max` rank d2 ≤ h_level hd → rank d3 `max` rank d4 ≤ h_level hd → zres o m d1 d2 x0 → ztres m x0 →
  (∀ m1, zstep m m1 → zres o m1 d3 d4 (x1 m1) ∧ ztres m1 (x1 m1)) →
  ztres m ('(m, low) ← x0; '(m, high) ← x1 m; Some (zdd_create_node m h low high)).
Proof.
  intros Hw Hh K0 K1 (m1 & lo & dlo & -> & Hst & Hlo & Hk0 & _) T0 H1 m' r Heq. cbn [mbind option_bind] in Heq.
  destruct (H1 _ Hst) as [(m2 & hi & dhi & E1 & Hst2 & Hhi & Hk1 & _) T1]. rewrite E1 in *. cbn [mbind option_bind] in Heq.
  apply (zcreate_tidy m m1 m2 h hd lo hi dlo dhi m' r); try done; try apply Hst; try apply Hst2.
  - by do 2 (eapply zstep_hdr; [done|]).
  - lia.
  - lia.
  - by apply T0.
  - by apply T1.
  - by injection Heq.
Qed.

Lemma zunion_tidy n : ∀ m f g df dg, zwf m → repr (z_ar m) df f → repr (z_ar m) dg g →
  rank df `max` rank dg < n → ztres m (zdd_union_f n m f g).
Proof.
  induction n as [|n IH]; intros m f g df dg Hw Hf Hg Hn; [lia|]. cbn [zdd_union_f].
  destruct (Nat.eqb_spec f g) as [->|Hne]; [apply ztres_const|].
  pose proof (zw_good _ Hw) as Hgd.
  destruct (zdd_cache_get _ _ _ _) as [v|] eqn:Hc; [apply ztres_const|].
  destruct (live_lookup _ _ (repr_live _ _ _ Hf)) as [fn Hfn].
  destruct (live_lookup _ _ (repr_live _ _ _ Hg)) as [gn Hgn].
  rewrite Hfn, Hgn. cbn [mbind option_bind]. apply ztres_finish.
  destruct df as [tf|hdf dsf].
  - pose proof Hf as [_ Ht]%repr_leaf. rewrite Hfn in Ht. injection Ht as ->.
    destruct dg as [tg|hdg dsg].
    + pose proof Hg as [_ Ht]%repr_leaf. rewrite Hgn in Ht. injection Ht as ->.
      destruct tf, tg; apply ztres_const.
    + destruct (zrepr_node2 _ _ _ _ Hgd Hg) as (h & lo & hi & dlo & dhi & -> & Hnd & Hh & Hlo & Hhi & Hr0 & Hr1 & Hnz).
      rewrite Hgn in Hnd. injection Hnd as ->. cbn [rank] in Hn.
      destruct tf; try apply ztres_const.
      cbn [edges2 mbind option_bind]. eapply (znode_hi_tidy ZUnion m h hdg (Leaf TOne) dlo _ dhi); try done; try (cbn [rank]; lia);
        [apply zunion_spec|eapply IH]; try done; try apply (zg_one _ Hgd); cbn [rank]; lia.
  - destruct (zrepr_node2 _ _ _ _ Hgd Hf) as (h & lo & hi & dlo & dhi & -> & Hnd & Hh & Hlo & Hhi & Hr0 & Hr1 & Hnz).
    rewrite Hfn in Hnd. injection Hnd as ->. cbn [rank] in Hn.
    destruct dg as [tg|hdg dsg].
    + pose proof Hg as [_ Ht]%repr_leaf. rewrite Hgn in Ht. injection Ht as ->.
      destruct tg; try apply ztres_const.
      cbn [edges2 mbind option_bind]. eapply (znode_hi_tidy ZUnion m h hdf dlo (Leaf TOne) _ dhi); try done; try (cbn [rank]; lia);
        [apply zunion_spec|eapply IH]; try done; try apply (zg_one _ Hgd); cbn [rank]; lia.
    + destruct (zrepr_node2 _ _ _ _ Hgd Hg) as
        (h' & lo' & hi' & dlo' & dhi' & -> & Hnd & Hh' & Hlo' & Hhi' & Hr0' & Hr1' & Hnz').
      rewrite Hgn in Hnd. injection Hnd as ->. cbn [rank] in Hn.
      rewrite (a_hdr_level _ _ _ Hh), (a_hdr_level _ _ _ Hh'). cbn [mbind option_bind edges2].
      destruct (Nat.ltb_spec (h_level hdg) (h_level hdf)) as [Hlt|Hge].
      * eapply (znode_hi_tidy ZUnion m h hdf dlo (Br hdg [dlo'; dhi']) _ dhi); try done; try (cbn [rank]; lia);
        [apply zunion_spec|eapply IH]; try done; try apply (zg_one _ Hgd); cbn [rank]; lia.
      * destruct (Nat.ltb_spec (h_level hdf) (h_level hdg)) as [Hlt|Hge'].
        -- eapply (znode_hi_tidy ZUnion m h' hdg (Br hdf [dlo; dhi]) dlo' _ dhi'); try done; try (cbn [rank]; lia);
        [apply zunion_spec|eapply IH]; try done; try apply (zg_one _ Hgd); cbn [rank]; lia.
        -- eapply (znode_both_tidy ZUnion m h hdf dlo dlo' dhi dhi' _ (λ m, zdd_union_f n m hi hi')); try done; try lia.
           ++ apply zunion_spec; [done..|]. lia.
           ++ eapply IH; [done..|]. lia.
           ++ intros m1 Hst. assert (repr (z_ar m1) dhi hi ∧ repr (z_ar m1) dhi' hi') as [? ?] by (split; by eapply zstep_repr).
              split; [apply zunion_spec|eapply IH]; try done; try apply Hst; lia.
Qed.

Lemma zsetdiff_tidy n : ∀ m f g df dg, zwf m → repr (z_ar m) df f → repr (z_ar m) dg g →
  rank df `max` rank dg < n → ztres m (zdd_setdiff_f n m f g).
Proof.
  induction n as [|n IH]; intros m f g df dg Hw Hf Hg Hn; [lia|]. cbn [zdd_setdiff_f].
  destruct (Nat.eqb_spec f g) as [->|Hne]; [apply ztres_const|].
  pose proof (zw_good _ Hw) as Hgd.
  destruct (zdd_cache_get _ _ _ _) as [v|] eqn:Hc; [apply ztres_const|].
  destruct (live_lookup _ _ (repr_live _ _ _ Hf)) as [fn Hfn].
  destruct (live_lookup _ _ (repr_live _ _ _ Hg)) as [gn Hgn].
  rewrite Hfn, Hgn. cbn [mbind option_bind]. apply ztres_finish.
  destruct df as [tf|hdf dsf].
  - pose proof Hf as [_ Ht]%repr_leaf. rewrite Hfn in Ht. injection Ht as ->.
    destruct dg as [tg|hdg dsg].
    + pose proof Hg as [_ Ht]%repr_leaf. rewrite Hgn in Ht. injection Ht as ->.
      destruct tf, tg; apply ztres_const.
    + destruct (zrepr_node2 _ _ _ _ Hgd Hg) as (h & lo & hi & dlo & dhi & -> & Hnd & Hh & Hlo & Hhi & Hr0 & Hr1 & Hnz).
      rewrite Hgn in Hnd. injection Hnd as ->. cbn [rank] in Hn.
      destruct tf; try apply ztres_const.
      cbn [edges2 mbind option_bind]. eapply IH; try done; try apply (zg_one _ Hgd); cbn [rank]; lia.
  - destruct (zrepr_node2 _ _ _ _ Hgd Hf) as (h & lo & hi & dlo & dhi & -> & Hnd & Hh & Hlo & Hhi & Hr0 & Hr1 & Hnz).
    rewrite Hfn in Hnd. injection Hnd as ->. cbn [rank] in Hn.
    destruct dg as [tg|hdg dsg].
    + pose proof Hg as [_ Ht]%repr_leaf. rewrite Hgn in Ht. injection Ht as ->.
      destruct tg; try apply ztres_const.
      cbn [edges2 mbind option_bind]. eapply (znode_hi_tidy ZSetdiff m h hdf dlo (Leaf TOne) _ dhi); try done; try (cbn [rank]; lia);
        [apply zsetdiff_spec|eapply IH]; try done; try apply (zg_one _ Hgd); cbn [rank]; lia.
    + destruct (zrepr_node2 _ _ _ _ Hgd Hg) as
        (h' & lo' & hi' & dlo' & dhi' & -> & Hnd & Hh' & Hlo' & Hhi' & Hr0' & Hr1' & Hnz').
      rewrite Hgn in Hnd. injection Hnd as ->. cbn [rank] in Hn.
      rewrite (a_hdr_level _ _ _ Hh), (a_hdr_level _ _ _ Hh'). cbn [mbind option_bind edges2].
      destruct (Nat.ltb_spec (h_level hdg) (h_level hdf)) as [Hlt|Hge].
      * eapply (znode_hi_tidy ZSetdiff m h hdf dlo (Br hdg [dlo'; dhi']) _ dhi); try done; try (cbn [rank]; lia);
        [apply zsetdiff_spec|eapply IH]; try done; try apply (zg_one _ Hgd); cbn [rank]; lia.
      * destruct (Nat.ltb_spec (h_level hdf) (h_level hdg)) as [Hlt|Hge'].
        -- eapply IH; try done; try apply (zg_one _ Hgd); cbn [rank]; lia.
        -- eapply (znode_both_tidy ZSetdiff m h hdf dlo dlo' dhi dhi' _ (λ m, zdd_setdiff_f n m hi hi')); try done; try lia.
           ++ apply zsetdiff_spec; [done..|]. lia.
           ++ eapply IH; [done..|]. lia.
           ++ intros m1 Hst. assert (repr (z_ar m1) dhi hi ∧ repr (z_ar m1) dhi' hi') as [? ?] by (split; by eapply zstep_repr).
              split; [apply zsetdiff_spec|eapply IH]; try done; try apply Hst; lia.
Qed.

Lemma zintersect_tidy n : ∀ m f g df dg, zwf m → repr (z_ar m) df f → repr (z_ar m) dg g →
  rank df `max` rank dg < n → ztres m (zdd_intersect_f n m f g).
Proof.
  induction n as [|n IH]; intros m f g df dg Hw Hf Hg Hn; [lia|]. cbn [zdd_intersect_f].
  destruct (Nat.eqb_spec f g) as [->|Hne]; [apply ztres_const|].
  pose proof (zw_good _ Hw) as Hgd.
  destruct (zdd_cache_get _ _ _ _) as [v|] eqn:Hc; [apply ztres_const|].
  destruct (live_lookup _ _ (repr_live _ _ _ Hf)) as [fn Hfn].
  destruct (live_lookup _ _ (repr_live _ _ _ Hg)) as [gn Hgn].
  rewrite Hfn, Hgn. cbn [mbind option_bind]. apply ztres_finish.
  destruct df as [tf|hdf dsf].
  - pose proof Hf as [_ Ht]%repr_leaf. rewrite Hfn in Ht. injection Ht as ->.
    destruct dg as [tg|hdg dsg].
    + pose proof Hg as [_ Ht]%repr_leaf. rewrite Hgn in Ht. injection Ht as ->.
      destruct tf, tg; apply ztres_const.
    + destruct (zrepr_node2 _ _ _ _ Hgd Hg) as (h & lo & hi & dlo & dhi & -> & Hnd & Hh & Hlo & Hhi & Hr0 & Hr1 & Hnz).
      rewrite Hgn in Hnd. injection Hnd as ->. cbn [rank] in Hn.
      destruct tf; try apply ztres_const.

  - destruct (zrepr_node2 _ _ _ _ Hgd Hf) as (h & lo & hi & dlo & dhi & -> & Hnd & Hh & Hlo & Hhi & Hr0 & Hr1 & Hnz).
    rewrite Hfn in Hnd. injection Hnd as ->. cbn [rank] in Hn.
    destruct dg as [tg|hdg dsg].
    + pose proof Hg as [_ Ht]%repr_leaf. rewrite Hgn in Ht. injection Ht as ->.
      destruct tg; try apply ztres_const.

    + destruct (zrepr_node2 _ _ _ _ Hgd Hg) as
        (h' & lo' & hi' & dlo' & dhi' & -> & Hnd & Hh' & Hlo' & Hhi' & Hr0' & Hr1' & Hnz').
      rewrite Hgn in Hnd. injection Hnd as ->. cbn [rank] in Hn.
      rewrite (a_hdr_level _ _ _ Hh), (a_hdr_level _ _ _ Hh'). cbn [mbind option_bind edges2].
      destruct (Nat.ltb_spec (h_level hdg) (h_level hdf)) as [Hlt|Hge].
      * eapply IH; try done; try apply (zg_one _ Hgd); cbn [rank]; lia.
      * destruct (Nat.ltb_spec (h_level hdf) (h_level hdg)) as [Hlt|Hge'].
        -- eapply IH; try done; try apply (zg_one _ Hgd); cbn [rank]; lia.
        -- eapply (znode_both_tidy ZIntersect m h hdf dlo dlo' dhi dhi' _ (λ m, zdd_intersect_f n m hi hi')); try done; try lia.
           ++ apply zintersect_spec; [done..|]. lia.
           ++ eapply IH; [done..|]. lia.
           ++ intros m1 Hst. assert (repr (z_ar m1) dhi hi ∧ repr (z_ar m1) dhi' hi') as [? ?] by (split; by eapply zstep_repr).
              split; [apply zintersect_spec|eapply IH]; try done; try apply Hst; lia.
Qed.
