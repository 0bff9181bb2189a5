(** Correctness of the ZDD operations (internal lemmas, stated on trees). *)
From Verif Require Import Prelude Arena Trees ArenaProofs ArenaMore Bdd BddProofs Zdd ZddTrees.

Definition Rz (cs : list nat) : Prop := ∃ lo hi, cs = [lo; hi] ∧ hi ≠ zdd_zero.

Record zgood (a : arena tv) : Prop := {
  zg_wf : awf Rz a;
  zg_zero : repr a (Leaf TZero) zdd_zero;
  zg_one : repr a (Leaf TOne) zdd_one;
  zg_undet : repr a (Leaf TUndet) zdd_undet;
  zg_edges : ∀ h hd, ar_headers a !! h = Some hd → h_edges hd = E2 (h_level hd);
}.

Definition zentry (a : arena tv) (k : zop * nat * nat) (v : nat) : Prop :=
  ∃ df dg dr, repr a df k.1.2 ∧ repr a dg k.2 ∧ repr a dr v ∧
    rank dr ≤ rank df `max` rank dg ∧ zrel k.1.1 df dg dr.

Record zwf (m : zdd) : Prop := {
  zw_good : zgood (z_ar m);
  zw_cok : ∀ k v, z_cache m !! k = Some v → zentry (z_ar m) k v;
}.

Definition zstep (m m' : zdd) : Prop :=
  zwf m' ∧ ext (z_ar m) (z_ar m') ∧ ar_headers (z_ar m') = ar_headers (z_ar m).

Lemma zstep_refl m : zwf m → zstep m m.
Proof. intros. split; [done|]. split; [apply ext_refl|done]. Qed.
Lemma zstep_trans m1 m2 m3 : zstep m1 m2 → zstep m2 m3 → zstep m1 m3.
Proof. intros (_ & H1 & H2) (? & H3 & H4). split; [done|]. split; [by eapply ext_trans|congruence]. Qed.

Lemma zgood_ok a d id : zgood a → repr a d id → okdd E2 d.
Proof. intros [Hwf _ _ _ He]. by eapply repr_ok. Qed.

Lemma zentry_mono a a' k v : ext a a' → zentry a k v → zentry a' k v.
Proof.
  intros He (df & dg & dr & Hf & Hg & Hr & Hk & Hp). exists df, dg, dr.
  sp; try done; by eapply repr_mono.
Qed.

Lemma zrepr_node2 a hd ds id : zgood a → repr a (Br hd ds) id →
  ∃ h lo hi dlo dhi, ds = [dlo; dhi] ∧ ar_nodes a !! id = Some (NT h [lo; hi]) ∧
    ar_headers a !! h = Some hd ∧ repr a dlo lo ∧ repr a dhi hi ∧
    rank dlo ≤ h_level hd ∧ rank dhi ≤ h_level hd ∧ dhi ≠ Leaf TZero.
Proof.
  intros Hg Hr. destruct (a_node2 Rz a hd ds id (zg_wf _ Hg) (zg_edges _ Hg) Hr)
    as (h & lo & hi & dlo & dhi & -> & Hn & Hh & Hlo & Hhi & R0 & R1 & (? & ? & [= <- <-] & Hz)).
  exists h, lo, hi, dlo, dhi. sp; try done. intros ->. apply Hz.
  eapply repr_inj; [apply (zg_wf _ Hg)|exact Hhi|apply Hg].
Qed.

Lemma zwith_ar_step m a : zwf m → zgood a → ext (z_ar m) a → ar_headers a = ar_headers (z_ar m) →
  zstep m (zwith_ar m a).
Proof.
  intros Hw Hg He Hh. split; [|done]. destruct Hw as [? Hc]. constructor; try done; cbn.
  intros k v Hk. eapply zentry_mono; eauto.
Qed.

Lemma zgood_mono a a' : zgood a → awf Rz a' → ext a a' → ar_headers a' = ar_headers a → zgood a'.
Proof.
  intros [? ? ? ? He] Hwf Hext Hh. constructor; try done; try by eapply repr_mono.
  by rewrite Hh.
Qed.

Lemma zcreate_node_spec m h hd lo hi dlo dhi : zwf m → ar_headers (z_ar m) !! h = Some hd →
  repr (z_ar m) dlo lo → repr (z_ar m) dhi hi → rank dlo ≤ h_level hd → rank dhi ≤ h_level hd →
  ∃ m' r dr, zdd_create_node m h lo hi = (m', r) ∧ zstep m m' ∧ repr (z_ar m') dr r ∧
    ((dhi = Leaf TZero ∧ dr = dlo) ∨ (dhi ≠ Leaf TZero ∧ dr = Br hd [dlo; dhi])).
Proof.
  intros Hw Hh Hlo Hhi Hr0 Hr1. unfold zdd_create_node.
  pose proof (zw_good m Hw) as Hg. pose proof (zg_wf _ Hg) as Hwf.
  destruct (Nat.eqb_spec hi zdd_zero) as [->|Hne].
  { exists m, lo, dlo. split; [done|]. split; [by apply zstep_refl|]. split; [done|]. left.
    split; [|done]. eapply repr_fun; [done|apply Hg]. }
  destruct (hashcons_spec Rz (z_ar m) h hd [lo; hi]) as (a' & r & Heq & Hwf' & Hext & Hhd & Hl & Hn & _);
    try done.
  { symmetry. by apply (zg_edges _ Hg h). }
  { by exists lo, hi. }
  { rewrite !Forall_cons. sp; try constructor; try by eapply repr_live.
    - by eapply repr_rank_below.
    - by eapply repr_rank_below. }
  rewrite Heq. exists (zwith_ar m a'), r, (Br hd [dlo; dhi]). split; [done|].
  split; [|split].
  - apply zwith_ar_step; try done. by eapply zgood_mono.
  - cbn [zwith_ar z_ar]. apply repr_br. split; [done|]. exists h, [lo; hi]. split; [done|].
    split; [by rewrite Hhd|]. (constructor; [by eapply repr_mono|]). (constructor; [by eapply repr_mono|]). constructor.
  - right. split; [|done]. intros ->. apply Hne. eapply repr_inj; [exact Hwf|exact Hhi|apply Hg].
Qed.

Lemma zcreate_node_sem m h hd lo hi dlo dhi : zwf m → ar_headers (z_ar m) !! h = Some hd →
  repr (z_ar m) dlo lo → repr (z_ar m) dhi hi → rank dlo ≤ h_level hd → rank dhi ≤ h_level hd →
  ∃ m' r dr, zdd_create_node m h lo hi = (m', r) ∧ zstep m m' ∧ repr (z_ar m') dr r ∧
    rank dr ≤ S (h_level hd) ∧ zsplit (h_level hd) dr dlo dhi.
Proof.
  intros Hw Hh Hlo Hhi Hr0 Hr1.
  destruct (zcreate_node_spec m h hd lo hi dlo dhi) as (m' & r & dr & Heq & Hst & Hr & Hd); try done.
  pose proof (zgood_ok _ _ _ (zw_good _ Hw) Hlo) as O0.
  exists m', r, dr. split; [done|]. split; [done|]. split; [done|].
  destruct Hd as [[-> ->]|[_ ->]].
  - split; [lia|]. by apply zsplit_low.
  - split; [cbn; lia|]. apply zsplit_br. eapply zgood_ok; [apply Hst|done].
Qed.

(** ** Postcondition of an operation *)
Definition zres (o : zop) m df dg (x : option (zdd * nat)) : Prop :=
  ∃ m' r dr, x = Some (m', r) ∧ zstep m m' ∧ repr (z_ar m') dr r ∧
    rank dr ≤ rank df `max` rank dg ∧ zrel o df dg dr.

Lemma zcache_put_step m o f g r df dg dr : zwf m →
  repr (z_ar m) df f → repr (z_ar m) dg g → repr (z_ar m) dr r →
  rank dr ≤ rank df `max` rank dg → zrel o df dg dr → zstep m (zdd_cache_put m o f g r).
Proof.
  intros Hw Hf Hg Hr Hk Hp. split; [|by split; [apply ext_refl|]].
  destruct Hw. constructor; try done; cbn. intros k v.
  rewrite lookup_insert_Some. intros [[<- <-]|[_ Hold]]; [|auto].
  exists df, dg, dr. done.
Qed.

Lemma zfinish o m f g df dg (x : option (zdd * nat)) :
  zwf m → repr (z_ar m) df f → repr (z_ar m) dg g → zres o m df dg x →
  zres o m df dg ('(m, result) ← x; Some (zdd_cache_put m o f g result, result)).
Proof.
  intros Hw Hf Hg (m' & r & dr & -> & Hst & Hr & Hk & Hp). cbn [mbind option_bind].
  eexists _, r, dr. split; [done|]. split.
  - eapply zstep_trans; [exact Hst|]. eapply zcache_put_step; try done; [apply Hst|..].
    + eapply repr_mono; [apply Hst|done].
    + eapply repr_mono; [apply Hst|done].
  - done.
Qed.

Lemma zhit m o f g df dg v : zwf m → repr (z_ar m) df f → repr (z_ar m) dg g →
  zdd_cache_get m o f g = Some v → zres o m df dg (Some (m, v)).
Proof.
  intros Hw Hf Hg Hv. destruct (zw_cok _ Hw _ _ Hv) as (df' & dg' & dr & Hf' & Hg' & Hr & Hk & Hp).
  cbn in *. rewrite (repr_fun _ _ _ _ Hf Hf'), (repr_fun _ _ _ _ Hg Hg').
  exists m, v, dr. split; [done|]. split; [by apply zstep_refl|done].
Qed.

Lemma zconst o m df dg r dr : zwf m → repr (z_ar m) dr r →
  rank dr ≤ rank df `max` rank dg → zrel o df dg dr → zres o m df dg (Some (m, r)).
Proof. intros. exists m, r, dr. split; [done|]. split; [by apply zstep_refl|done]. Qed.

Lemma zstep_repr m m' d id : zstep m m' → repr (z_ar m) d id → repr (z_ar m') d id.
Proof. intros (_ & He & _). by apply repr_mono. Qed.
Lemma zstep_hdr m m' h hd : zstep m m' → ar_headers (z_ar m) !! h = Some hd →
  ar_headers (z_ar m') !! h = Some hd.
Proof. intros (_ & _ & ->). done. Qed.

(** facts about constant operands *)
Lemma zdet_leaf t : zdet (Leaf t) → t ≠ TUndet.
Proof. intros H ->. by apply (H ∅). Qed.

Lemma zrel_union_zero_r d : zrel ZUnion d (Leaf TZero) d.
Proof. intros D _. split; [done|]. intros S. pose proof (zmem_leaf0 S). tauto. Qed.
Lemma zrel_union_zero_l d : zrel ZUnion (Leaf TZero) d d.
Proof. intros _ D. split; [done|]. intros S. pose proof (zmem_leaf0 S). tauto. Qed.
Lemma zrel_union_same d : zrel ZUnion d d d.
Proof. intros D _. split; [done|]. intros S. tauto. Qed.
Lemma zrel_diff_zero_r d : zrel ZSetdiff d (Leaf TZero) d.
Proof. intros D _. split; [done|]. intros S. pose proof (zmem_leaf0 S). tauto. Qed.
Lemma zrel_diff_zero_l d : zrel ZSetdiff (Leaf TZero) d (Leaf TZero).
Proof. intros D _. split; [done|]. intros S. pose proof (zmem_leaf0 S). tauto. Qed.
Lemma zrel_diff_same d : zrel ZSetdiff d d (Leaf TZero).
Proof. intros D _. split; [apply zdet_zero|]. intros S. pose proof (zmem_leaf0 S). tauto. Qed.
Lemma zrel_int_zero_r d : d ≠ Leaf TUndet → zrel ZIntersect d (Leaf TZero) (Leaf TZero).
Proof.
  intros Hd. split; [done|]. split; [done|]. intros _ D. split; [done|]. intros S. pose proof (zmem_leaf0 S). cbn [zthru]. naive_solver.
Qed.
Lemma zrel_int_zero_l d : d ≠ Leaf TUndet → zrel ZIntersect (Leaf TZero) d (Leaf TZero).
Proof.
  intros Hd. split; [done|]. split; [done|]. intros D _. split; [done|]. intros S. pose proof (zmem_leaf0 S). cbn [zthru]. naive_solver.
Qed.
Lemma zrel_int_same d : okdd E2 d → zrel ZIntersect d d d.
Proof.
  intros Ho. split; [done|]. split; [done|]. intros D _. split; [done|]. intros S. pose proof (zmem_thru S d Ho). tauto.
Qed.
Lemma zrel_int_one_l d : okdd E2 d → d ≠ Leaf TUndet → zrel ZIntersect (Leaf TOne) d d.
Proof.
  intros Ho Hd. split; [done|]. split; [done|]. intros _ D. split; [done|]. intros S. cbn [zthru].
  split; [tauto|]. intros [?|[->%zmem_leaf1 Ht]]; [tauto|]. by apply zthru_empty.
Qed.
Lemma zrel_int_one_r d : okdd E2 d → d ≠ Leaf TUndet → zrel ZIntersect d (Leaf TOne) d.
Proof.
  intros Ho Hd. destruct (zrel_int_one_l d Ho Hd) as (_ & _ & H). split; [done|]. split; [done|].
  intros D1 D2. destruct (H D2 D1) as [D Hs]. split; [done|]. by apply zspec_int_sym.
Qed.
Lemma zrel_int_undet_l d : zrel ZIntersect (Leaf TUndet) d d.
Proof. split; [done|]. split; [by intros ->|]. by intros ?%zdet_leaf. Qed.
Lemma zrel_int_undet_r d : zrel ZIntersect d (Leaf TUndet) d.
Proof. split; [by intros ->|]. split; [done|]. by intros _ ?%zdet_leaf. Qed.
Lemma zrel_prod_zero_l d : zrel ZProduct (Leaf TZero) d (Leaf TZero).
Proof.
  intros D _. split; [done|]. intros S. split; [by intros ?%zmem_leaf0|]. by intros ?%zjoin_zero_l.
Qed.
Lemma zrel_prod_zero_r d : zrel ZProduct d (Leaf TZero) (Leaf TZero).
Proof.
  intros _ D. split; [done|]. intros S. split; [by intros ?%zmem_leaf0|]. by intros ?%zjoin_zero_r.
Qed.
Lemma zrel_prod_one_l d : zrel ZProduct (Leaf TOne) d d.
Proof.
  intros _ D. split; [done|]. intros S. split.
  - intros H. exists ∅, S. sp; [set_solver|by apply zmem_leaf1|done].
  - intros (A & B & -> & ->%zmem_leaf1 & HB). by rewrite (left_id_L ∅ (∪)).
Qed.
Lemma zrel_prod_one_r d : zrel ZProduct d (Leaf TOne) d.
Proof.
  intros D _. split; [done|]. intros S. split.
  - intros H. exists S, ∅. sp; [set_solver|done|by apply zmem_leaf1].
  - intros (A & B & -> & HA & ->%zmem_leaf1). by rewrite (right_id_L ∅ (∪)).
Qed.
Lemma zrel_undet_l o d r : o ≠ ZDivision → o ≠ ZIntersect → zrel o (Leaf TUndet) d r.
Proof. destruct o; try done; intros _ _; by intros ?%zdet_leaf. Qed.
Lemma zrel_undet_r o d r : o ≠ ZDivision → o ≠ ZIntersect → zrel o d (Leaf TUndet) r.
Proof. destruct o; try done; intros _ _; by intros _ ?%zdet_leaf. Qed.

(** result of the form create_node (low computed recursively, high given) *)
Lemma znode_hi o m h hd df dg f0 g0 f1 g1 hi dhi (x : option (zdd * nat)) : pointwise o →
  zwf m → ar_headers (z_ar m) !! h = Some hd →
  rank df `max` rank dg = S (h_level hd) →
  zsplit (h_level hd) df f0 f1 → zsplit (h_level hd) dg g0 g1 →
  repr (z_ar m) dhi hi → rank dhi ≤ h_level hd → zrel o f1 g1 dhi →
  zres o m f0 g0 x →
  zres o m df dg ('(m, low) ← x; Some (zdd_create_node m h low hi)).
Proof.
  intros Ho Hw Hh Hmx Sf Sg Hhi Rhi P1 (m1 & lo & dlo & -> & Hst & Hlo & Hk & P0). cbn [mbind option_bind].
  pose proof Sf as (_ & _ & Rf0 & Rf1 & _). pose proof Sg as (_ & _ & Rg0 & Rg1 & _).
  destruct (zcreate_node_sem m1 h hd lo hi dlo dhi) as (m2 & r & dr & -> & Hst2 & Hr & Hkr & Hs);
    try done; [apply Hst|by eapply zstep_hdr|by eapply zstep_repr|lia|].
  exists m2, r, dr. split; [done|]. split; [by eapply zstep_trans|]. split; [done|].
  split; [lia|]. by eapply zrel_pointwise.
Qed.

(** both children computed recursively *)
Lemma znode_both o m h hd df dg f0 g0 f1 g1 (x0 : option (zdd * nat)) (x1 : zdd → option (zdd * nat)) :
  pointwise o → zwf m → ar_headers (z_ar m) !! h = Some hd →
  rank df `max` rank dg = S (h_level hd) →
  zsplit (h_level hd) df f0 f1 → zsplit (h_level hd) dg g0 g1 →
  zres o m f0 g0 x0 → (∀ m1, zstep m m1 → zres o m1 f1 g1 (x1 m1)) →
  zres o m df dg ('(m, low) ← x0; '(m, high) ← x1 m; Some (zdd_create_node m h low high)).
Proof.
  intros Ho Hw Hh Hmx Sf Sg (m1 & lo & dlo & -> & Hst & Hlo & Hk & P0) H1. cbn [mbind option_bind].
  pose proof Sf as (_ & _ & Rf0 & Rf1 & _). pose proof Sg as (_ & _ & Rg0 & Rg1 & _).
  destruct (H1 _ Hst) as (m2 & hi & dhi & -> & Hst2 & Hhi & Hk2 & P1). cbn [mbind option_bind].
  destruct (zcreate_node_sem m2 h hd lo hi dlo dhi) as (m3 & r & dr & -> & Hst3 & Hr & Hkr & Hs);
    try done; [apply Hst2|by do 2 (eapply zstep_hdr; [done|])|by eapply zstep_repr|lia|lia|].
  exists m3, r, dr. split; [done|].
  split; [eapply zstep_trans; [exact Hst|]; by eapply zstep_trans|]. split; [done|].
  split; [lia|]. by eapply zrel_pointwise.
Qed.

(** the result is the recursive call on the low parts *)
Lemma znode_low o m df dg f0 g0 f1 g1 l (x : option (zdd * nat)) : pointwise o →
  rank df `max` rank dg = S l →
  zsplit l df f0 f1 → zsplit l dg g0 g1 → zrel o f1 g1 (Leaf TZero) →
  zres o m f0 g0 x → zres o m df dg x.
Proof.
  intros Ho Hmx Sf Sg P1 (m1 & r & dr & -> & Hst & Hr & Hk & P0).
  pose proof Sf as (_ & _ & Rf0 & Rf1 & _). pose proof Sg as (_ & _ & Rg0 & Rg1 & _).
  exists m1, r, dr. split; [done|]. split; [done|]. split; [done|]. split; [lia|].
  eapply zrel_pointwise; [done|exact Sf|exact Sg| |exact P0|exact P1].
  apply zsplit_low; [eapply zgood_ok; [apply Hst|done]|lia].
Qed.

(** the shape of two operands *)
Ltac zshape Hg Hf Hfn df :=
  destruct df as [?t|?hd ?ds];
  [ pose proof Hf as [_ ?Ht]%repr_leaf; rewrite Hfn in Ht; injection Ht as -> | ].

Ltac zarm dr := eapply (zconst _ _ _ _ _ dr); [done|first [done|by apply zg_zero|by apply zg_one|by apply zg_undet]
  |cbn [rank]; lia|
   first [by apply zrel_undet_l|by apply zrel_undet_r|apply zrel_union_zero_l|apply zrel_union_zero_r|apply zrel_union_same
     |apply zrel_diff_zero_l|apply zrel_diff_zero_r|apply zrel_diff_same|by apply zrel_int_undet_l|by apply zrel_int_undet_r|by apply zrel_int_zero_l|by apply zrel_int_zero_r
     |by apply zrel_int_one_l|by apply zrel_int_one_r|by apply zrel_int_same
     |apply zdiv_undet_l|apply zdiv_undet_r|apply zdiv_by_zero|apply zdiv_by_one|apply zdiv_zero_br|by apply zdiv_one_br
     |apply zrel_prod_zero_l|apply zrel_prod_zero_r|apply zrel_prod_one_l|apply zrel_prod_one_r|done]].

Lemma zunion_spec n : ∀ m f g df dg, zwf m → repr (z_ar m) df f → repr (z_ar m) dg g →
  rank df `max` rank dg < n → zres ZUnion m df dg (zdd_union_f n m f g).
Proof.
  induction n as [|n IH]; intros m f g df dg Hw Hf Hg Hn; [lia|]. cbn [zdd_union_f].
  destruct (Nat.eqb_spec f g) as [->|Hne].
  { rewrite (repr_fun _ _ _ _ Hf Hg). zarm dg. }
  pose proof (zw_good _ Hw) as Hgd.
  destruct (zdd_cache_get _ _ _ _) as [v|] eqn:Hc; [by eapply zhit|].
  destruct (live_lookup _ _ (repr_live _ _ _ Hf)) as [fn Hfn].
  destruct (live_lookup _ _ (repr_live _ _ _ Hg)) as [gn Hgn].
  rewrite Hfn, Hgn. cbn [mbind option_bind]. apply zfinish; [done..|].
  pose proof (zgood_ok _ _ _ Hgd Hf) as Of. pose proof (zgood_ok _ _ _ Hgd Hg) as Og.
  destruct df as [tf|hdf dsf].
  - pose proof Hf as [_ Ht]%repr_leaf. rewrite Hfn in Ht. injection Ht as ->.
    destruct dg as [tg|hdg dsg].
    + pose proof Hg as [_ Ht]%repr_leaf. rewrite Hgn in Ht. injection Ht as ->.
      destruct tf, tg; first [zarm (Leaf TZero) | zarm (Leaf TOne) | zarm (Leaf TUndet)].
    + destruct (zrepr_node2 _ _ _ _ Hgd Hg) as (h & lo & hi & dlo & dhi & -> & Hnd & Hh & Hlo & Hhi & Hr0 & Hr1 & Hnz).
      rewrite Hgn in Hnd. injection Hnd as ->. cbn [rank] in Hn.
      destruct tf; [zarm (Br hdg [dlo; dhi])| |zarm (Leaf TUndet)].
      cbn [edges2 mbind option_bind].
      eapply (znode_hi ZUnion m h hdg _ _ (Leaf TOne) dlo (Leaf TZero) dhi); try done.
      * apply zsplit_low; [done|cbn; lia].
      * by apply zsplit_br.
      * apply zrel_union_zero_l.
      * apply IH; [done|apply Hgd|done|]. cbn [rank]. lia.
  - destruct (zrepr_node2 _ _ _ _ Hgd Hf) as (h & lo & hi & dlo & dhi & -> & Hnd & Hh & Hlo & Hhi & Hr0 & Hr1 & Hnz).
    rewrite Hfn in Hnd. injection Hnd as ->. cbn [rank] in Hn.
    destruct dg as [tg|hdg dsg].
    + pose proof Hg as [_ Ht]%repr_leaf. rewrite Hgn in Ht. injection Ht as ->.
      destruct tg; [zarm (Br hdf [dlo; dhi])| |zarm (Leaf TUndet)].
      cbn [edges2 mbind option_bind].
      eapply (znode_hi ZUnion m h hdf _ _ dlo (Leaf TOne) dhi (Leaf TZero)); try done.
      * by apply zsplit_br.
      * apply zsplit_low; [done|cbn; lia].
      * apply zrel_union_zero_r.
      * apply IH; [done|done|apply Hgd|]. cbn [rank]. lia.
    + destruct (zrepr_node2 _ _ _ _ Hgd Hg) as
        (h' & lo' & hi' & dlo' & dhi' & -> & Hnd & Hh' & Hlo' & Hhi' & Hr0' & Hr1' & Hnz').
      rewrite Hgn in Hnd. injection Hnd as ->. cbn [rank] in Hn.
      rewrite (a_hdr_level _ _ _ Hh), (a_hdr_level _ _ _ Hh'). cbn [mbind option_bind edges2].
      destruct (Nat.ltb_spec (h_level hdg) (h_level hdf)) as [Hlt|Hge].
      * eapply (znode_hi ZUnion m h hdf _ _ dlo (Br hdg [dlo'; dhi']) dhi (Leaf TZero)); try done.
        -- cbn [rank]; lia.
        -- by apply zsplit_br.
        -- apply zsplit_low; [done|cbn; lia].
        -- apply zrel_union_zero_r.
        -- apply IH; [done..|]. cbn [rank]. lia.
      * destruct (Nat.ltb_spec (h_level hdf) (h_level hdg)) as [Hlt|Hge'].
        -- eapply (znode_hi ZUnion m h' hdg _ _ (Br hdf [dlo; dhi]) dlo' (Leaf TZero) dhi'); try done.
           ++ cbn [rank]; lia.
           ++ apply zsplit_low; [done|cbn; lia].
           ++ by apply zsplit_br.
           ++ apply zrel_union_zero_l.
           ++ apply IH; [done..|]. cbn [rank]. lia.
        -- assert (Hll : h_level hdf = h_level hdg) by lia.
           eapply (znode_both ZUnion m h hdf _ _ dlo dlo' dhi dhi' _ (λ m, zdd_union_f n m hi hi')); try done.
           ++ cbn [rank]; lia.
           ++ by apply zsplit_br.
           ++ rewrite Hll. by apply zsplit_br.
           ++ apply IH; [done..|]. cbn [rank]. lia.
           ++ intros m1 Hst. apply IH; [apply Hst|by eapply zstep_repr|by eapply zstep_repr|]. cbn [rank]. lia.
Qed.

Lemma zsetdiff_spec n : ∀ m f g df dg, zwf m → repr (z_ar m) df f → repr (z_ar m) dg g →
  rank df `max` rank dg < n → zres ZSetdiff m df dg (zdd_setdiff_f n m f g).
Proof.
  induction n as [|n IH]; intros m f g df dg Hw Hf Hg Hn; [lia|]. cbn [zdd_setdiff_f].
  pose proof (zw_good _ Hw) as Hgd.
  destruct (Nat.eqb_spec f g) as [->|Hne].
  { rewrite (repr_fun _ _ _ _ Hf Hg). destruct (Nat.eqb_spec g zdd_undet) as [->|_]; [|zarm (Leaf TZero)].
    rewrite (repr_fun _ _ _ _ Hg (zg_undet _ Hgd)). zarm (Leaf TUndet). }
  destruct (zdd_cache_get _ _ _ _) as [v|] eqn:Hc; [by eapply zhit|].
  destruct (live_lookup _ _ (repr_live _ _ _ Hf)) as [fn Hfn].
  destruct (live_lookup _ _ (repr_live _ _ _ Hg)) as [gn Hgn].
  rewrite Hfn, Hgn. cbn [mbind option_bind]. apply zfinish; [done..|].
  pose proof (zgood_ok _ _ _ Hgd Hf) as Of. pose proof (zgood_ok _ _ _ Hgd Hg) as Og.
  destruct df as [tf|hdf dsf].
  - pose proof Hf as [_ Ht]%repr_leaf. rewrite Hfn in Ht. injection Ht as ->.
    destruct dg as [tg|hdg dsg].
    + pose proof Hg as [_ Ht]%repr_leaf. rewrite Hgn in Ht. injection Ht as ->.
      destruct tf, tg; first [zarm (Leaf TZero) | zarm (Leaf TOne) | zarm (Leaf TUndet)].
    + destruct (zrepr_node2 _ _ _ _ Hgd Hg) as (h & lo & hi & dlo & dhi & -> & Hnd & Hh & Hlo & Hhi & Hr0 & Hr1 & Hnz).
      rewrite Hgn in Hnd. injection Hnd as ->. cbn [rank] in Hn.
      destruct tf; [zarm (Leaf TZero)| |zarm (Leaf TUndet)].
      cbn [edges2 mbind option_bind].
      eapply (znode_low ZSetdiff m _ _ (Leaf TOne) dlo (Leaf TZero) dhi (h_level hdg)); try done.
      * apply zsplit_low; [done|cbn; lia].
      * by apply zsplit_br.
      * apply zrel_diff_zero_l.
      * apply IH; [done|apply Hgd|done|]. cbn [rank]. lia.
  - destruct (zrepr_node2 _ _ _ _ Hgd Hf) as (h & lo & hi & dlo & dhi & -> & Hnd & Hh & Hlo & Hhi & Hr0 & Hr1 & Hnz).
    rewrite Hfn in Hnd. injection Hnd as ->. cbn [rank] in Hn.
    destruct dg as [tg|hdg dsg].
    + pose proof Hg as [_ Ht]%repr_leaf. rewrite Hgn in Ht. injection Ht as ->.
      destruct tg; [zarm (Br hdf [dlo; dhi])| |zarm (Br hdf [dlo; dhi])].
      cbn [edges2 mbind option_bind].
      eapply (znode_hi ZSetdiff m h hdf _ _ dlo (Leaf TOne) dhi (Leaf TZero)); try done.
      * by apply zsplit_br.
      * apply zsplit_low; [done|cbn; lia].
      * apply zrel_diff_zero_r.
      * apply IH; [done|done|apply Hgd|]. cbn [rank]. lia.
    + destruct (zrepr_node2 _ _ _ _ Hgd Hg) as
        (h' & lo' & hi' & dlo' & dhi' & -> & Hnd & Hh' & Hlo' & Hhi' & Hr0' & Hr1' & Hnz').
      rewrite Hgn in Hnd. injection Hnd as ->. cbn [rank] in Hn.
      rewrite (a_hdr_level _ _ _ Hh), (a_hdr_level _ _ _ Hh'). cbn [mbind option_bind edges2].
      destruct (Nat.ltb_spec (h_level hdg) (h_level hdf)) as [Hlt|Hge].
      * eapply (znode_hi ZSetdiff m h hdf _ _ dlo (Br hdg [dlo'; dhi']) dhi (Leaf TZero)); try done.
        -- cbn [rank]; lia.
        -- by apply zsplit_br.
        -- apply zsplit_low; [done|cbn; lia].
        -- apply zrel_diff_zero_r.
        -- apply IH; [done..|]. cbn [rank]. lia.
      * destruct (Nat.ltb_spec (h_level hdf) (h_level hdg)) as [Hlt|Hge'].
        -- eapply (znode_low ZSetdiff m _ _ (Br hdf [dlo; dhi]) dlo' (Leaf TZero) dhi' (h_level hdg)); try done.
           ++ cbn [rank]; lia.
           ++ apply zsplit_low; [done|cbn; lia].
           ++ by apply zsplit_br.
           ++ apply zrel_diff_zero_l.
           ++ apply IH; [done..|]. cbn [rank]. lia.
        -- assert (Hll : h_level hdf = h_level hdg) by lia.
           eapply (znode_both ZSetdiff m h hdf _ _ dlo dlo' dhi dhi' _ (λ m, zdd_setdiff_f n m hi hi')); try done.
           ++ cbn [rank]; lia.
           ++ by apply zsplit_br.
           ++ rewrite Hll. by apply zsplit_br.
           ++ apply IH; [done..|]. cbn [rank]. lia.
           ++ intros m1 Hst. apply IH; [apply Hst|by eapply zstep_repr|by eapply zstep_repr|]. cbn [rank]. lia.
Qed.

Lemma zintersect_spec n : ∀ m f g df dg, zwf m → repr (z_ar m) df f → repr (z_ar m) dg g →
  rank df `max` rank dg < n → zres ZIntersect m df dg (zdd_intersect_f n m f g).
Proof.
  induction n as [|n IH]; intros m f g df dg Hw Hf Hg Hn; [lia|]. cbn [zdd_intersect_f].
  destruct (Nat.eqb_spec f g) as [->|Hne].
  { rewrite (repr_fun _ _ _ _ Hf Hg). pose proof (zgood_ok _ _ _ (zw_good _ Hw) Hg). zarm dg. }
  pose proof (zw_good _ Hw) as Hgd.
  destruct (zdd_cache_get _ _ _ _) as [v|] eqn:Hc; [by eapply zhit|].
  destruct (live_lookup _ _ (repr_live _ _ _ Hf)) as [fn Hfn].
  destruct (live_lookup _ _ (repr_live _ _ _ Hg)) as [gn Hgn].
  rewrite Hfn, Hgn. cbn [mbind option_bind]. apply zfinish; [done..|].
  pose proof (zgood_ok _ _ _ Hgd Hf) as Of. pose proof (zgood_ok _ _ _ Hgd Hg) as Og.
  destruct df as [tf|hdf dsf].
  - pose proof Hf as [_ Ht]%repr_leaf. rewrite Hfn in Ht. injection Ht as ->.
    destruct dg as [tg|hdg dsg].
    + pose proof Hg as [_ Ht]%repr_leaf. rewrite Hgn in Ht. injection Ht as ->.
      destruct tf, tg; first [zarm (Leaf TZero) | zarm (Leaf TOne) | zarm (Leaf TUndet)].
    + destruct (zrepr_node2 _ _ _ _ Hgd Hg) as (h & lo & hi & dlo & dhi & -> & Hnd & Hh & Hlo & Hhi & Hr0 & Hr1 & Hnz).
      rewrite Hgn in Hnd. injection Hnd as ->.
      destruct tf; first [zarm (Leaf TZero) | zarm (Br hdg [dlo; dhi])].
  - destruct (zrepr_node2 _ _ _ _ Hgd Hf) as (h & lo & hi & dlo & dhi & -> & Hnd & Hh & Hlo & Hhi & Hr0 & Hr1 & Hnz).
    rewrite Hfn in Hnd. injection Hnd as ->. cbn [rank] in Hn.
    destruct dg as [tg|hdg dsg].
    + pose proof Hg as [_ Ht]%repr_leaf. rewrite Hgn in Ht. injection Ht as ->.
      destruct tg; first [zarm (Leaf TZero) | zarm (Br hdf [dlo; dhi])].
    + destruct (zrepr_node2 _ _ _ _ Hgd Hg) as
        (h' & lo' & hi' & dlo' & dhi' & -> & Hnd & Hh' & Hlo' & Hhi' & Hr0' & Hr1' & Hnz').
      rewrite Hgn in Hnd. injection Hnd as ->. cbn [rank] in Hn.
      rewrite (a_hdr_level _ _ _ Hh), (a_hdr_level _ _ _ Hh'). cbn [mbind option_bind edges2].
      destruct (Nat.ltb_spec (h_level hdg) (h_level hdf)) as [Hlt|Hge].
      * destruct (IH m lo g dlo (Br hdg [dlo'; dhi'])) as (m1 & r & dr & -> & Hst & Hr & Hk & _ & _ & P0); try done.
        { cbn [rank]. lia. }
        pose proof (zgood_ok _ _ _ (zw_good _ (proj1 Hst)) Hr) as Or. cbn [rank] in Hk.
        exists m1, r, dr. split; [done|]. split; [done|]. split; [done|]. split; [cbn [rank]; lia|].
        split; [done|]. split; [done|]. intros Df Dg.
        pose proof Df as [Df0 _]%(zdet_split _ _ _ _ (zsplit_br _ _ _ Of)).
        destruct (P0 Df0 Dg) as [Dr Hs]. split; [done|]. apply zspec_int_low; try done. lia.
      * destruct (Nat.ltb_spec (h_level hdf) (h_level hdg)) as [Hlt|Hge'].
        -- destruct (IH m f lo' (Br hdf [dlo; dhi]) dlo') as (m1 & r & dr & -> & Hst & Hr & Hk & _ & _ & P0); try done.
           { cbn [rank]. lia. }
           pose proof (zgood_ok _ _ _ (zw_good _ (proj1 Hst)) Hr) as Or. cbn [rank] in Hk.
           exists m1, r, dr. split; [done|]. split; [done|]. split; [done|]. split; [cbn [rank]; lia|].
           split; [done|]. split; [done|]. intros Df Dg.
           pose proof Dg as [Dg0 _]%(zdet_split _ _ _ _ (zsplit_br _ _ _ Og)).
           destruct (P0 Df Dg0) as [Dr Hs]. split; [done|]. apply zspec_int_sym, zspec_int_low; try done; [lia|].
           by apply zspec_int_sym.
        -- assert (Hll : h_level hdf = h_level hdg) by lia.
           destruct (IH m lo lo' dlo dlo') as (m1 & r0 & d0 & -> & St1 & A0 & K0 & P0); try done; [lia|].
           cbn [mbind option_bind].
           destruct (IH m1 hi hi' dhi dhi') as (m2 & r1 & d1 & -> & St2 & A1 & K1 & P1);
             [apply St1|by eapply zstep_repr|by eapply zstep_repr|lia|].
           cbn [mbind option_bind].
           destruct (zcreate_node_sem m2 h hdf r0 r1 d0 d1) as (m3 & r & dr & -> & St3 & Hr & Hkr & Hs);
             try done; [apply St2|by do 2 (eapply zstep_hdr; [done|])|by eapply zstep_repr|lia|lia|].
           exists m3, r, dr. split; [done|]. split; [eapply zstep_trans; [exact St1|]; by eapply zstep_trans|].
           split; [done|]. split; [cbn [rank]; lia|]. by eapply zrel_int_both.
Qed.

Lemma zdd_union_ok m f g df dg : zwf m → repr (z_ar m) df f → repr (z_ar m) dg g →
  zres ZUnion m df dg (zdd_union m f g).
Proof.
  intros Hw Hf Hg. pose proof (a_fuel_enough _ _ _ Hf). pose proof (a_fuel_enough _ _ _ Hg).
  apply zunion_spec; try done. lia.
Qed.
Lemma zdd_setdiff_ok m f g df dg : zwf m → repr (z_ar m) df f → repr (z_ar m) dg g →
  zres ZSetdiff m df dg (zdd_setdiff m f g).
Proof.
  intros Hw Hf Hg. pose proof (a_fuel_enough _ _ _ Hf). pose proof (a_fuel_enough _ _ _ Hg).
  apply zsetdiff_spec; try done. lia.
Qed.
Lemma zdd_intersect_ok m f g df dg : zwf m → repr (z_ar m) df f → repr (z_ar m) dg g →
  zres ZIntersect m df dg (zdd_intersect m f g).
Proof.
  intros Hw Hf Hg. pose proof (a_fuel_enough _ _ _ Hf). pose proof (a_fuel_enough _ _ _ Hg).
  apply zintersect_spec; try done. lia.
Qed.

Lemma zproduct_spec n : ∀ m f g df dg, zwf m → repr (z_ar m) df f → repr (z_ar m) dg g →
  rank df `max` rank dg < n → zres ZProduct m df dg (zdd_product_f n m f g).
Proof.
  induction n as [|n IH]; intros m f g df dg Hw Hf Hg Hn; [lia|]. cbn [zdd_product_f].
  pose proof (zw_good _ Hw) as Hgd.
  destruct (zdd_cache_get _ _ _ _) as [v|] eqn:Hc; [by eapply zhit|].
  destruct (live_lookup _ _ (repr_live _ _ _ Hf)) as [fn Hfn].
  destruct (live_lookup _ _ (repr_live _ _ _ Hg)) as [gn Hgn].
  rewrite Hfn, Hgn. cbn [mbind option_bind]. apply zfinish; [done..|].
  pose proof (zgood_ok _ _ _ Hgd Hf) as Of. pose proof (zgood_ok _ _ _ Hgd Hg) as Og.
  destruct df as [tf|hdf dsf].
  - pose proof Hf as [_ Ht]%repr_leaf. rewrite Hfn in Ht. injection Ht as ->.
    destruct dg as [tg|hdg dsg].
    + pose proof Hg as [_ Ht]%repr_leaf. rewrite Hgn in Ht. injection Ht as ->.
      destruct tf, tg; first [zarm (Leaf TZero) | zarm (Leaf TOne) | zarm (Leaf TUndet)].
    + destruct (zrepr_node2 _ _ _ _ Hgd Hg) as (h & lo & hi & dlo & dhi & -> & Hnd & Hh & Hlo & Hhi & Hr0 & Hr1 & Hnz).
      rewrite Hgn in Hnd. injection Hnd as ->.
      destruct tf; first [zarm (Leaf TZero) | zarm (Leaf TUndet) | zarm (Br hdg [dlo; dhi])].
  - destruct (zrepr_node2 _ _ _ _ Hgd Hf) as (h & lo & hi & dlo & dhi & -> & Hnd & Hh & Hlo & Hhi & Hr0 & Hr1 & Hnz).
    rewrite Hfn in Hnd. injection Hnd as ->. cbn [rank] in Hn.
    destruct dg as [tg|hdg dsg].
    + pose proof Hg as [_ Ht]%repr_leaf. rewrite Hgn in Ht. injection Ht as ->.
      destruct tg; first [zarm (Leaf TZero) | zarm (Leaf TUndet) | zarm (Br hdf [dlo; dhi])].
    + destruct (zrepr_node2 _ _ _ _ Hgd Hg) as
        (h' & lo' & hi' & dlo' & dhi' & -> & Hnd & Hh' & Hlo' & Hhi' & Hr0' & Hr1' & Hnz').
      rewrite Hgn in Hnd. injection Hnd as ->. cbn [rank] in Hn.
      rewrite (a_hdr_level _ _ _ Hh), (a_hdr_level _ _ _ Hh'). cbn [mbind option_bind edges2].
      pose proof (zsplit_br _ _ _ Of) as Sf. pose proof (zsplit_br _ _ _ Og) as Sg.
      destruct (Nat.ltb_spec (h_level hdg) (h_level hdf)) as [Hlt|Hge].
      * destruct (IH m lo g dlo (Br hdg [dlo'; dhi'])) as (m1 & a0 & d0 & -> & St1 & A0 & K0 & P0); try done.
        { cbn [rank]. lia. }
        cbn [mbind option_bind].
        destruct (IH m1 hi g dhi (Br hdg [dlo'; dhi'])) as (m2 & a1 & d1 & -> & St2 & A1 & K1 & P1);
          [apply St1|by eapply zstep_repr|by eapply zstep_repr|cbn [rank]; lia|].
        cbn [mbind option_bind rank] in *.
        destruct (zcreate_node_sem m2 h hdf a0 a1 d0 d1) as (m3 & r & dr & -> & St3 & Hr & Kr & Sr);
          [apply St2|by do 2 (eapply zstep_hdr; [done|])|by eapply zstep_repr|done|lia|lia|].
        exists m3, r, dr. split; [done|]. split; [eapply zstep_trans; [exact St1|]; by eapply zstep_trans|].
        split; [done|]. split; [cbn [rank]; lia|].
        assert (Sg' : zsplit (h_level hdf) (Br hdg [dlo'; dhi']) (Br hdg [dlo'; dhi']) (Leaf TZero))
          by (apply zsplit_low; [done|cbn; lia]).
        eapply (zrel_product (h_level hdf)); [exact Sf|exact Sg'|exact Sr|exact P0|].
        intros D0 D1 D2 D3. destruct (P1 D1 D2) as [D4 P1']. split; [done|]. intros S.
        specialize (P1' S). unfold zspec in P1'. rewrite P1'. fold (zjoin dhi (Br hdg [dlo'; dhi']) S).
        pose proof (zjoin_zero_r dhi S). pose proof (zjoin_zero_r dlo S). tauto.
      * destruct (Nat.ltb_spec (h_level hdf) (h_level hdg)) as [Hlt|Hge'].
        -- destruct (IH m f lo' (Br hdf [dlo; dhi]) dlo') as (m1 & a0 & d0 & -> & St1 & A0 & K0 & P0); try done.
           { cbn [rank]. lia. }
           cbn [mbind option_bind].
           destruct (IH m1 f hi' (Br hdf [dlo; dhi]) dhi') as (m2 & a1 & d1 & -> & St2 & A1 & K1 & P1);
             [apply St1|by eapply zstep_repr|by eapply zstep_repr|cbn [rank]; lia|].
           cbn [mbind option_bind rank] in *.
           destruct (zcreate_node_sem m2 h' hdg a0 a1 d0 d1) as (m3 & r & dr & -> & St3 & Hr & Kr & Sr);
             [apply St2|by do 2 (eapply zstep_hdr; [done|])|by eapply zstep_repr|done|lia|lia|].
           exists m3, r, dr. split; [done|]. split; [eapply zstep_trans; [exact St1|]; by eapply zstep_trans|].
           split; [done|]. split; [cbn [rank]; lia|].
           assert (Sf' : zsplit (h_level hdg) (Br hdf [dlo; dhi]) (Br hdf [dlo; dhi]) (Leaf TZero))
             by (apply zsplit_low; [done|cbn; lia]).
           eapply (zrel_product (h_level hdg)); [exact Sf'|exact Sg|exact Sr|exact P0|].
           intros D0 D1 D2 D3. destruct (P1 D0 D3) as [D4 P1']. split; [done|]. intros S.
           specialize (P1' S). unfold zspec in P1'. rewrite P1'. fold (zjoin (Br hdf [dlo; dhi]) dhi' S).
           pose proof (zjoin_zero_l dhi' S). pose proof (zjoin_zero_l dlo' S). tauto.
        -- assert (Hll : h_level hdf = h_level hdg) by lia.
           destruct (IH m lo lo' dlo dlo') as (m1 & a0 & d0 & -> & St1 & A0 & K0 & P0); try done.
           { lia. }
           cbn [mbind option_bind].
           destruct (IH m1 hi hi' dhi dhi') as (m2 & a1 & d1 & -> & St2 & A1 & K1 & P1);
             [apply St1|by eapply zstep_repr|by eapply zstep_repr|lia|].
           cbn [mbind option_bind].
           assert (St02 : zstep m m2) by by eapply zstep_trans.
           destruct (IH m2 hi lo' dhi dlo') as (m3 & a2 & d2 & -> & St3 & A2 & K2 & P2);
             [apply St2|by eapply zstep_repr|by eapply zstep_repr|lia|].
           cbn [mbind option_bind].
           destruct (zdd_union_ok m3 a1 a2 d1 d2) as (m4 & a3 & d3 & -> & St4 & A3 & K3 & P3);
             [apply St3|by eapply zstep_repr|done|].
           cbn [mbind option_bind].
           assert (St04 : zstep m m4) by (eapply zstep_trans; [exact St02|]; by eapply zstep_trans).
           destruct (IH m4 lo hi' dlo dhi') as (m5 & a4 & d4 & -> & St5 & A4 & K4 & P4);
             [apply St4|by eapply zstep_repr|by eapply zstep_repr|lia|].
           cbn [mbind option_bind].
           destruct (zdd_union_ok m5 a3 a4 d3 d4) as (m6 & a5 & d5 & -> & St6 & A5 & K5 & P5);
             [apply St5|by eapply zstep_repr|done|].
           cbn [mbind option_bind].
           assert (St26 : zstep m1 m6).
           { eapply zstep_trans; [exact St2|]. eapply zstep_trans; [exact St3|].
             eapply zstep_trans; [exact St4|]. by eapply zstep_trans. }
           assert (St06 : zstep m m6) by (eapply zstep_trans; [exact St1|exact St26]).
           destruct (zcreate_node_sem m6 h hdf a0 a5 d0 d5) as (m7 & r & dr & -> & St7 & Hr & Kr & Sr);
             [apply St6|eapply zstep_hdr; [exact St06|done]|eapply zstep_repr; [exact St26|exact A0]|done|lia|lia|].
           exists m7, r, dr. split; [done|]. split; [eapply zstep_trans; [exact St06|exact St7]|].
           split; [done|]. split; [cbn [rank]; lia|].
           rewrite <- Hll in Sg.
           eapply (zrel_product (h_level hdf)); [exact Sf|exact Sg|exact Sr|exact P0|].
           intros D0 D1 D2 D3.
           destruct (P1 D1 D3) as [Q1 P1']. destruct (P2 D1 D2) as [Q2 P2'].
           destruct (P4 D0 D3) as [Q4 P4'].
           destruct (P3 Q1 Q2) as [Q3 P3']. destruct (P5 Q3 Q4) as [Q5 P5'].
           split; [done|]. intros S. unfold zspec in *. fold (zjoin dhi dhi') in *.
           rewrite P5', P3', P1', P2', P4'. unfold zjoin. tauto.
Qed.
Lemma zdd_product_ok m f g df dg : zwf m → repr (z_ar m) df f → repr (z_ar m) dg g →
  zres ZProduct m df dg (zdd_product m f g).
Proof.
  intros Hw Hf Hg. pose proof (a_fuel_enough _ _ _ Hf). pose proof (a_fuel_enough _ _ _ Hg).
  apply zproduct_spec; try done. lia.
Qed.

(** divide: [zrel] claims little about the meaning, but it never panics and keeps the manager well formed *)
Lemma zdivide_spec n : ∀ m f g df dg, zwf m → repr (z_ar m) df f → repr (z_ar m) dg g →
  rank df `max` rank dg < n → zres ZDivision m df dg (zdd_divide_f n m f g).
Proof.
  induction n as [|n IH]; intros m f g df dg Hw Hf Hg Hn; [lia|]. cbn [zdd_divide_f].
  pose proof (zw_good _ Hw) as Hgd.
  destruct (zdd_cache_get _ _ _ _) as [v|] eqn:Hc; [by eapply zhit|].
  destruct (live_lookup _ _ (repr_live _ _ _ Hf)) as [fn Hfn].
  destruct (live_lookup _ _ (repr_live _ _ _ Hg)) as [gn Hgn].
  rewrite Hfn, Hgn. cbn [mbind option_bind]. apply zfinish; [done..|].
  pose proof (zgood_ok _ _ _ Hgd Hf) as Of. pose proof (zgood_ok _ _ _ Hgd Hg) as Og.
  destruct df as [tf|hdf dsf].
  - pose proof Hf as [_ Ht]%repr_leaf. rewrite Hfn in Ht. injection Ht as ->.
    destruct dg as [tg|hdg dsg].
    + pose proof Hg as [_ Ht]%repr_leaf. rewrite Hgn in Ht. injection Ht as ->.
      destruct tf, tg; first [zarm (Leaf TZero) | zarm (Leaf TOne) | zarm (Leaf TUndet)].
    + destruct (zrepr_node2 _ _ _ _ Hgd Hg) as (h & lo & hi & dlo & dhi & -> & Hnd & Hh & Hlo & Hhi & Hr0 & Hr1 & Hnz).
      rewrite Hgn in Hnd. injection Hnd as ->.
      destruct tf; first [zarm (Leaf TZero) | zarm (Leaf TUndet) | zarm (Br hdg [dlo; dhi])].
  - destruct (zrepr_node2 _ _ _ _ Hgd Hf) as (h & lo & hi & dlo & dhi & -> & Hnd & Hh & Hlo & Hhi & Hr0 & Hr1 & Hnz).
    rewrite Hfn in Hnd. injection Hnd as ->. cbn [rank] in Hn.
    destruct dg as [tg|hdg dsg].
    + pose proof Hg as [_ Ht]%repr_leaf. rewrite Hgn in Ht. injection Ht as ->.
      destruct tg; first [zarm (Leaf TZero) | zarm (Leaf TUndet) | zarm (Br hdf [dlo; dhi])].
    + destruct (zrepr_node2 _ _ _ _ Hgd Hg) as
        (h' & lo' & hi' & dlo' & dhi' & -> & Hnd & Hh' & Hlo' & Hhi' & Hr0' & Hr1' & Hnz').
      rewrite Hgn in Hnd. injection Hnd as ->. cbn [rank] in Hn.
      rewrite (a_hdr_level _ _ _ Hh), (a_hdr_level _ _ _ Hh'). cbn [mbind option_bind edges2].
      destruct (Nat.ltb_spec (h_level hdg) (h_level hdf)) as [Hlt|Hge].
      * destruct (IH m lo g dlo (Br hdg [dlo'; dhi'])) as (m1 & a0 & d0 & -> & St1 & A0 & K0 & P0); try done.
        { cbn [rank]. lia. }
        exists m1, a0, d0. cbn [rank] in *. split; [done|]. split; [done|]. split; [done|]. split; [lia|]. apply zdiv_apart; [lia|done|done].
      * destruct (Nat.ltb_spec (h_level hdf) (h_level hdg)) as [Hlt|Hge'].
        { eapply (zconst _ _ _ _ _ (Leaf TUndet)); [done|by apply zg_undet|cbn [rank]; lia|]. apply zdiv_apart; [lia|done|done]. }
        destruct (IH m lo lo' dlo dlo') as (m1 & a0 & d0 & -> & St1 & A0 & K0 & P0); try done.
        { lia. }
        cbn [mbind option_bind].
        destruct (IH m1 hi hi' dhi dhi') as (m2 & a1 & d1 & -> & St2 & A1 & K1 & P1);
          [apply St1|by eapply zstep_repr|by eapply zstep_repr|lia|].
        cbn [mbind option_bind].
        destruct (zdd_intersect_ok m2 a0 a1 d0 d1) as (m3 & r & dr & -> & St3 & A3 & K3 & P3);
          [apply St2|by eapply zstep_repr|done|].
        exists m3, r, dr. split; [done|]. split; [eapply zstep_trans; [exact St1|]; by eapply zstep_trans|].
        split; [done|]. split; [cbn [rank]; lia|].
        apply zdiv_both; [lia|done|done|eapply zgood_ok; [apply (zw_good _ (proj1 St3))|done]|lia|].
        intros ->. destruct P0 as (_ & P0 & _). rewrite (P0 eq_refl) in P3. destruct P3 as [P3 _]. by rewrite (P3 eq_refl).
Qed.
Lemma zdd_divide_ok m f g df dg : zwf m → repr (z_ar m) df f → repr (z_ar m) dg g →
  zres ZDivision m df dg (zdd_divide m f g).
Proof.
  intros Hw Hf Hg. pose proof (a_fuel_enough _ _ _ Hf). pose proof (a_fuel_enough _ _ _ Hg).
  apply zdivide_spec; try done. lia.
Qed.

(** ** new, create_header, gc, clear_cache *)
Lemma znew_ok : zwf zdd_new.
Proof.
  destruct (bw_good _ new_ok) as [[W1 W2 W3 W4 W5 W6] G1 G2 G3 G4].
  constructor; cbn; [|intros k v H; by rewrite lookup_empty in H].
  constructor; cbn; try done. constructor; try done.
  intros id h cs Hl Hn. exfalso. destruct Hl as [Hl _]. cbn in Hl.
  destruct id as [|[|[|]]]; cbn in Hn; [done..|lia].
Qed.

Lemma zcreate_header_ok m level label m' h : zwf m → zdd_create_header m level label = (m', h) →
  zwf m' ∧ ext (z_ar m) (z_ar m') ∧ h = length (ar_headers (z_ar m)) ∧
  ar_headers (z_ar m') = ar_headers (z_ar m) ++ [Header h level label 2] ∧
  ar_nodes (z_ar m') = ar_nodes (z_ar m) ∧ (∀ i, live (z_ar m') i ↔ live (z_ar m) i).
Proof.
  intros Hw. unfold zdd_create_header. destruct (ar_create_header _ _ _ _) as [a h0] eqn:Ha.
  intros [= <- <-]. cbn [zwith_ar z_ar].
  destruct (create_header_spec _ _ _ _ _ _ _ (zg_wf _ (zw_good _ Hw)) Ha) as (Hwf & He & Hh & -> & Hns & Hl).
  sp; try done. destruct Hw as [[_ ? ? ? Hed] Hc]. constructor; try done; cbn.
  - constructor; try done; try by eapply repr_mono.
    intros h hd. rewrite Hh. intros [H|[_ H]]%lookup_app_Some; [by eapply Hed|].
    destruct (_ - _) as [|k]; [|done]. cbn in H. by injection H as <-.
  - intros k v Hk. eapply zentry_mono; eauto.
Qed.

Lemma zclear_cache_ok m : zwf m → zwf (zdd_clear_cache m).
Proof. intros [Hg Hc]. constructor; [done|]. intros k v Hv. cbn in Hv. by rewrite lookup_empty in Hv. Qed.

Lemma zgc_ok m roots : zwf m → (∀ r, r ∈ roots → live (z_ar m) r) →
  ∃ m' n, zdd_gc m roots = Some (m', n) ∧ zwf m' ∧
    ar_headers (z_ar m') = ar_headers (z_ar m) ∧ ar_nodes (z_ar m') = ar_nodes (z_ar m) ∧
    (∀ id, live (z_ar m') id ↔ id ∈ [zdd_zero; zdd_one; zdd_undet] ∨ reach (z_ar m) roots id) ∧
    (∀ id, live (z_ar m') id → live (z_ar m) id) ∧
    n = length (ar_free (z_ar m')).
Proof.
  intros Hw Hroots. pose proof (zw_good _ Hw) as Hg. unfold zdd_gc.
  destruct (gc_spec Rz (z_ar m) [zdd_zero; zdd_one; zdd_undet] roots)
    as (a' & lv & -> & Hwf & Hhd & Hns & Hlen & Hl & Hsub & Hm); try done.
  { apply Hg. }
  { intros b. rewrite !elem_of_cons, elem_of_nil.
    destruct Hg as [_ [??] [??] [??] _]. intros [->|[->|[->|[]]]]; eauto. }
  cbn [mbind option_bind].
  assert (Hlt : ∀ d i, repr (z_ar m) d i → ∃ b, lv !! i = Some b).
  { intros d i Hd. apply lookup_lt_is_Some_2. rewrite Hlen. by apply repr_live in Hd as [? _]. }
  rewrite decide_True.
  2: { intros [[o f] g] v Hv. destruct (zw_cok _ Hw _ _ Hv) as (df & dg & dr & Hf & Hg' & Hr & _). cbn in *.
       destruct (Hlt _ _ Hf) as [? E1], (Hlt _ _ Hg') as [? E2'], (Hlt _ _ Hr) as [? E3].
       unfold zdd_retain_panics. cbn. rewrite E1, E2', E3. naive_solver. }
  eexists _, _. split; [done|]. cbn [z_ar].
  assert (Hrg : ∀ d i, marked lv i → repr (z_ar m) d i → repr a' d i).
  { intros d i Hi Hd. eapply repr_gc; try done. by apply Hm. }
  sp; try done. constructor; try done; cbn.
  - destruct Hg as [? Hz Ho Hu He]. constructor; try done.
    + apply Hrg; [|done]. apply Hm, Hl. left. set_solver.
    + apply Hrg; [|done]. apply Hm, Hl. left. set_solver.
    + apply Hrg; [|done]. apply Hm, Hl. left. set_solver.
    + by rewrite Hhd.
  - intros k v Hv. apply map_filter_lookup_Some in Hv as [Hv (A1 & A2 & A3)].
    destruct (zw_cok _ Hw _ _ Hv) as (df & dg & dr & Hf & Hg' & Hr & Hk & Hp).
    exists df, dg, dr. sp; try done; by apply Hrg.
Qed.
