(** Correctness of the ZMDD operations (internal lemmas, stated on trees). *)
From Verif Require Import Prelude ComputeCache ComputeCacheProofs Arena Trees ArenaProofs Bdd ArenaMore Mdd MtMdd
  NaryProofs Zmdd ZmddTrees.

(** reduction rule: some edge other than the 0-edge is not the empty family *)
Definition Rz (cs : list nat) : Prop := ¬ Forall (eq zm_undet) (tail cs).

Definition zsem (o : zop) (P Q : Prop) : Prop := match o with ZInter => P ∧ Q | ZDiff => P ∧ ¬ Q end.
Global Instance zsem_proper o : Proper (iff ==> iff ==> iff) (zsem o).
Proof. intros P P' HP Q Q' HQ. destruct o; cbn; by rewrite HP, HQ. Qed.
(** the family of the result in terms of the families of the operands *)
Definition Z2 (o : zop) (df dg dr : dd vt) : Prop := ∀ x z, zden dr x z ↔ zsem o (zden df x z) (zden dg x z).

Record zmgood (a : arena vt) (vt : gmap Z nat) : Prop := {
  zmg_wf : awf Rz a;
  zmg_undet : repr a und zm_undet;
  zmg_hc : hcons (ar_headers a);
  zmg_vt : ∀ z id, vt !! z = Some id ↔ repr a (Leaf (VVal z)) id;
}.

Definition zmcentry (a : arena vt) (k : N * N * N) (v : N) : Prop :=
  ∃ o df dg dr, k.1.1 = zop_code o ∧
    repr a df (N.to_nat k.1.2) ∧ repr a dg (N.to_nat k.2) ∧ repr a dr (N.to_nat v) ∧
    rank dr ≤ rank df `max` rank dg ∧ Z2 o df dg dr.

Record zmwf (m : mt) : Prop := {
  zmw_good : zmgood (t_ar m) (t_vtab m);
  zmw_c : cache_ok (t_cache m) (zmcentry (t_ar m));
}.
Definition zmstep (m m' : mt) : Prop :=
  zmwf m' ∧ ext (t_ar m) (t_ar m') ∧ ar_headers (t_ar m') = ar_headers (t_ar m).

Lemma zmstep_refl m : zmwf m → zmstep m m.
Proof. intros. split; [done|]. split; [apply ext_refl|done]. Qed.
Lemma zmstep_trans m1 m2 m3 : zmstep m1 m2 → zmstep m2 m3 → zmstep m1 m3.
Proof. intros (_ & H1 & H2) (? & H3 & H4). split; [done|]. split; [by eapply ext_trans|congruence]. Qed.
Lemma zmstep_refl2 m m' : zmstep m m' → zmstep m' m'.
Proof. intros [? _]. by apply zmstep_refl. Qed.

Lemma zop_code_inj o o' : zop_code o = zop_code o' → o = o'.
Proof. by destruct o, o'. Qed.
Lemma zmcentry_mono a a' k v : ext a a' → zmcentry a k v → zmcentry a' k v.
Proof.
  intros He (o & df & dg & dr & Ho & Hf & Hg & Hr & Hk & Hp). exists o, df, dg, dr.
  sp; try done; by eapply repr_mono.
Qed.

Lemma zm_okh m d id : zmwf m → repr (t_ar m) d id → okh (ar_headers (t_ar m)) d.
Proof. intros [[] _]. by eapply repr_okh. Qed.
Lemma zm_ok m d id : zmwf m → repr (t_ar m) d id → okdd (Eof (ar_headers (t_ar m)) (λ _, 0)) d.
Proof. intros Hw Hr. by apply (zm_okh m d id Hw Hr). Qed.
Lemma zm_red m d id : zmwf m → repr (t_ar m) d id → redz d.
Proof.
  intros Hw. revert id. induction d as [t|hd cs IH] using dd_ind'; intros id Hr; [done|].
  pose proof (repr_live _ _ _ Hr) as Hl. apply repr_br in Hr as [_ (h & ids & Hn & Hh & Hf)].
  pose proof (zmw_good _ Hw) as Hg. destruct (aw_nt _ _ (zmg_wf _ _ Hg) _ _ _ Hl Hn) as (hd' & _ & _ & HR & _).
  apply redz_br. split.
  - intros Hu. apply HR. destruct cs as [|c cs]; inversion Hf as [|? i ? ids' Hc Hf']; subst; cbn [tail] in *; [constructor|].
    clear -Hf' Hu Hg. induction Hf' as [|d' c' ds' cs' Hd' _ IH]; constructor.
    + apply Forall_cons in Hu as [<- _]. eapply repr_inj; [apply Hg|apply Hg|done].
    + apply IH. by apply Forall_cons in Hu as [_ Hu].
  - apply Forall_lookup. intros i c Hc. rewrite Forall_lookup in IH.
    destruct (Forall2_lookup_l _ _ _ _ _ Hf Hc) as (j & Hj & Hrj). by eapply IH.
Qed.

Lemma zmwith_step m a vt : zmwf m → zmgood a vt → ext (t_ar m) a → ar_headers a = ar_headers (t_ar m) →
  zmstep m (Mt a vt (t_cache m)).
Proof.
  intros Hw Hg He Hh. split; [|done]. destruct Hw as [? Hc]. constructor; try done; cbn.
  eapply cache_ok_mono; [|done]. intros k v. by apply zmcentry_mono.
Qed.

(** ** value *)
Lemma zm_value_ok m z : zmwf m →
  ∃ m' r, zm_value m z = (m', r) ∧ zmstep m m' ∧ repr (t_ar m') (Leaf (VVal z)) r.
Proof.
  intros Hw. unfold zm_value, mt_value. pose proof (zmw_good _ Hw) as Hg.
  destruct (t_vtab m !! z) as [x|] eqn:Hz.
  { exists m, x. sp; try done. by apply (zmg_vt _ _ Hg). }
  destruct (ar_alloc (t_ar m) (Term (VVal z))) as [a id] eqn:Ha.
  assert (Hno : ∀ i, live (t_ar m) i → ar_nodes (t_ar m) !! i ≠ Some (Term (VVal z))).
  { intros i Hl Hn. assert (t_vtab m !! z = Some i) as Hs; [|by rewrite Hz in Hs].
    apply (zmg_vt _ _ Hg). by apply repr_leaf. }
  destruct (alloc_term_spec Rz (t_ar m) (VVal z) a id (zmg_wf _ _ Hg) Ha Hno)
    as (Hwf & He & Hh & Hl & Hnl & Hn & Hlv).
  eexists _, _. split; [done|]. cbn [t_ar]. split; [|by apply repr_leaf].
  apply zmwith_step; try done. destruct Hg as [_ Hu Hc Hv]. constructor; try done.
  - by eapply repr_mono.
  - by rewrite Hh.
  - intros z' i. rewrite repr_leaf. destruct (decide (z = z')) as [<-|Hne].
    + rewrite lookup_insert. split; [by intros [= <-]|]. intros [Hi Hni]. f_equal.
      by eapply (aw_term _ _ Hwf id i (VVal z)).
    + rewrite lookup_insert_ne by done. rewrite Hv, repr_leaf. split.
      * intros [Hi Hni]. destruct He as [_ He]. destruct (He i _ Hi Hni) as [? ?]. done.
      * intros [Hi Hni]. apply Hlv in Hi as [Hi| ->]; [|rewrite Hn in Hni; congruence].
        split; [done|]. destruct (live_lookup _ _ Hi) as [n Hnn]. destruct He as [_ He].
        destruct (He i _ Hi Hnn) as [_ ?]. congruence.
Qed.

(** ** create_node *)
Lemma Forall_und_ids a cs ds : awf Rz a → repr a und zm_undet → Forall2 (repr a) ds cs →
  Forall (eq zm_undet) cs ↔ Forall (eq und) ds.
Proof.
  intros Hwf Hu. induction 1 as [|d c ds cs Hd _ IH]; [by split|]. rewrite !Forall_cons, IH. split.
  - intros [<- ?]. split; [|done]. by eapply repr_fun.
  - intros [<- ?]. split; [|done]. by eapply repr_inj.
Qed.

Lemma zmcreate_node m h hd ns (PP : nat → dd vt → Prop) : zmwf m → ar_headers (t_ar m) !! h = Some hd →
  length ns = h_edges hd →
  (∀ i r, ns !! i = Some r → ∃ d, repr (t_ar m) d r ∧ rank d ≤ h_level hd ∧ PP i d) →
  ∃ m' r dr ds, zm_create_node m h ns = Some (m', r) ∧ zmstep m m' ∧ repr (t_ar m') dr r ∧
    rank dr ≤ S (h_level hd) ∧ mkz hd ds dr ∧ length ds = h_edges hd ∧
    Forall (λ d, rank d ≤ h_level hd ∧ okdd (Eof (ar_headers (t_ar m)) (λ _, 0)) d) ds ∧
    (∀ i d, ds !! i = Some d → PP i d).
Proof.
  intros Hw Hh Hlen Hns. destruct (trees_of _ _ _ _ Hns) as (ds & Hf & Hfk & Hl & Hpp).
  pose proof (zmw_good _ Hw) as Hg.
  assert (Hpos : 0 < h_edges hd).
  { destruct (zmg_hc _ _ Hg) as [Hp _]. apply Hp. by eapply elem_of_list_lookup_2. }
  assert (Hok : Forall (λ d, rank d ≤ h_level hd ∧ okdd (Eof (ar_headers (t_ar m)) (λ _, 0)) d) ds).
  { apply Forall_lookup. intros i d Hd. rewrite Forall_lookup in Hfk. split; [by eapply Hfk|].
    destruct (Forall2_lookup_l _ _ _ _ _ Hf Hd) as (c & _ & Hc). by eapply zm_ok. }
  destruct ns as [|c0 ns]; [cbn in Hlen; lia|]. cbn [zm_create_node].
  inversion Hf as [|d0 ? ds' ? Hd0 Hf']; subst.
  destruct (forallb (Nat.eqb zm_undet) ns) eqn:Hb.
  - assert (Hfu : Forall (eq und) ds').
    { eapply Forall_und_ids; [apply Hg|apply Hg|done|]. apply Forall_forall. intros y Hy.
      rewrite forallb_forall in Hb. apply elem_of_list_In, Hb, Nat.eqb_eq in Hy. done. }
    exists m, c0, d0, (d0 :: ds'). sp; try done.
    + apply Forall_cons in Hfk as [? _]. lia.
    + left. done.
    + cbn in *. lia.
  - assert (HR : Rz (c0 :: ns)).
    { intros Hn. cbn [tail] in Hn. assert (forallb (Nat.eqb zm_undet) ns = true); [|congruence].
      apply forallb_forall. intros y Hy. apply elem_of_list_In in Hy. rewrite Forall_forall in Hn.
      apply Nat.eqb_eq. by apply Hn. }
    destruct (hashcons_spec Rz (t_ar m) h hd (c0 :: ns)) as (a' & id & Heq & Hwf' & Hext & Hhd & Hl' & Hn & Hlv); try done.
    { apply Hg. }
    { apply Forall_lookup. intros i c Hi. destruct (Forall2_lookup_r _ _ _ _ _ Hf Hi) as (d & Hd & Hrc).
      split; [by eapply repr_live|]. eapply repr_rank_below; [done|]. rewrite Forall_lookup in Hfk. by eapply Hfk. }
    rewrite Heq. exists (mt_with_ar m a'), id, (Br hd (d0 :: ds')), (d0 :: ds'). sp; try done.
    + apply zmwith_step; try done. destruct Hg as [Hwf Hu Hc Hv]. constructor; try done.
      * by eapply repr_mono.
      * by rewrite Hhd.
      * intros z i. rewrite Hv, !repr_leaf. split.
        -- intros [Hi Hni]. destruct Hext as [_ He]. destruct (He i _ Hi Hni) as [? ?]. done.
        -- intros [Hi Hni]. apply Hlv in Hi as [Hi| ->]; [|congruence].
           split; [done|]. destruct (live_lookup _ _ Hi) as [n Hnn]. destruct Hext as [_ He].
           destruct (He i _ Hi Hnn) as [_ ?]. congruence.
    + cbn [t_ar mt_with_ar]. apply repr_br. split; [done|]. exists h, (c0 :: ns). split; [done|].
      split; [by rewrite Hhd|]. by eapply Forall2_repr_mono.
    + right. split; [|done]. intros Hu. apply HR. cbn [tail] in *.
      eapply Forall_und_ids; [apply Hg|apply Hg|done|done].
    + cbn in *. lia.
Qed.

(** ** Cache *)
Lemma zmcache_get m o f g df dg : zmwf m → repr (t_ar m) df f → repr (t_ar m) dg g →
  ∃ r, zm_cache_get m o f g = Some r ∧
    ∀ x, r = Some x → ∃ dr, repr (t_ar m) dr x ∧ rank dr ≤ rank df `max` rank dg ∧ Z2 o df dg dr.
Proof.
  intros Hw Hf Hg. unfold zm_cache_get.
  destruct (cache_ok_get _ _ (zop_code o) (N.of_nat f) (N.of_nat g) (zmw_c _ Hw)) as (r & -> & Hr).
  cbn [mbind option_bind]. eexists. split; [done|]. intros x Hx. destruct r as [v|]; [|done].
  injection Hx as <-. destruct (Hr v eq_refl) as (o' & df' & dg' & dr & Ho & Hf' & Hg' & Hr' & Hk & Hp).
  cbn in *. rewrite !Nat2N.id in *. apply zop_code_inj in Ho as <-.
  rewrite (repr_fun _ _ _ _ Hf Hf'), (repr_fun _ _ _ _ Hg Hg'). by exists dr.
Qed.
Lemma zmcache_put m o f g r df dg dr : zmwf m →
  repr (t_ar m) df f → repr (t_ar m) dg g → repr (t_ar m) dr r → rank dr ≤ rank df `max` rank dg → Z2 o df dg dr →
  ∃ m', zm_cache_put m o f g r = Some m' ∧ zmstep m m' ∧ t_ar m' = t_ar m.
Proof.
  intros Hw Hf Hg Hr Hk Hp. unfold zm_cache_put.
  destruct (cache_ok_put _ _ (zop_code o) (N.of_nat f) (N.of_nat g) (N.of_nat r) (zmw_c _ Hw)) as (c' & -> & Hc).
  { exists o, df, dg, dr. cbn. rewrite !Nat2N.id. done. }
  cbn [mbind option_bind]. eexists. split; [done|]. split; [|done]. split; [|by split; [apply ext_refl|]].
  destruct Hw. by constructor.
Qed.

Definition zmres (o : zop) m df dg (x : option (mt * nat)) : Prop :=
  ∃ m' r dr, x = Some (m', r) ∧ zmstep m m' ∧ repr (t_ar m') dr r ∧ rank dr ≤ rank df `max` rank dg ∧ Z2 o df dg dr.

Lemma zmfinish o m f g df dg x : zmwf m → repr (t_ar m) df f → repr (t_ar m) dg g → zmres o m df dg x →
  zmres o m df dg ('(m, r) ← x; m ← zm_cache_put m o f g r; Some (m, r)).
Proof.
  intros Hw Hf Hg (m1 & r & dr & -> & Hst & Hr & Hk & Hp). cbn [mbind option_bind].
  pose proof Hst as (Hw' & He & Hh).
  destruct (zmcache_put m1 o f g r df dg dr) as (m'' & -> & Hst3 & Ha); try done.
  { by eapply repr_mono. }
  { by eapply repr_mono. }
  cbn [mbind option_bind]. exists m'', r, dr. rewrite Ha. sp; try done. by eapply zmstep_trans.
Qed.

Lemma zmfinish2 o m f g df dg fn gn (X : node vt → node vt → option (mt * nat)) :
  zmwf m → repr (t_ar m) df f → repr (t_ar m) dg g →
  ar_nodes (t_ar m) !! f = Some fn → ar_nodes (t_ar m) !! g = Some gn →
  zmres o m df dg (X fn gn) →
  zmres o m df dg (fn ← ar_nodes (t_ar m) !! f; gn ← ar_nodes (t_ar m) !! g;
    '(m, r) ← X fn gn; m ← zm_cache_put m o f g r; Some (m, r)).
Proof. intros Hw Hf Hg -> -> H. cbn [mbind option_bind]. by apply zmfinish. Qed.

(** mapping over the zipped children *)
Lemma zmrec m h hd (ps : list (nat * nat)) (F : mt → nat → nat → option (mt * nat)) (PP : nat → dd vt → Prop) :
  zmwf m → ar_headers (t_ar m) !! h = Some hd → length ps = h_edges hd →
  (∀ i p m', ps !! i = Some p → zmstep m m' →
     ∃ m'' r dr, F m' p.1 p.2 = Some (m'', r) ∧ zmstep m' m'' ∧ repr (t_ar m'') dr r ∧ rank dr ≤ h_level hd ∧ PP i dr) →
  ∃ m2 r dr ds, ('(m, cs) ← mapst (λ m p, F m p.1 p.2) m ps; zm_create_node m h cs) = Some (m2, r) ∧ zmstep m m2 ∧
      repr (t_ar m2) dr r ∧ rank dr ≤ S (h_level hd) ∧ mkz hd ds dr ∧ length ds = h_edges hd ∧
      Forall (λ d, rank d ≤ h_level hd ∧ okdd (Eof (ar_headers (t_ar m)) (λ _, 0)) d) ds ∧
      (∀ i d, ds !! i = Some d → PP i d).
Proof.
  intros Hw Hh Hlen HF.
  pose proof (mapst_idx zmstep t_ar (λ _ _, False) (λ m p, F m p.1 p.2) ps m (h_level hd) PP
    zmstep_trans zmstep_refl2 (zmstep_refl m Hw)) as Hm.
  assert (He : ∀ x y, zmstep x y → ext (t_ar x) (t_ar y)) by by intros x y (_ & ? & _).
  assert (HF' : ∀ i p s', ps !! i = Some p → zmstep m s' →
     match F s' p.1 p.2 with
     | Some (s'', r) => zmstep s' s'' ∧ ∃ dr, repr (t_ar s'') dr r ∧ rank dr ≤ h_level hd ∧ PP i dr
     | None => False
     end).
  { intros i p s' Hi Hs. destruct (HF i p s' Hi Hs) as (m'' & r & dr & -> & ? & ? & ? & ?). split; [done|]. by exists dr. }
  specialize (Hm He HF'). destruct (mapst _ m ps) as [[m1 ns]|]; [|by destruct Hm as (? & ? & _ & [])].
  destruct Hm as (Hst & Hlns & Hns). pose proof Hst as (Hw1 & He1 & Hh1). cbn [mbind option_bind].
  destruct (zmcreate_node m1 h hd ns PP) as (m2 & r & dr & ds & Hc & Hst2 & Hr & Hk & Hmk & Hds & Hok & HPP); try done.
  { by rewrite Hh1. }
  { congruence. }
  rewrite Hh1 in Hok. exists m2, r, dr, ds. sp; try done. by eapply zmstep_trans.
Qed.

(** what a node looks like *)
Lemma zm_view m d id : zmwf m → repr (t_ar m) d id →
  match d with
  | Leaf t => ar_nodes (t_ar m) !! id = Some (Term t)
  | Br hd ds => ∃ h c cs d0 ds', ar_nodes (t_ar m) !! id = Some (NT h (c :: cs)) ∧ ds = d0 :: ds' ∧
      ar_headers (t_ar m) !! h = Some hd ∧ S (length cs) = h_edges hd ∧
      repr (t_ar m) d0 c ∧ Forall2 (repr (t_ar m)) ds' cs ∧ Forall (λ d, rank d ≤ h_level hd) ds
  end.
Proof.
  intros Hw Hr. pose proof (repr_live _ _ _ Hr) as Hl. destruct d as [t|hd ds].
  - by apply repr_leaf in Hr as [_ Hr].
  - pose proof (zm_ok m _ _ Hw Hr) as Ho. apply repr_br in Hr as [_ (h & ids & Hn & Hh & Hf)].
    pose proof (zmw_good _ Hw) as Hg. destruct (aw_nt _ _ (zmg_wf _ _ Hg) _ _ _ Hl Hn) as (hd' & Hh' & Hlen & HR & _).
    rewrite Hh in Hh'. injection Hh' as <-. apply okdd_br in Ho as [_ Ho].
    destruct Hf as [|d0 c ds' cs Hd0 Hf].
    { destruct HR. constructor. }
    exists h, c, cs, d0, ds'. sp; try done. eapply Forall_impl; [exact Ho|]. by intros ? [? _].
Qed.

(** the only edges that matter when the other family is zero at this level *)
Lemma zden_head E hd d0 ds' x z : okdd E (Br hd (d0 :: ds')) → x (h_level hd) = 0 →
  zden (Br hd (d0 :: ds')) x z ↔ zden d0 x z.
Proof.
  intros Ho H0. rewrite zden_br, H0. cbn. split.
  - intros (c & [= <-] & H). eapply zden_ext; [by apply upd_0|done].
  - intros H. exists d0. split; [done|]. eapply zden_ext; [apply zeq_sym; by apply upd_0|done].
Qed.


(** children of two nodes at one level *)
Lemma zip_view m f g hd ds hd' ds' : zmwf m → repr (t_ar m) (Br hd ds) f → repr (t_ar m) (Br hd' ds') g →
  h_level hd = h_level hd' →
  ∃ h fc h' gc, ar_nodes (t_ar m) !! f = Some (NT h fc) ∧ ar_nodes (t_ar m) !! g = Some (NT h' gc) ∧
    ar_headers (t_ar m) !! h = Some hd ∧ length (zip fc gc) = h_edges hd ∧
    ∀ i p, zip fc gc !! i = Some p →
      ∃ d d', ds !! i = Some d ∧ ds' !! i = Some d' ∧ repr (t_ar m) d p.1 ∧ repr (t_ar m) d' p.2 ∧
        rank d ≤ h_level hd ∧ rank d' ≤ h_level hd.
Proof.
  intros Hw Hf Hg Hl. pose proof (zm_ok _ _ _ Hw Hf) as Of. pose proof (zm_ok _ _ _ Hw Hg) as Og.
  apply okdd_br in Of as [Lf Of], Og as [Lg Og]. rewrite Forall_lookup in Of, Og.
  pose proof (zmg_wf _ _ (zmw_good _ Hw)) as Hwf. pose proof (zmg_hc _ _ (zmw_good _ Hw)) as Hc.
  apply repr_br in Hf as [Hlf (h & fc & Hnf & Hh & Hff)]. apply repr_br in Hg as [Hlg (h' & gc & Hng & Hh' & Hfg)].
  destruct (aw_nt _ _ Hwf _ _ _ Hlf Hnf) as (hd1 & Hx & Hlen & _). rewrite Hh in Hx. injection Hx as <-.
  destruct (aw_nt _ _ Hwf _ _ _ Hlg Hng) as (hd2 & Hx & Hlen' & _). rewrite Hh' in Hx. injection Hx as <-.
  exists h, fc, h', gc. split; [done|]. split; [done|]. split; [done|]. split.
  { rewrite zip_with_length. assert (h_edges hd = h_edges hd'); [|lia].
    apply Hc; try done; by eapply elem_of_list_lookup_2. }
  intros i [c1 c2] Hp. apply lookup_zip_with_Some in Hp as (x & y & [= -> ->] & Hx & Hy). cbn [fst snd].
  destruct (Forall2_lookup_r _ _ _ _ _ Hff Hx) as (d & Hd & Hrd).
  destruct (Forall2_lookup_r _ _ _ _ _ Hfg Hy) as (d' & Hd' & Hrd').
  exists d, d'. sp; try done; [by eapply Of|]. rewrite Hl. by eapply Og.
Qed.

Lemma Z2_zip E o hd ds hd' ds' dsr dr : okdd E (Br hd ds) → okdd E (Br hd' ds') → h_level hd = h_level hd' →
  mkz hd dsr dr → length dsr = length ds → length ds = length ds' →
  Forall (λ d, rank d ≤ h_level hd ∧ okdd E d) dsr →
  (∀ i d, dsr !! i = Some d → ∃ a b, ds !! i = Some a ∧ ds' !! i = Some b ∧ Z2 o a b d) →
  Z2 o (Br hd ds) (Br hd' ds') dr.
Proof.
  intros Of Og Hl Hmk Hlen Hlen' Hok HPP x z. rewrite (mkz_den E hd dsr dr x z Hmk Hok), !zden_br, <- Hl.
  destruct (dsr !! x (h_level hd)) as [d|] eqn:Hd.
  - destruct (HPP _ _ Hd) as (a & b & -> & -> & Hz). specialize (Hz (upd x (h_level hd) 0) z).
    split.
    + intros (? & [= <-] & H). apply Hz in H. destruct o; cbn in *; destruct H as [H1 H2]; (split; [by eauto|]).
      * eauto.
      * intros (? & [= <-] & H). done.
    + intros H. exists d. split; [done|]. apply Hz. destruct o; cbn in *; destruct H as [(a' & [= <-] & H1) H2]; (split; [done|]).
      * by destruct H2 as (? & [= <-] & ?).
      * intros H. apply H2. eauto.
  - assert (Hn : ds !! x (h_level hd) = None).
    { apply lookup_ge_None. apply lookup_ge_None in Hd. lia. }
    rewrite Hn. split; [by intros (? & ? & _)|]. destruct o; cbn; by intros [(? & ? & _) _].
Qed.

Lemma zmres_sym m df dg x : zmres ZInter m dg df x → zmres ZInter m df dg x.
Proof.
  intros (m' & r & dr & -> & Hst & Hr & Hk & Hp). exists m', r, dr. sp; try done; [lia|].
  intros y z. rewrite (Hp y z). cbn. tauto.
Qed.
Lemma zmres_und m df dg o : zmwf m → (∀ x z, ¬ zsem o (zden df x z) (zden dg x z)) →
  zmres o m df dg (Some (m, zm_undet)).
Proof.
  intros Hw H. exists m, zm_undet, und. sp; try done; [by apply zmw_good|cbn; lia|].
  intros x z. split; [by intros ?%zden_und|by intros ?%H].
Qed.
(** one operand reduced to its 0-edge *)
Lemma zmres_weaken o m df dg df' dg' x : zmres o m df' dg' x →
  rank df' `max` rank dg' ≤ rank df `max` rank dg →
  (∀ dr, rank dr ≤ rank df' `max` rank dg' → Z2 o df' dg' dr → (∃ E, okdd E dr) → Z2 o df dg dr) →
  zmres o m df dg x.
Proof.
  intros (m' & r & dr & -> & Hst & Hr & Hk & Hp) Hle HZ. exists m', r, dr. sp; try done; [lia|].
  apply HZ; try done. eexists. eapply zm_ok; [apply Hst|done].
Qed.

(** the 0-edge of [f] decides when the other family is zero at its level *)
Lemma Z2_f0 E o hd d0 ds' dg dr : okdd E (Br hd (d0 :: ds')) → okdd E dg → rank dg ≤ h_level hd →
  o = ZInter → Z2 o d0 dg dr → Z2 o (Br hd (d0 :: ds')) dg dr.
Proof.
  intros Of Og Hk -> Hz x z. rewrite (Hz x z). cbn. split; intros [H1 H2].
  - split; [|done]. apply (zden_head E); try done. by eapply zden_low.
  - split; [|done]. apply (zden_head E) in H1; try done. by eapply zden_low.
Qed.
Lemma Z2_g0 E o df hd d0 ds' dr : okdd E df → okdd E (Br hd (d0 :: ds')) → rank df ≤ h_level hd →
  Z2 o df d0 dr → Z2 o df (Br hd (d0 :: ds')) dr.
Proof.
  intros Of Og Hk Hz x z. rewrite (Hz x z).
  assert (Hx : zden df x z → zden d0 x z ↔ zden (Br hd (d0 :: ds')) x z).
  { intros H. symmetry. apply (zden_head E); try done. by apply (zden_low E df x z). }
  destruct o; cbn; split; intros [H1 H2]; (split; [done|]); pose proof (Hx H1); tauto.
Qed.
Lemma Z2_skip E hd d0 ds' dg dr0 dr : okdd E (Br hd (d0 :: ds')) → okdd E dg → rank dg ≤ h_level hd →
  Z2 ZDiff d0 dg dr0 → rank dr0 ≤ h_level hd → okdd E dr0 →
  mkz hd (dr0 :: ds') dr → Z2 ZDiff (Br hd (d0 :: ds')) dg dr.
Proof.
  intros Of Og Hk Hz Hk0 Ok0 Hmk x z. pose proof Of as [_ Ofs]%okdd_br. apply Forall_cons in Ofs as [_ Ofs].
  rewrite (mkz_den E hd (dr0 :: ds') dr x z Hmk) by by apply Forall_cons.
  rewrite zden_br. cbn [zsem]. destruct (x (h_level hd)) as [|i] eqn:Hx; cbn [lookup list_lookup].
  - assert (Hu : ∀ d, zden d (upd x (h_level hd) 0) z ↔ zden d x z).
    { intros d. apply zden_ext_iff. by apply upd_0. }
    split.
    + intros (? & [= <-] & H). apply Hu, Hz in H as [H1 H2]. split; [|done]. exists d0. split; [done|]. by apply Hu.
    + intros [(? & [= <-] & H1) H2]. exists dr0. split; [done|]. apply Hu, Hz. split; [by apply Hu|done].
  - split.
    + intros H. split; [done|]. intros H2. by rewrite (zden_low E dg x z (h_level hd)) in Hx.
    + by intros [H _].
Qed.

Lemma zm_intersect_spec : ∀ n m f g df dg, zmwf m → repr (t_ar m) df f → repr (t_ar m) dg g →
  rank df `max` rank dg < n → zmres ZInter m df dg (zm_intersect_f n m f g).
Proof.
  induction n as [|n IH]; intros m f g df dg Hw Hf Hg Hn; [lia|]. cbn [zm_intersect_f].
  assert (Hsw : ∃ f' g' df' dg', (if g <? f then (g, f) else (f, g)) = (f', g') ∧
    repr (t_ar m) df' f' ∧ repr (t_ar m) dg' g' ∧ rank df' `max` rank dg' < S n ∧
    (∀ x, zmres ZInter m df' dg' x → zmres ZInter m df dg x)).
  { destruct (g <? f).
    - exists g, f, dg, df. sp; try done; [lia|]. intros x. apply zmres_sym.
    - exists f, g, df, dg. done. }
  destruct Hsw as (f' & g' & df' & dg' & -> & Hf' & Hg' & Hn' & Hback). apply Hback.
  clear f g df dg Hf Hg Hn Hback. rename f' into f, g' into g, df' into df, dg' into dg.
  rename Hf' into Hf, Hg' into Hg, Hn' into Hn.
  destruct (zmcache_get m ZInter f g df dg Hw Hf Hg) as (hit & -> & Hhit). cbn [mbind option_bind].
  destruct hit as [x|].
  { destruct (Hhit x eq_refl) as (dr & Hr & Hk & Hp). exists m, x, dr. done. }
  pose proof (zm_view m df f Hw Hf) as Vf. pose proof (zm_view m dg g Hw Hg) as Vg.
  pose proof (zm_ok m df f Hw Hf) as Of. pose proof (zm_ok m dg g Hw Hg) as Og.
  assert (Huf : df = und → zmres ZInter m df dg (Some (m, zm_undet))).
  { intros ->. apply zmres_und; [done|]. intros x z [H _]. by apply zden_und in H. }
  assert (Hug : dg = und → zmres ZInter m df dg (Some (m, zm_undet))).
  { intros ->. apply zmres_und; [done|]. intros x z [_ H]. by apply zden_und in H. }
  (* descend the 0-edge of one operand *)
  assert (HF0 : ∀ hd d0 ds' c, df = Br hd (d0 :: ds') → repr (t_ar m) d0 c → rank d0 ≤ h_level hd →
    rank dg ≤ h_level hd → zmres ZInter m df dg (zm_intersect_f n m c g)).
  { intros hd d0 ds' c -> Hc Hk Hkg. eapply (zmres_weaken _ _ _ _ d0 dg).
    - apply IH; try done. cbn [rank] in Hn. lia.
    - cbn [rank]. lia.
    - intros dr _ Hz _. by eapply Z2_f0. }
  assert (HG0 : ∀ hd d0 ds' c, dg = Br hd (d0 :: ds') → repr (t_ar m) d0 c → rank d0 ≤ h_level hd →
    rank df ≤ h_level hd → zmres ZInter m df dg (zm_intersect_f n m f c)).
  { intros hd d0 ds' c -> Hc Hk Hkf. eapply (zmres_weaken _ _ _ _ df d0).
    - apply IH; try done. cbn [rank] in Hn. lia.
    - cbn [rank]. lia.
    - intros dr _ Hz _. by eapply Z2_g0. }
  destruct df as [[|a]|hd ds], dg as [[|b]|hd' ds'].
  - eapply zmfinish2; try done; cbv beta iota. by apply Huf.
  - eapply zmfinish2; try done; cbv beta iota. by apply Huf.
  - destruct Vg as (h & c & cs & d0 & ds1 & Hgn & _). eapply zmfinish2; try done; cbv beta iota. by apply Huf.
  - eapply zmfinish2; try done; cbv beta iota. by apply Hug.
  - eapply zmfinish2; try done; cbv beta iota. destruct (Z.eqb_spec a b) as [->|Hne].
    + destruct (zm_value_ok m b Hw) as (m' & r & -> & Hst & Hr). exists m', r, (Leaf (VVal b)). sp; try done.
      intros x z. cbn. tauto.
    + apply zmres_und; [done|]. intros x z. cbn. rewrite !zden_leaf. intros [[-> _] [-> _]]. done.
  - destruct Vg as (h & c & cs & d0 & ds1 & Hgn & -> & _ & _ & Hc & _ & Hfk). eapply zmfinish2; try done; cbv beta iota. cbn. apply Forall_cons in Hfk as [Hk0 _]. eapply HG0; try done. cbn. lia.
  - destruct Vf as (h & c & cs & d0 & ds1 & Hfn & _). eapply zmfinish2; try done; cbv beta iota. by apply Hug.
  - destruct Vf as (h & c & cs & d0 & ds1 & Hfn & -> & _ & _ & Hc & _ & Hfk). eapply zmfinish2; try done; cbv beta iota. cbn. apply Forall_cons in Hfk as [Hk0 _]. eapply HF0; try done. cbn. lia.
  - destruct Vf as (hf & c & cs & d0 & ds1 & Hfn & Hdf & Hhf & _ & Hc & _ & Hfk).
    destruct Vg as (hg & c' & cs' & d0' & ds1' & Hgn & Hdg & Hhg & _ & Hc' & _ & Hfk').
    eapply zmfinish2; try done; cbv beta iota.
    rewrite (a_hdr_level _ _ _ Hhf), (a_hdr_level _ _ _ Hhg). cbn [mbind option_bind].
    destruct (Nat.ltb_spec (h_level hd') (h_level hd)) as [Hlt|Hge].
    { subst ds. cbn. apply Forall_cons in Hfk as [Hk0 _]. eapply HF0; try done. }
    destruct (Nat.ltb_spec (h_level hd) (h_level hd')) as [Hlt|Hge2].
    { subst ds'. cbn. apply Forall_cons in Hfk' as [Hk0 _]. eapply HG0; try done. }
    clear HF0 HG0 Huf Hug. assert (Hl : h_level hd = h_level hd') by lia.
    destruct (zip_view m f g hd ds hd' ds' Hw Hf Hg Hl) as (h1 & fc & h2 & gc & Hn1 & Hn2 & Hh1 & Hlen & Hps).
    rewrite Hfn in Hn1. rewrite Hgn in Hn2. injection Hn1 as -> <-. injection Hn2 as <- <-.
    destruct (zmrec m h1 hd (zip (c :: cs) (c' :: cs')) (zm_intersect_f n)
      (λ i d, ∃ a b, ds !! i = Some a ∧ ds' !! i = Some b ∧ Z2 ZInter a b d) Hw Hhf Hlen)
      as (m2 & r & dr & dsr & Heq & Hst & Hr & Hk & Hmk & Hlr & Hok & HPP).
    { intros i p m' Hi (Hw' & He' & Hh'). destruct (Hps i p Hi) as (d & d' & Hd & Hd' & Hr1 & Hr2 & Hk1 & Hk2).
      destruct (IH m' p.1 p.2 d d') as (m'' & r & dr & -> & Hst & Hr & Hk & Hp); try done.
      { by eapply repr_mono. }
      { by eapply repr_mono. }
      { cbn [rank] in Hn. lia. }
      exists m'', r, dr. sp; try done; [lia|]. by exists d, d'. }
    unfold zm_zip. rewrite Heq. exists m2, r, dr. sp; try done; [cbn [rank]; lia|].
    pose proof Of as [Lf _]%okdd_br. pose proof Og as [Lg _]%okdd_br.
    eapply (Z2_zip _ ZInter hd ds hd' ds' dsr dr); try done.
    + rewrite Hlr, Lf. rewrite (Eof_edges (ar_headers (t_ar m)) (λ _, 0)); [done|apply (zmw_good _ Hw)|].
      by eapply elem_of_list_lookup_2.
    + by rewrite Lf, Lg, Hl.
Qed.

Lemma zm_setdiff_spec : ∀ n m f g df dg, zmwf m → repr (t_ar m) df f → repr (t_ar m) dg g →
  rank df `max` rank dg < n → zmres ZDiff m df dg (zm_setdiff_f n m f g).
Proof.
  induction n as [|n IH]; intros m f g df dg Hw Hf Hg Hn; [lia|]. cbn [zm_setdiff_f].
  destruct (zmcache_get m ZDiff f g df dg Hw Hf Hg) as (hit & -> & Hhit). cbn [mbind option_bind].
  destruct hit as [x|].
  { destruct (Hhit x eq_refl) as (dr & Hr & Hk & Hp). exists m, x, dr. done. }
  pose proof (zm_view m df f Hw Hf) as Vf. pose proof (zm_view m dg g Hw Hg) as Vg.
  pose proof (zm_ok m df f Hw Hf) as Of. pose proof (zm_ok m dg g Hw Hg) as Og.
  cbv zeta.
  assert (Huf : df = und → zmres ZDiff m df dg (Some (m, zm_undet))).
  { intros ->. apply zmres_und; [done|]. intros x z [H _]. by apply zden_und in H. }
  assert (Hug : dg = und → zmres ZDiff m df dg (Some (m, f))).
  { intros ->. exists m, f, df. sp; try done; [lia|]. intros x z. cbn. split; [|by intros [? _]].
    intros H. split; [done|]. apply zden_und. }
  assert (Hskip : ∀ hd d0 ds1 h c cs, df = Br hd (d0 :: ds1) → ar_headers (t_ar m) !! h = Some hd →
    S (length cs) = h_edges hd → repr (t_ar m) d0 c → Forall2 (repr (t_ar m)) ds1 cs →
    Forall (λ d, rank d ≤ h_level hd) (d0 :: ds1) → rank dg ≤ h_level hd →
    zmres ZDiff m df dg ('(m, r) ← zm_setdiff_f n m c g; zm_create_node m h (r :: cs))).
  { intros hd d0 ds1 h c cs -> Hh Hlen Hc Hcs Hfk Hkg. pose proof Hfk as [Hk0 Hks]%Forall_cons.
    destruct (IH m c g d0 dg) as (m1 & r0 & dr0 & -> & Hst & Hr0 & Hkr & Hp); try done.
    { cbn [rank] in Hn. lia. }
    cbn [mbind option_bind]. pose proof Hst as (Hw1 & He1 & Hh1).
    destruct (zmcreate_node m1 h hd (r0 :: cs) (λ i d, (dr0 :: ds1) !! i = Some d))
      as (m2 & r & dr & ds & Heq & Hst2 & Hr & Hk & Hmk & Hlr & Hok & HPP); try done.
    { by rewrite Hh1. }
    { intros [|i] y; cbn [lookup list_lookup].
      - intros [= <-]. exists dr0. sp; try done. lia.
      - intros Hy. destruct (Forall2_lookup_r _ _ _ _ _ Hcs Hy) as (d & Hd & Hrd). exists d. sp; try done.
        + eapply repr_mono; [exact He1|done].
        + rewrite Forall_lookup in Hks. by eapply Hks. }
    assert (ds = dr0 :: ds1) as ->.
    { apply list_eq_same_length with (length ds); [|done|].
      - rewrite Hlr. cbn. rewrite (Forall2_length _ _ _ Hcs). lia.
      - intros i x y Hi Hx Hy. apply HPP in Hx. congruence. }
    exists m2, r, dr. split; [exact Heq|]. split; [by eapply zmstep_trans|]. split; [done|].
    split; [cbn [rank]; lia|]. rewrite Hh1 in Hok. apply Forall_cons in Hok as [[? ?] _]. by eapply Z2_skip. }
  assert (HG0 : ∀ hd d0 ds' c, dg = Br hd (d0 :: ds') → repr (t_ar m) d0 c → rank d0 ≤ h_level hd →
    rank df ≤ h_level hd → zmres ZDiff m df dg (zm_setdiff_f n m f c)).
  { intros hd d0 ds' c -> Hc Hk Hkf. eapply (zmres_weaken _ _ _ _ df d0).
    - apply IH; try done. cbn [rank] in Hn. lia.
    - cbn [rank]. lia.
    - intros dr _ Hz _. by eapply Z2_g0. }
  destruct df as [[|a]|hd ds], dg as [[|b]|hd' ds'].
  - eapply zmfinish2; try done; cbv beta iota. by apply Huf.
  - eapply zmfinish2; try done; cbv beta iota. by apply Huf.
  - destruct Vg as (h & c & cs & d0 & ds1 & Hgn & _). eapply zmfinish2; try done; cbv beta iota. by apply Huf.
  - eapply zmfinish2; try done; cbv beta iota. by apply Hug.
  - eapply zmfinish2; try done; cbv beta iota. destruct (Z.eqb_spec a b) as [->|Hne].
    + apply zmres_und; [done|]. intros x z. cbn. tauto.
    + destruct (zm_value_ok m a Hw) as (m' & r & -> & Hst & Hr). exists m', r, (Leaf (VVal a)). sp; try done.
      intros x z. cbn. rewrite !zden_leaf. split; [|by intros [? _]]. intros [-> ?]. split; [done|].
      intros [-> _]. done.
  - destruct Vg as (h & c & cs & d0 & ds1 & Hgn & -> & _ & _ & Hc & _ & Hfk). eapply zmfinish2; try done; cbv beta iota. cbn. apply Forall_cons in Hfk as [Hk0 _]. eapply HG0; try done. cbn. lia.
  - destruct Vf as (h & c & cs & d0 & ds1 & Hfn & _). eapply zmfinish2; try done; cbv beta iota. by apply Hug.
  - destruct Vf as (h & c & cs & d0 & ds1 & Hfn & -> & Hh & Hlen & Hc & Hcs & Hfk). eapply zmfinish2; try done; cbv beta iota. eapply Hskip; try done. cbn. lia.
  - destruct Vf as (hf & c & cs & d0 & ds1 & Hfn & Hdf & Hhf & Hlenf & Hc & Hcs & Hfk).
    destruct Vg as (hg & c' & cs' & d0' & ds1' & Hgn & Hdg & Hhg & _ & Hc' & _ & Hfk').
    eapply zmfinish2; try done; cbv beta iota.
    rewrite (a_hdr_level _ _ _ Hhf), (a_hdr_level _ _ _ Hhg). cbn [mbind option_bind].
    destruct (Nat.ltb_spec (h_level hd') (h_level hd)) as [Hlt|Hge].
    { subst ds. eapply Hskip; try done. }
    destruct (Nat.ltb_spec (h_level hd) (h_level hd')) as [Hlt|Hge2].
    { subst ds'. cbn. apply Forall_cons in Hfk' as [Hk0 _]. eapply HG0; try done. }
    clear Hskip HG0 Huf Hug. assert (Hl : h_level hd = h_level hd') by lia.
    destruct (zip_view m f g hd ds hd' ds' Hw Hf Hg Hl) as (h1 & fc & h2 & gc & Hn1 & Hn2 & Hh1 & Hlen & Hps).
    rewrite Hfn in Hn1. rewrite Hgn in Hn2. injection Hn1 as -> <-. injection Hn2 as <- <-.
    destruct (zmrec m h1 hd (zip (c :: cs) (c' :: cs')) (zm_setdiff_f n)
      (λ i d, ∃ a b, ds !! i = Some a ∧ ds' !! i = Some b ∧ Z2 ZDiff a b d) Hw Hhf Hlen)
      as (m2 & r & dr & dsr & Heq & Hst & Hr & Hk & Hmk & Hlr & Hok & HPP).
    { intros i p m' Hi (Hw' & He' & Hh'). destruct (Hps i p Hi) as (d & d' & Hd & Hd' & Hr1 & Hr2 & Hk1 & Hk2).
      destruct (IH m' p.1 p.2 d d') as (m'' & r & dr & -> & Hst & Hr & Hk & Hp); try done.
      { by eapply repr_mono. }
      { by eapply repr_mono. }
      { cbn [rank] in Hn. lia. }
      exists m'', r, dr. sp; try done; [lia|]. by exists d, d'. }
    unfold zm_zip. rewrite Heq. exists m2, r, dr. sp; try done; [cbn [rank]; lia|].
    pose proof Of as [Lf _]%okdd_br. pose proof Og as [Lg _]%okdd_br.
    eapply (Z2_zip _ ZDiff hd ds hd' ds' dsr dr); try done.
    + rewrite Hlr, Lf. rewrite (Eof_edges (ar_headers (t_ar m)) (λ _, 0)); [done|apply (zmw_good _ Hw)|].
      by eapply elem_of_list_lookup_2.
    + by rewrite Lf, Lg, Hl.
Qed.

(** ** set_baseline *)
Definition ZB (v : Z) (d dr : dd vt) : Prop :=
  ∀ x z, zden dr x z ↔ zden d x z ∨ ((∀ l, x l = 0) ∧ z = v ∧ ∀ z', ¬ zden d (λ _, 0) z').
Lemma zm_set_baseline_spec v : ∀ n m f d, zmwf m → repr (t_ar m) d f → rank d < n →
  ∃ m' r dr, zm_set_baseline_f n m f v = Some (m', r) ∧ zmstep m m' ∧ repr (t_ar m') dr r ∧ rank dr ≤ rank d ∧ ZB v d dr.
Proof.
  induction n as [|n IH]; intros m f d Hw Hf Hn; [lia|]. cbn [zm_set_baseline_f].
  pose proof (zm_view m d f Hw Hf) as Vf. pose proof (zm_ok m d f Hw Hf) as Of.
  destruct d as [[|a]|hd ds].
  - rewrite Vf. cbn [mbind option_bind]. destruct (zm_value_ok m v Hw) as (m' & r & -> & Hst & Hr).
    exists m', r, (Leaf (VVal v)). sp; try done. intros x z. rewrite zden_leaf. split.
    + intros [-> H]. right. sp; try done. intros z'. apply zden_und.
    + intros [H|(H & -> & _)]; [by apply zden_und in H|done].
  - rewrite Vf. cbn [mbind option_bind]. exists m, f, (Leaf (VVal a)). sp; try done.
    intros x z. split; [by left|]. intros [H|(_ & _ & H)]; [done|]. by destruct (H a); constructor.
  - destruct Vf as (h & c & cs & d0 & ds1 & Hfn & -> & Hh & Hlen & Hc & Hcs & Hfk). rewrite Hfn. cbn [mbind option_bind].
    pose proof Hfk as [Hk0 Hks]%Forall_cons.
    destruct (IH m c d0) as (m1 & r0 & dr0 & -> & Hst & Hr0 & Hkr & Hp); try done.
    { cbn [rank] in Hn. lia. }
    cbn [mbind option_bind]. pose proof Hst as (Hw1 & He1 & Hh1).
    destruct (zmcreate_node m1 h hd (r0 :: cs) (λ i d, (dr0 :: ds1) !! i = Some d))
      as (m2 & r & dr & ds & Heq & Hst2 & Hr & Hk & Hmk & Hlr & Hok & HPP); try done.
    { by rewrite Hh1. }
    { intros [|i] y; cbn [lookup list_lookup].
      - intros [= <-]. exists dr0. sp; try done. lia.
      - intros Hy. destruct (Forall2_lookup_r _ _ _ _ _ Hcs Hy) as (d & Hd & Hrd). exists d. sp; try done.
        + eapply repr_mono; [exact He1|done].
        + rewrite Forall_lookup in Hks. by eapply Hks. }
    assert (ds = dr0 :: ds1) as ->.
    { apply list_eq_same_length with (length ds); [|done|].
      - rewrite Hlr. cbn. rewrite (Forall2_length _ _ _ Hcs). lia.
      - intros i x y Hi Hx Hy. apply HPP in Hx. congruence. }
    exists m2, r, dr. split; [exact Heq|]. split; [by eapply zmstep_trans|]. split; [done|].
    split; [cbn [rank]; lia|]. rewrite Hh1 in Hok. intros x z.
    rewrite (mkz_den _ hd (dr0 :: ds1) dr x z Hmk Hok), zden_br.
    assert (H00 : ∀ z', zden (Br hd (d0 :: ds1)) (λ _, 0) z' ↔ zden d0 (λ _, 0) z').
    { intros z'. by eapply zden_head. }
    destruct (x (h_level hd)) as [|i] eqn:Hx; cbn [lookup list_lookup].
    + assert (Hu : ∀ d, zden d (upd x (h_level hd) 0) z ↔ zden d x z).
      { intros d. apply zden_ext_iff. by apply upd_0. }
      split.
      * intros (? & [= <-] & H). apply Hu, Hp in H as [H|(H1 & H2 & H3)].
        -- left. exists d0. split; [done|]. by apply Hu.
        -- right. sp; try done. intros z'. rewrite H00. apply H3.
      * intros H. exists dr0. split; [done|]. apply Hu, Hp. destruct H as [(? & [= <-] & H)|(H1 & H2 & H3)].
        -- left. by apply Hu.
        -- right. sp; try done. intros z'. rewrite <- H00. apply H3.
    + split; [by left|]. intros [H|(H & _)]; [done|]. rewrite H in Hx. done.
Qed.

(** ** new, create_header, gc, clear_cache *)
Lemma zm_new_ok : zmwf zm_new.
Proof.
  assert (Hl : ∀ i, live (t_ar zm_new) i ↔ i < 1).
  { intros i. unfold live. cbn. split; [by intros [? _]|]. split; [done|apply not_elem_of_nil]. }
  constructor; cbn; try apply cache_ok_new.
  constructor; cbn.
  - constructor; cbn.
    * intros h hd H. by rewrite lookup_nil in H.
    * constructor.
    * intros id H. by apply elem_of_nil in H.
    * intros id h cs H. apply Hl in H. destruct id as [|]; cbn; intros; [done|lia].
    * intros h cs id. rewrite lookup_empty. split; [done|]. intros [H Hn].
      apply Hl in H. destruct id as [|]; cbn in *; [done|lia].
    * intros i j t Hi Hj Hni Hnj. apply Hl in Hi, Hj. lia.
  - split; [apply Hl; unfold zm_undet, mt_undet; lia|done].
  - split; intros hd; [|intros hd']; by intros ?%elem_of_nil.
  - intros z id. rewrite lookup_empty. split; [done|]. intros [H Hn]%repr_leaf. apply Hl in H.
    destruct id as [|]; cbn in *; [done|lia].
Qed.

Lemma zm_create_header_ok m level label edges m' h : zmwf m →
  hcons (ar_headers (t_ar m) ++ [Header (length (ar_headers (t_ar m))) level label edges]) →
  zm_create_header m level label edges = (m', h) →
  zmwf m' ∧ ext (t_ar m) (t_ar m') ∧ h = length (ar_headers (t_ar m)) ∧
  ar_headers (t_ar m') = ar_headers (t_ar m) ++ [Header h level label edges] ∧
  ar_nodes (t_ar m') = ar_nodes (t_ar m) ∧ (∀ i, live (t_ar m') i ↔ live (t_ar m) i).
Proof.
  intros Hw Hnew. unfold zm_create_header, mt_create_header. destruct (ar_create_header _ _ _ _) as [a h0] eqn:Ha.
  intros [= <- <-]. cbn [mt_with_ar t_ar].
  destruct (create_header_spec _ _ _ _ _ _ _ (zmg_wf _ _ (zmw_good _ Hw)) Ha) as (Hwf & He & Hh & -> & Hns & Hl).
  sp; try done. destruct Hw as [[_ Hu Hed Hv] Hc]. constructor; try done; cbn.
  - constructor; try done; try by eapply repr_mono.
    + by rewrite Hh.
    + intros z id. rewrite Hv, !repr_leaf, Hns, Hl. done.
  - eapply cache_ok_mono; [|done]. intros k v. by apply zmcentry_mono.
Qed.

Lemma zm_clear_cache_ok m : zmwf m → zmwf (zm_clear_cache m).
Proof. intros [Hg [Hc _]]. constructor; try done; cbn; by apply cache_ok_clear. Qed.

Lemma zm_gc_ok m roots : zmwf m → (∀ r, r ∈ roots → live (t_ar m) r) →
  ∃ m' n, zm_gc m roots = Some (m', n) ∧ zmwf m' ∧
    ar_headers (t_ar m') = ar_headers (t_ar m) ∧ ar_nodes (t_ar m') = ar_nodes (t_ar m) ∧
    (∀ id, live (t_ar m') id ↔ id ∈ [zm_undet] ∨ reach (t_ar m) roots id) ∧
    (∀ id, live (t_ar m') id → live (t_ar m) id) ∧
    n = length (ar_free (t_ar m')).
Proof.
  intros Hw Hroots. pose proof (zmw_good _ Hw) as Hg. unfold zm_gc, mt_gc.
  destruct (gc_spec Rz (t_ar m) [mt_undet] roots)
    as (a' & lv & -> & Hwf & Hhd & Hns & Hlen & Hl & Hsub & Hm); try done.
  { apply Hg. }
  { intros b. rewrite elem_of_list_singleton. intros ->. destruct Hg as [_ [??] _ _]. eauto. }
  cbn [mbind option_bind].
  assert (Hlt : ∀ d i, repr (t_ar m) d i → i < length lv).
  { intros d i Hd. rewrite Hlen. by apply repr_live in Hd as [? _]. }
  assert (Hrg : ∀ d i, marked lv i → repr (t_ar m) d i → repr a' d i).
  { intros d i Hi Hd. eapply repr_gc; try done. by apply Hm. }
  unfold mt_retain. rewrite decide_True.
  2:{ intros z id Hz. apply (zmg_vt _ _ Hg) in Hz. by eapply Hlt. }
  cbn [mbind option_bind].
  destruct (cache_ok_retain (t_cache m) _ (zmcentry a') lv (zmw_c _ Hw)) as (c' & -> & Hc).
  { intros k v (o & df & dg & dr & Ho & Hf & Hg' & Hr & _).
    unfold words2. rewrite !Forall_cons, Forall_nil. sp; eauto. }
  { intros k v (o & df & dg & dr & Ho & Hf & Hg' & Hr & Hk & Hp) Hal.
    unfold words2 in Hal. rewrite !Forall_cons in Hal. destruct Hal as (A1 & A2 & A3 & _).
    exists o, df, dg, dr. sp; try done; by apply Hrg. }
  cbn [mbind option_bind]. eexists _, _. split; [done|]. cbn [t_ar].
  sp; try done. constructor; try done; cbn.
  destruct Hg as [? Hu He Hv]. constructor; try done.
  - apply Hrg; [|done]. apply Hm, Hl. left. set_solver.
  - by rewrite Hhd.
  - intros z id. rewrite map_filter_lookup_Some. cbn. rewrite Hv, !repr_leaf, Hns.
    change (lv !! id = Some true) with (marked lv id). rewrite Hm. split; [by intros [[_ ?] ?]|].
    intros [Hi ?]. sp; auto.
Qed.
