(** and/or/k-of-n gates and the dual: proofs. *)
From stdpp Require Import strings.
From Verif Require Import Prelude ComputeCache ComputeCacheProofs Arena Trees ArenaProofs Bdd BddProofs SpecBdd SpecBss BddMain BssAlg.

Lemma step_keeps m m' : bwf m → step m m' → bdd_keeps m m'.
Proof.
  intros Hw (Hw' & He & _) id Hv. split; [by eapply ext_live|].
  destruct (valid_repr _ _ Hw Hv) as [d Hd]. intros rho t.
  rewrite (value_ev m rho d id t (bw_good _ Hw) Hd).
  rewrite (value_ev m' rho d id t (bw_good _ Hw')); [done|]. by eapply repr_mono.
Qed.

Lemma reprs_mono a a' (ds : list (dd tv)) xs : ext a a' → Forall2 (repr a) ds xs → Forall2 (repr a') ds xs.
Proof. intros He H. eapply Forall2_impl; [exact H|]. intros d x Hd. by eapply repr_mono. Qed.

Lemma valid_reprs m xs : bwf m → Forall (bdd_valid m) xs → ∃ ds, Forall2 (repr (b_ar m)) ds xs.
Proof.
  intros Hw. induction 1 as [|x xs Hx _ [ds IH]]; [by exists []|].
  destruct (valid_repr _ _ Hw Hx) as [d Hd]. exists (d :: ds). by constructor.
Qed.

Definition evs (ρ : nat → nat) (ds : list (dd tv)) (bs : list bool) : Prop := Forall2 (λ d b, ev ρ d = tvb b) ds bs.

Lemma vals_evs m rho xs ds bs : good (b_ar m) → Forall2 (repr (b_ar m)) ds xs →
  Forall2 (λ x b, bdd_value m rho x (tvb b)) xs bs → evs (asg rho) ds bs.
Proof.
  intros Hg H. revert bs. induction H as [|d x ds xs Hd _ IH]; intros bs Hbs; inversion Hbs; subst; constructor.
  - by eapply (val_ev m).
  - by apply IH.
Qed.

Lemma and_go_spec xs ds : ∀ m r dr (g : list bool → bool) ds0, bwf m → Forall2 (repr (b_ar m)) ds xs → repr (b_ar m) dr r →
  (∀ ρ bs, vok E2 ρ → evs ρ ds0 bs → ev ρ dr = tvb (g bs)) →
  ∃ m' r' dr', kofn_and_go m r xs = Some (m', r') ∧ step m m' ∧ repr (b_ar m') dr' r' ∧
    ∀ ρ bs0 bs, vok E2 ρ → evs ρ ds0 bs0 → evs ρ ds bs → ev ρ dr' = tvb (g bs0 && forallb id bs).
Proof.
  revert ds. induction xs as [|x xs IH]; intros ds m r dr g ds0 Hw Hf Hr Hg.
  - inversion Hf; subst. exists m, r, dr. sp; [done|by apply step_refl|done|].
    intros ρ bs0 bs Hv H0 H1. inversion H1; subst. cbn. rewrite andb_true_r. by apply Hg.
  - inversion Hf as [|d ? ds' ? Hd Hf']; subst. cbn [kofn_and_go].
    destruct (conn_tree And m r x dr d Hw Hr Hd) as (m1 & r1 & d1 & Heq & Hst & Hr1 & _ & Hp).
    cbn [bdd_conn] in Heq. rewrite Heq. cbn [mbind option_bind].
    destruct (IH ds' m1 r1 d1 (λ bs, g (tail bs) && default true (head bs)) (d :: ds0)) as (m' & r' & dr' & -> & Hst' & Hr' & Hv').
    + apply Hst.
    + eapply reprs_mono; [apply Hst|done].
    + done.
    + intros ρ bs Hv H. inversion H as [|? b ? bs' Hb Hbs]; subst. cbn. specialize (Hp ρ Hv).
      rewrite (Hg ρ bs' Hv Hbs), Hb in Hp. apply conn_rel_det in Hp. done.
    + exists m', r', dr'. sp; try done; [by eapply step_trans|].
      intros ρ bs0 bs Hv H0 H1. inversion H1 as [|? b ? bs' Hb Hbs]; subst.
      rewrite (Hv' ρ (b :: bs0) bs' Hv); [|by constructor|done]. cbn. by rewrite andb_assoc.
Qed.

Lemma or_go_spec xs ds : ∀ m r dr (g : list bool → bool) ds0, bwf m → Forall2 (repr (b_ar m)) ds xs → repr (b_ar m) dr r →
  (∀ ρ bs, vok E2 ρ → evs ρ ds0 bs → ev ρ dr = tvb (g bs)) →
  ∃ m' r' dr', kofn_or_go m r xs = Some (m', r') ∧ step m m' ∧ repr (b_ar m') dr' r' ∧
    ∀ ρ bs0 bs, vok E2 ρ → evs ρ ds0 bs0 → evs ρ ds bs → ev ρ dr' = tvb (g bs0 || existsb id bs).
Proof.
  revert ds. induction xs as [|x xs IH]; intros ds m r dr g ds0 Hw Hf Hr Hg.
  - inversion Hf; subst. exists m, r, dr. sp; [done|by apply step_refl|done|].
    intros ρ bs0 bs Hv H0 H1. inversion H1; subst. cbn. rewrite orb_false_r. by apply Hg.
  - inversion Hf as [|d ? ds' ? Hd Hf']; subst. cbn [kofn_or_go].
    destruct (conn_tree Or m r x dr d Hw Hr Hd) as (m1 & r1 & d1 & Heq & Hst & Hr1 & _ & Hp).
    cbn [bdd_conn] in Heq. rewrite Heq. cbn [mbind option_bind].
    destruct (IH ds' m1 r1 d1 (λ bs, g (tail bs) || default true (head bs)) (d :: ds0)) as (m' & r' & dr' & -> & Hst' & Hr' & Hv').
    + apply Hst.
    + eapply reprs_mono; [apply Hst|done].
    + done.
    + intros ρ bs Hv H. inversion H as [|? b ? bs' Hb Hbs]; subst. cbn. specialize (Hp ρ Hv).
      rewrite (Hg ρ bs' Hv Hbs), Hb in Hp. apply conn_rel_det in Hp. done.
    + exists m', r', dr'. sp; try done; [by eapply step_trans|].
      intros ρ bs0 bs Hv H0 H1. inversion H1 as [|? b ? bs' Hb Hbs]; subst.
      rewrite (Hv' ρ (b :: bs0) bs' Hv); [|by constructor|done]. cbn. by rewrite orb_assoc.
Qed.

(** ** k of n *)
Definition kval (k : nat) (ds : list (dd tv)) (dr : dd tv) : Prop :=
  ∀ ρ bs, vok E2 ρ → evs ρ ds bs → ev ρ dr = tvb (k <=? count_true bs).

Definition memo_ok (a : arena tv) (ds : list (dd tv)) (k n : nat) (memo : list (option nat)) : Prop :=
  length memo = (k + 1) * (n + 1) ∧
  ∀ k' s v, s ≤ n → memo !! (k' * (n + 1) + s) = Some (Some v) → ∃ dr, repr a dr v ∧ kval k' (drop s ds) dr.

Lemma memo_mono a a' ds k n memo : ext a a' → memo_ok a ds k n memo → memo_ok a' ds k n memo.
Proof.
  intros He [Hl H]. split; [done|]. intros k' s v Hs Hm. destruct (H k' s v Hs Hm) as (dr & Hr & Hk).
  exists dr. split; [by eapply repr_mono|done].
Qed.

Lemma count_true_cons b bs : count_true (b :: bs) = (if b then S (count_true bs) else count_true bs).
Proof. unfold count_true. rewrite filter_cons. by destruct b. Qed.

Lemma kofn_rec_spec xs ds k0 n fuel : n = length xs → ∀ m k s memo, bwf m → Forall2 (repr (b_ar m)) ds xs →
  k ≤ k0 → s ≤ n → n - s < fuel → memo_ok (b_ar m) ds k0 n memo →
  ∃ m' memo' r dr, kofn_rec fuel m xs k s n memo = Some (m', memo', r) ∧ step m m' ∧ repr (b_ar m') dr r ∧
    memo_ok (b_ar m') ds k0 n memo' ∧ kval k (drop s ds) dr.
Proof.
  intros Hn. induction fuel as [|fuel IH]; intros m k s memo Hw Hf Hk Hs Hfu Hm; [lia|]. cbn [kofn_rec].
  pose proof (bw_good _ Hw) as Hg. pose proof (Forall2_length _ _ _ Hf) as Hlen.
  destruct (Nat.eqb_spec k 0) as [->|Hk0].
  { exists m, memo, bdd_one, (Leaf TOne). sp; [done|by apply step_refl|apply Hg|done|]. intros ρ bs _ _. done. }
  destruct (Nat.ltb_spec (n - s) k) as [Hlt|Hge].
  { exists m, memo, bdd_zero, (Leaf TZero). sp; [done|by apply step_refl|apply Hg|done|]. intros ρ bs Hv Hbs.
    apply Forall2_length in Hbs. rewrite drop_length in Hbs.
    pose proof (filter_length (λ b : bool, b = true) bs). unfold count_true.
    rewrite (proj2 (Nat.leb_gt _ _)); [done|lia]. }
  destruct (lookup_lt_is_Some_2 memo (k * (n + 1) + s)) as [hit Hhit].
  { rewrite (proj1 Hm). nia. }
  rewrite Hhit. cbn [mbind option_bind]. destruct hit as [v|].
  { destruct (proj2 Hm k s v Hs Hhit) as (dr & Hr & Hkv). exists m, memo, v, dr. sp; done. }
  destruct (IH m (k - 1) (s + 1) memo) as (m1 & memo1 & t & dt & -> & St1 & Ht & M1 & Kt); try done; [lia..|].
  cbn [mbind option_bind].
  assert (Hf1 : Forall2 (repr (b_ar m1)) ds xs) by (eapply reprs_mono; [apply St1|done]).
  destruct (IH m1 k (s + 1) memo1) as (m2 & memo2 & e & de & -> & St2 & He & M2 & Ke); try done; [apply St1|lia..|].
  cbn [mbind option_bind].
  assert (Hf2 : Forall2 (repr (b_ar m2)) ds xs) by (eapply reprs_mono; [apply St2|done]).
  destruct (lookup_lt_is_Some_2 xs s) as [x Hx]; [lia|]. rewrite Hx. cbn [mbind option_bind].
  destruct (Forall2_lookup_r _ _ _ _ _ Hf2 Hx) as (dx & Hdx & Hrx).
  destruct (bdd_ite_ok m2 x t e dx dt de) as (m3 & r & dr & -> & St3 & Hr & _ & Hp);
    [apply St2|done|eapply repr_mono; [apply St2|done]|done|]. cbn [mbind option_bind].
  assert (Kr : kval k (drop s ds) dr).
  { intros ρ bs Hv Hbs. rewrite (drop_S _ _ _ Hdx) in Hbs. inversion Hbs as [|? b ? bs' Hb Hbs']; subst.
    specialize (Hp ρ Hv). rewrite Hb in Hp. replace (S s) with (s + 1) in Hbs' by lia.
    rewrite (Kt ρ bs' Hv Hbs'), (Ke ρ bs' Hv Hbs') in Hp. rewrite count_true_cons.
    destruct b; cbn in Hp; rewrite Hp; [|done]. f_equal. destruct k; [lia|]. cbn. by rewrite Nat.sub_0_r. }
  exists m3, (<[k * (n + 1) + s := Some r]> memo2), r, dr. sp; try done.
  - eapply step_trans; [done|]. by eapply step_trans.
  - eapply memo_mono in M2; [|apply St3]. destruct M2 as [Hl2 M2]. split; [by rewrite insert_length|].
    intros k' s' v Hs' Hlk. destruct (decide (k' * (n + 1) + s' = k * (n + 1) + s)) as [Heq|Hne].
    + assert (k' = k ∧ s' = s) as [-> ->].
      { assert (k' = k) by nia. subst. lia. }
      rewrite list_lookup_insert in Hlk; [injection Hlk as <-; by exists dr|].
      rewrite Hl2. nia.
    + rewrite list_lookup_insert_ne in Hlk by done. by eapply M2.
Qed.

Lemma kofn_l m k xs : bwf m → Forall (bdd_valid m) xs →
  ∃ m' r, kofn m k xs = Some (m', r) ∧ step m m' ∧ bdd_valid m' r ∧ bdd_keeps m m' ∧
    ∀ rho bs, Forall2 (λ x b, bdd_value m rho x (tvb b)) xs bs →
      bdd_value m' rho r (tvb (k <=? count_true bs)).
Proof.
  intros Hre Hv. pose proof Hre as Hw. destruct (valid_reprs _ _ Hw Hv) as [ds Hds].
  unfold kofn.
  destruct (kofn_rec_spec xs ds k (length xs) (S (length xs)) eq_refl m k 0 (replicate ((k + 1) * (length xs + 1)) None))
    as (m' & memo' & r & dr & -> & Hst & Hr & _ & Hk); try done; [lia..| |].
  { split; [by rewrite replicate_length|]. intros k' s v _ H. apply lookup_replicate in H as [? _]. done. }
  cbn [mbind option_bind]. exists m', r. sp; [done|done|by eapply repr_live|by apply step_keeps|].
  intros rho bs Hbs. eapply ev_val; [apply Hst|exact Hr|]. apply Hk; [apply asg_ok|]. cbn.
  by eapply vals_evs; [apply Hw|..].
Qed.

Lemma and_list_l m xs : bwf m → Forall (bdd_valid m) xs →
  ∃ m' r, kofn_and m xs = Some (m', r) ∧ step m m' ∧ bdd_valid m' r ∧ bdd_keeps m m' ∧
    ∀ rho bs, Forall2 (λ x b, bdd_value m rho x (tvb b)) xs bs →
      bdd_value m' rho r (tvb (forallb id bs)).
Proof.
  intros Hre Hv. pose proof Hre as Hw. destruct (valid_reprs _ _ Hw Hv) as [ds Hds].
  unfold kofn_and.
  destruct (and_go_spec xs ds m bdd_one (Leaf TOne) (λ _, true) []) as (m' & r & dr & -> & Hst & Hr & Hk); try done.
  { apply (bw_good _ Hw). }
  exists m', r. sp; [done|done|by eapply repr_live|by apply step_keeps|].
  intros rho bs Hbs. eapply ev_val; [apply Hst|exact Hr|].
  apply (Hk _ [] bs (asg_ok rho)); [constructor|]. by eapply vals_evs; [apply Hw|..].
Qed.
Lemma or_list_l m xs : bwf m → Forall (bdd_valid m) xs →
  ∃ m' r, kofn_or m xs = Some (m', r) ∧ step m m' ∧ bdd_valid m' r ∧ bdd_keeps m m' ∧
    ∀ rho bs, Forall2 (λ x b, bdd_value m rho x (tvb b)) xs bs →
      bdd_value m' rho r (tvb (existsb id bs)).
Proof.
  intros Hre Hv. pose proof Hre as Hw. destruct (valid_reprs _ _ Hw Hv) as [ds Hds].
  unfold kofn_or.
  destruct (or_go_spec xs ds m bdd_zero (Leaf TZero) (λ _, false) []) as (m' & r & dr & -> & Hst & Hr & Hk); try done.
  { apply (bw_good _ Hw). }
  exists m', r. sp; [done|done|by eapply repr_live|by apply step_keeps|].
  intros rho bs Hbs. eapply ev_val; [apply Hst|exact Hr|].
  apply (Hk _ [] bs (asg_ok rho)); [constructor|]. by eapply vals_evs; [apply Hw|..].
Qed.

(** ** dual *)
Fixpoint dualt (d : dd tv) : dd tv :=
  match d with Leaf t => Leaf (knot t) | Br hd cs => Br hd (rev (map dualt cs)) end.
Lemma dualt_dualt d : dualt (dualt d) = d.
Proof.
  induction d as [t|hd cs IH] using dd_ind'; cbn [dualt]; [by rewrite knot_knot|]. f_equal.
  rewrite <- map_rev, rev_involutive, map_map. rewrite <- (map_id cs) at 2. apply map_ext_in.
  intros c Hc. rewrite Forall_forall in IH. by apply IH, elem_of_list_In.
Qed.
Lemma dualt_inj d d' : dualt d = dualt d' → d = d'.
Proof. intros H. rewrite <- (dualt_dualt d), H. apply dualt_dualt. Qed.
Lemma rank_dualt d : rank (dualt d) = rank d.
Proof. by destruct d. Qed.

Definition flip (ρ : nat → nat) : nat → nat := λ l, 1 - ρ l.
Lemma flip_ok ρ : vok E2 (flip ρ).
Proof. intros l. unfold flip, E2. lia. Qed.
Lemma ev_dualt ρ d : okdd E2 d → vok E2 ρ → ev ρ (dualt d) = knot (ev (flip ρ) d).
Proof.
  intros Ho Hv. induction d as [t|hd cs IH] using dd_ind'; [done|].
  apply okdd_br in Ho as [Hl Hcs]. unfold E2 in Hl. destruct cs as [|d0 [|d1 [|]]]; try done.
  rewrite !Forall_cons in IH, Hcs. destruct IH as (IH0 & IH1 & _), Hcs as ((_ & O0) & (_ & O1) & _).
  cbn [dualt map rev app]. rewrite !ev_br2 by (done || apply flip_ok). change (flip ρ (h_level hd)) with (1 - ρ (h_level hd)).
  destruct (vok_2 ρ (h_level hd) Hv) as [-> | ->]; cbn; auto.
Qed.

Lemma dual_spec n : ∀ m d id cache, bwf m → repr (b_ar m) d id → rank d < n →
  (∀ i x, cache !! i = Some x → ∃ di, repr (b_ar m) di i ∧ repr (b_ar m) (dualt di) x) →
  ∃ m' cache' r, dual_f n m id cache = Some (m', cache', r) ∧ step m m' ∧ repr (b_ar m') (dualt d) r ∧
    ∀ i x, cache' !! i = Some x → ∃ di, repr (b_ar m') di i ∧ repr (b_ar m') (dualt di) x.
Proof.
  induction n as [|n IH]; intros m d id cache Hw Hr Hn Hc; [lia|]. cbn [dual_f]. pose proof (bw_good _ Hw) as Hg.
  destruct (cache !! id) as [x|] eqn:Hhit.
  { destruct (Hc _ _ Hhit) as (di & Hdi & Hx). rewrite (repr_fun _ _ _ _ Hr Hdi). exists m, cache, x.
    sp; done. }
  assert (Hins : ∀ m1 (cache1 : gmap nat nat) r, ext (b_ar m) (b_ar m1) → repr (b_ar m1) (dualt d) r →
    (∀ i x, cache1 !! i = Some x → ∃ di, repr (b_ar m1) di i ∧ repr (b_ar m1) (dualt di) x) →
    ∀ i x, <[id := r]> cache1 !! i = Some x → ∃ di, repr (b_ar m1) di i ∧ repr (b_ar m1) (dualt di) x).
  { intros m1 c1 r He Hrr Hc1 i x. rewrite lookup_insert_Some. intros [[<- <-]|[_ H]]; [|eauto].
    exists d. split; [by eapply repr_mono|done]. }
  destruct d as [t|hd ds].
  - pose proof Hr as [Hl Hnd]%repr_leaf. rewrite Hnd. cbn [mbind option_bind].
    destruct t; cbn [mbind option_bind]; (eexists m, _, _; sp; [done|by apply step_refl|cbn; apply Hg|]);
      (apply Hins; [apply ext_refl|cbn; apply Hg|done]).
  - destruct (repr_node2 _ _ _ _ Hg Hr) as (h & lo & hi & dlo & dhi & -> & Hnd & Hh & Hlo & Hhi & Rlo & Rhi).
    rewrite Hnd. cbn [mbind option_bind edges2]. cbn [rank] in Hn.
    destruct (IH m dhi hi cache Hw Hhi) as (m1 & c1 & nl & -> & St1 & Hnl & Hc1); [lia|done|]. cbn [mbind option_bind].
    destruct (IH m1 dlo lo c1) as (m2 & c2 & nh & -> & St2 & Hnh & Hc2); [apply St1|eapply repr_mono; [apply St1|done]|lia|done|].
    cbn [mbind option_bind].
    destruct (create_node_spec m2 h hd nl nh (dualt dhi) (dualt dlo)) as (m3 & r & dr & -> & St3 & Hrr & Hd);
      [apply St2| |eapply repr_mono; [apply St2|done]|done|by rewrite rank_dualt..|].
    { eapply ext_header; [apply St2|]. eapply ext_header; [apply St1|done]. }
    destruct Hd as [[Heq _]|[_ ->]].
    { exfalso. apply dualt_inj in Heq as ->. pose proof (repr_redd _ _ _ Hg Hr) as [Hred _]%redd_br.
      apply Hred. exists dlo. repeat constructor. }
    assert (St : step m m3) by (eapply step_trans; [done|]; by eapply step_trans).
    assert (Hc3 : ∀ i x, c2 !! i = Some x → ∃ di, repr (b_ar m3) di i ∧ repr (b_ar m3) (dualt di) x).
    { intros i x Hi. destruct (Hc2 i x Hi) as (di & ? & ?). exists di. split; (eapply repr_mono; [apply St3|done]). }
    eexists m3, _, r. sp; [done|done|done|]. apply Hins; [apply St|done|done].
Qed.

Lemma bdd_dual_ok m f d : bwf m → repr (b_ar m) d f →
  ∃ m' r, bdd_dual m f = Some (m', r) ∧ step m m' ∧ repr (b_ar m') (dualt d) r.
Proof.
  intros Hw Hd. unfold bdd_dual.
  destruct (dual_spec (ar_fuel (b_ar m)) m d f ∅ Hw Hd) as (m' & c & r & -> & Hst & Hr & _);
    [eapply fuel_enough; [apply Hw|done]|done|].
  by exists m', r.
Qed.

Lemma dual_l m f : bwf m → bdd_valid m f →
  ∃ m' r, bdd_dual m f = Some (m', r) ∧ step m m' ∧ bdd_valid m' r ∧ bdd_keeps m m' ∧
    (∀ rho t, bdd_value m (λ l, negb (rho l)) f t →
       bdd_value m' rho r match t with TZero => TOne | TOne => TZero | TUndet => TUndet end) ∧
    ∃ m'', bdd_dual m' r = Some (m'', f).
Proof.
  intros Hre Vf. pose proof Hre as Hw. destruct (valid_repr _ _ Hw Vf) as [d Hd].
  destruct (bdd_dual_ok m f d Hw Hd) as (m' & r & -> & Hst & Hr).
  exists m', r. sp; [done|done|by eapply repr_live|by apply step_keeps|..].
  - intros rho t Ht. eapply val_ev in Ht; [|apply Hw|done]. eapply ev_val; [apply Hst|done|].
    rewrite ev_dualt; [|eapply good_ok; [apply Hw|done]|apply asg_ok]. rewrite <- Ht.
    assert (ev (flip (asg rho)) d = ev (asg (λ l, negb (rho l))) d) as ->; [|by destruct (ev _ _)].
    apply ev_ext; [eapply good_ok; [apply Hw|done]|]. intros l. unfold flip, asg. by destruct (rho l).
  - destruct (bdd_dual_ok m' r (dualt d)) as (m'' & r' & -> & Hst' & Hr'); [apply Hst|done|].
    exists m''. do 2 f_equal. rewrite dualt_dualt in Hr'.
    eapply repr_inj; [apply (gd_wf _ (bw_good _ (proj1 Hst')))|exact Hr'|].
    eapply repr_mono; [apply Hst'|]. eapply repr_mono; [apply Hst|done].
Qed.
