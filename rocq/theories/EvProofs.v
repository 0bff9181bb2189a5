(** Correctness of the EV+MDD operations. *)
From Verif Require Import Prelude Arena Mdd NaryProofs EvMdd SpecEv.
Local Open Scope Z_scope.
Local Open Scope nat_scope.

Definition evrank (m : evm) (id : nat) : nat := match ev_level m id with Some (Some l) => S l | _ => 0 end.

Record evwf (m : evm) : Prop := {
  wf_om : e_nodes m !! 0 = Some EOmega;
  wf_inf : e_nodes m !! 1 = Some EInfinity;
  wf_om1 id : e_nodes m !! id = Some EOmega → id = 0;
  wf_inf1 id : e_nodes m !! id = Some EInfinity → id = 1;
  wf_nt id h es : e_nodes m !! id = Some (ENt h es) →
    ∃ hd, e_headers m !! h = Some hd ∧ length es = h_edges hd ∧
      Forall (λ e, e.2 < id ∧ evrank m e.2 ≤ h_level hd ∧ (0 <= e.1)%Z) es ∧
      (∃ e, e ∈ es ∧ e.1 = 0%Z) ∧ (∃ e e', e ∈ es ∧ e' ∈ es ∧ e ≠ e');
  wf_ut h es id : e_utable m !! (h, es) = Some id ↔ e_nodes m !! id = Some (ENt h es);
  wf_cache o f g d v r : e_cache m !! (evop_code o, f, g, d) = Some (v, r) →
    f < length (e_nodes m) ∧ g < length (e_nodes m) ∧ r < length (e_nodes m) ∧
    evrank m r ≤ evrank m f `max` evrank m g ∧
    ∀ rho a b, edge_value m rho (Z.max 0 d) f a → edge_value m rho (Z.max 0 (- d)) g b →
      edge_value m rho v r (ev_op o a b);
  wf_hc hd hd' : hd ∈ e_headers m → hd' ∈ e_headers m → h_level hd = h_level hd' → h_edges hd = h_edges hd';
  wf_pos hd : hd ∈ e_headers m → 0 < h_edges hd }.

(** ** Evaluation *)
Lemma ev_det m rho v f r r' : edge_value m rho v f r → edge_value m rho v f r' → r = r'.
Proof. induction 1; inversion 1; simplify_eq; eauto. Qed.

Lemma ev_shift m rho k v f r : edge_value m rho v f r → edge_value m rho (v + k) f ((λ x, (x + k)%Z) <$> r).
Proof.
  induction 1 as [| |v f h es hd w c r H1 H2 H3 H4 IH]; cbn.
  - by apply ev_inf.
  - by apply ev_om.
  - eapply ev_nt; [done..|]. by replace (v + k + w)%Z with (v + w + k)%Z by lia.
Qed.

Lemma ev_child m rho v f h es hd w c r : e_nodes m !! f = Some (ENt h es) → e_headers m !! h = Some hd →
  es !! rho (h_level hd) = Some (w, c) → edge_value m rho v f r → edge_value m rho (v + w) c r.
Proof. intros H1 H2 H3. inversion 1; simplify_eq. done. Qed.

Lemma ev_total m rho : evwf m → ev_in_range m rho → ∀ f v, f < length (e_nodes m) → ∃ r, edge_value m rho v f r.
Proof.
  intros Hwf Hr f. induction f as [f IH] using lt_wf_ind. intros v Hf.
  apply lookup_lt_is_Some in Hf as [n Hn]. destruct n as [h es| |].
  - destruct (wf_nt _ Hwf _ _ _ Hn) as (hd & Hh & Hl & Hc & _).
    assert (rho (h_level hd) < length es) as Hi.
    { rewrite Hl. apply Hr. by eapply elem_of_list_lookup_2. }
    apply lookup_lt_is_Some in Hi as [[w c] Hi]. rewrite Forall_lookup in Hc. destruct (Hc _ _ Hi) as [Hlt _].
    destruct (IH c Hlt (v + w)%Z) as [r Hrr].
    { cbn in Hlt. apply lookup_lt_Some in Hn. lia. }
    exists r. by eapply ev_nt.
  - exists (Some v). by apply ev_om.
  - exists None. by apply ev_inf.
Qed.

(** ** Extension *)
Definition eext (m m' : evm) : Prop := e_headers m `prefix_of` e_headers m' ∧ e_nodes m `prefix_of` e_nodes m'.
Lemma eext_refl m : eext m m.
Proof. by split. Qed.
Lemma eext_trans m1 m2 m3 : eext m1 m2 → eext m2 m3 → eext m1 m3.
Proof. intros [??] [??]. split; by etrans. Qed.
Lemma eext_len m m' : eext m m' → length (e_nodes m) ≤ length (e_nodes m').
Proof. intros [_ ?]. by apply prefix_length. Qed.
Lemma eext_node m m' id n : eext m m' → e_nodes m !! id = Some n → e_nodes m' !! id = Some n.
Proof. intros [_ ?] ?. by eapply prefix_lookup. Qed.
Lemma eext_hdr m m' id n : eext m m' → e_headers m !! id = Some n → e_headers m' !! id = Some n.
Proof. intros [? _] ?. by eapply prefix_lookup. Qed.
Lemma eext_node_inv m m' id n : eext m m' → id < length (e_nodes m) → e_nodes m' !! id = Some n → e_nodes m !! id = Some n.
Proof.
  intros He Hl Hn. apply lookup_lt_is_Some in Hl as [n' Hn']. pose proof (eext_node _ _ _ _ He Hn'). congruence.
Qed.
Lemma ev_mono m m' rho v f r : eext m m' → edge_value m rho v f r → edge_value m' rho v f r.
Proof.
  intros He. induction 1.
  - apply ev_inf. by eapply eext_node.
  - apply ev_om. by eapply eext_node.
  - eapply ev_nt; [by eapply eext_node|by eapply eext_hdr|done..].
Qed.
Lemma ev_mono_inv m m' rho v f r : evwf m → eext m m' → f < length (e_nodes m) →
  edge_value m' rho v f r → edge_value m rho v f r.
Proof.
  intros Hwf He Hl. induction 1 as [v f H|v f H|v f h es hd w c r H1 H2 H3 H4 IH].
  - apply ev_inf. by eapply eext_node_inv.
  - apply ev_om. by eapply eext_node_inv.
  - apply (eext_node_inv _ _ _ _ He Hl) in H1. destruct (wf_nt _ Hwf _ _ _ H1) as (hd' & Hh & _ & Hc & _).
    pose proof (eext_hdr _ _ _ _ He Hh). simplify_eq. rewrite Forall_lookup in Hc. destruct (Hc _ _ H3) as [Hlt _].
    eapply ev_nt; [done..|]. apply IH. cbn in Hlt. lia.
Qed.
Lemma evrank_mono m m' id : evwf m → eext m m' → id < length (e_nodes m) → evrank m' id = evrank m id.
Proof.
  intros Hwf He Hl. apply lookup_lt_is_Some in Hl as [n Hn]. unfold evrank, ev_level.
  rewrite (eext_node _ _ _ _ He Hn), Hn. cbn. destruct n as [h es| |]; [|done..].
  destruct (wf_nt _ Hwf _ _ _ Hn) as (hd & Hh & _). by rewrite (eext_hdr _ _ _ _ He Hh), Hh.
Qed.
Lemma evrank_nt m id h es hd : e_nodes m !! id = Some (ENt h es) → e_headers m !! h = Some hd → evrank m id = S (h_level hd).
Proof. intros H1 H2. unfold evrank, ev_level. rewrite H1. cbn. by rewrite H2. Qed.

(** cache entries survive an extension *)
Definition centry (m : evm) o f g d v r : Prop :=
  f < length (e_nodes m) ∧ g < length (e_nodes m) ∧ r < length (e_nodes m) ∧
    evrank m r ≤ evrank m f `max` evrank m g ∧
    ∀ rho a b, edge_value m rho (Z.max 0 d) f a → edge_value m rho (Z.max 0 (- d)) g b →
      edge_value m rho v r (ev_op o a b).
Lemma centry_mono m m' o f g d v r : evwf m → eext m m' → centry m o f g d v r → centry m' o f g d v r.
Proof.
  intros Hwf He (Hf & Hg & Hr & Hk & Hv). pose proof (eext_len _ _ He).
  refine (conj _ (conj _ (conj _ (conj _ _)))); [lia..| |].
  - by rewrite !(evrank_mono m m').
  - intros rho a b Ha Hb. apply (ev_mono m); [done|]. apply Hv; by eapply ev_mono_inv.
Qed.

(** ** Creation *)
Lemma ev_new_wf : evwf ev_new.
Proof.
  constructor; try done.
  - intros [|[|id]]; cbn; try done.
  - intros [|[|id]]; cbn; try done.
  - intros [|[|id]]; cbn; try done.
  - intros h es id. cbn. rewrite lookup_empty. split; [done|]. destruct id as [|[|id]]; cbn; done.
  - intros ? ? Hin. by apply elem_of_nil in Hin.
  - intros ? Hin. by apply elem_of_nil in Hin.
Qed.

Lemma ev_header_wf m level label edges : evwf m → ev_header_fits m level edges →
  evwf (ev_create_header m level label edges).1 ∧ eext m (ev_create_header m level label edges).1.
Proof.
  intros Hwf [Hp Hfit]. set (m' := (ev_create_header m level label edges).1).
  assert (He : eext m m').
  { split; cbn; [by eexists|done]. }
  split; [|done]. constructor; cbn.
  - apply Hwf.
  - apply Hwf.
  - apply Hwf.
  - apply Hwf.
  - intros id h es Hn. destruct (wf_nt _ Hwf _ _ _ Hn) as (hd & Hh & Hl & Hc & Hm & Hd). exists hd.
    split; [by apply (eext_hdr m m')|]. sp; try done. apply lookup_lt_Some in Hn.
    eapply Fimpl; [done|]. intros e (H1 & H2 & H3). sp; try done. rewrite (evrank_mono m m'); [done..|lia].
  - apply Hwf.
  - intros o f g d v r Hc. apply (centry_mono m m' o f g d v r); [done..|]. by apply (wf_cache _ Hwf).
  - rewrite Forall_forall in Hfit. intros hd hd' [Hi|Hi%elem_of_list_singleton]%elem_of_app [Hi'|Hi'%elem_of_list_singleton]%elem_of_app El; subst; cbn in *.
    + by apply (wf_hc _ Hwf).
    + by apply Hfit.
    + by rewrite (Hfit hd').
    + done.
  - intros hd [Hi|Hi%elem_of_list_singleton]%elem_of_app; [by apply (wf_pos _ Hwf)|]. by subst.
Qed.

Lemma fmin_le (x : Z) l y : y ∈ l → (foldr Z.min x l <= y)%Z.
Proof. induction 1; cbn; lia. Qed.
Lemma fmin_in (x : Z) l : foldr Z.min x l = x ∨ foldr Z.min x l ∈ l.
Proof.
  induction l as [|y l IH]; cbn; [by left|]. destruct (Z.min_spec y (foldr Z.min x l)) as [[_ ->]|[_ ->]].
  - right. left.
  - destruct IH as [IH|IH]; [by left|right; by right].
Qed.

Lemma below_rank m id l : ev_valid m id ∧ ev_below m id l ↔ ev_valid m id ∧ evrank m id ≤ l.
Proof.
  unfold ev_valid, ev_below, evrank, ev_level. split; intros [Hv Hb]; (split; [done|]).
  - destruct (e_nodes m !! id) as [n|]; [|done]. cbn in *. destruct n; cbn; try lia. destruct (e_headers m !! h); cbn in *; lia.
  - apply lookup_lt_is_Some in Hv as [n Hn]. rewrite Hn in *. cbn in *. destruct n; cbn; try done.
    destruct (e_headers m !! h); cbn in *; [lia|done].
Qed.

Lemma create_node_spec m h hd es : evwf m → e_headers m !! h = Some hd → length es = h_edges hd →
  Forall (λ e, e.2 < length (e_nodes m) ∧ evrank m e.2 ≤ h_level hd) es →
  ∃ m' v r, ev_create_node m h es = Some (m', (v, r)) ∧ evwf m' ∧ eext m m' ∧ e_headers m' = e_headers m ∧
    e_cache m' = e_cache m ∧ r < length (e_nodes m') ∧ evrank m' r ≤ S (h_level hd) ∧
    ∀ rho w c x, es !! rho (h_level hd) = Some (w, c) → edge_value m' rho w c x → edge_value m' rho v r x.
Proof.
  intros Hwf Hh Hl Hes.
  assert (Hp : 0 < length es).
  { rewrite Hl. apply (wf_pos _ Hwf). by eapply elem_of_list_lookup_2. }
  unfold ev_create_node. destruct es as [|[v0 c0] es0] eqn:Ees; [cbn in Hp; lia|]. rewrite <- Ees in *. cbn [fst].
  destruct (forallb _ es) eqn:Hall.
  { exists m, v0, c0. split; [done|]. rewrite forallb_forall in Hall.
    rewrite Forall_forall in Hes. destruct (Hes (v0, c0)) as [Hc Hr]; [rewrite Ees; left|]. cbn in Hc, Hr.
    sp; try done; [lia|]. intros rho w c x Hi Hv. apply elem_of_list_lookup_2, elem_of_list_In, Hall, bool_decide_eq_true in Hi.
    by simplify_eq. }
  set (mu := foldr Z.min v0 (map fst es)).
  set (es' := map (λ x, ((x.1 - mu)%Z, x.2)) es).
  assert (Hlk : ∀ rho w c, es !! rho (h_level hd) = Some (w, c) → es' !! rho (h_level hd) = Some ((w - mu)%Z, c)).
  { intros rho w c Hi. unfold es'. change (map ?f es) with (f <$> es). by rewrite list_lookup_fmap, Hi. }
  assert (Hok : ∀ m', e_headers m !! h = e_headers m' !! h → ∀ r, e_nodes m' !! r = Some (ENt h es') →
    ∀ rho w c x, es !! rho (h_level hd) = Some (w, c) → edge_value m' rho w c x → edge_value m' rho mu r x).
  { intros m' Eh r Hr rho w c x Hi Hv. eapply ev_nt; [done|by rewrite <- Eh|by apply Hlk|].
    by replace (mu + (w - mu))%Z with w by lia. }
  destruct (e_utable m !! (h, es')) as [x|] eqn:Hu.
  { apply (wf_ut _ Hwf) in Hu. exists m, mu, x. split; [done|]. sp; try done.
    - by eapply lookup_lt_Some.
    - by rewrite (evrank_nt _ _ _ _ _ Hu Hh).
    - by apply Hok. }
  set (id := length (e_nodes m)).
  set (m' := Evm _ _ _ _). exists m', mu, id. split; [done|].
  assert (He : eext m m') by (split; cbn; [done|by eexists]).
  assert (Hnew : e_nodes m' !! id = Some (ENt h es')).
  { cbn. by rewrite lookup_app_r, Nat.sub_diag by done. }
  assert (Hmin : ∀ e, e ∈ es → (mu <= e.1)%Z).
  { intros e Hi. apply fmin_le. change (map fst es) with (fst <$> es). by apply elem_of_list_fmap_1. }
  assert (Hnn : evwf m').
  { constructor.
    - apply (eext_node _ _ _ _ He), Hwf.
    - apply (eext_node _ _ _ _ He), Hwf.
    - intros i. cbn. intros [Hn|[Hle Hn]]%lookup_app_Some; [by apply (wf_om1 _ Hwf)|].
      apply list_lookup_singleton_Some in Hn as [_ ?]. done.
    - intros i. cbn. intros [Hn|[Hle Hn]]%lookup_app_Some; [by apply (wf_inf1 _ Hwf)|].
      apply list_lookup_singleton_Some in Hn as [_ ?]. done.
    - intros i h' k. cbn. intros [Hn|[Hle Hn]]%lookup_app_Some.
      + destruct (wf_nt _ Hwf _ _ _ Hn) as (hd' & Hh' & Hl' & Hc & Hm & Hd). exists hd'. sp; try done.
        apply lookup_lt_Some in Hn. eapply Fimpl; [done|]. intros e (H1 & H2 & H3). sp; try done.
        rewrite (evrank_mono m m'); [done..|lia].
      + apply list_lookup_singleton_Some in Hn as [E1 E2]. injection E2 as <- <-.
        assert (i = id) as -> by (unfold id; lia). exists hd. sp; try done.
        * unfold es'. by rewrite map_length.
        * unfold es'. apply Forall_map. rewrite Forall_forall in Hes |- *. intros e Hi. destruct (Hes _ Hi) as [H1 H2].
          cbn. sp; [done| |].
          -- by rewrite (evrank_mono m m').
          -- specialize (Hmin _ Hi). lia.
        * destruct (fmin_in v0 (map fst es)) as [E|E].
          -- exists (0%Z, c0). split; [|done]. unfold es'. apply elem_of_list_In, in_map_iff. exists (v0, c0).
             split; [|apply elem_of_list_In; rewrite Ees; left]. cbn. f_equal. unfold mu. rewrite E. lia.
          -- apply elem_of_list_In, in_map_iff in E as (e & F1 & F2). exists (0%Z, e.2). split; [|done].
             unfold es'. apply elem_of_list_In, in_map_iff. exists e. split; [|done]. f_equal. unfold mu. rewrite <- F1. lia.
        * assert (¬ Forall (λ x, (v0, c0) = x) es) as Hnf.
          { intros Hf. assert (forallb (λ x, bool_decide ((v0, c0) = x)) es = true) as E; [|congruence].
            apply forallb_forall. intros x Hx%elem_of_list_In. apply bool_decide_eq_true.
            rewrite Forall_forall in Hf. by apply Hf. }
          apply not_Forall_Exists in Hnf; [|apply _]. apply Exists_exists in Hnf as ([w c] & Hi & Hne).
          exists ((v0 - mu)%Z, c0), ((w - mu)%Z, c). unfold es'. sp.
          -- apply elem_of_list_In, in_map_iff. exists (v0, c0). split; [done|]. apply elem_of_list_In. rewrite Ees. left.
          -- apply elem_of_list_In, in_map_iff. exists (w, c). split; [done|]. by apply elem_of_list_In.
          -- intros [= ? ->]. apply Hne. f_equal. lia.
    - intros h' k i. cbn. rewrite lookup_insert_Some. split.
      + intros [[[= <- <-] <-]|[Hne Hu']]; [done|]. apply (wf_ut _ Hwf) in Hu'. by apply (eext_node m m').
      + intros [Hn|[Hle Hn]]%lookup_app_Some.
        * apply (wf_ut _ Hwf) in Hn. right. split; [|done]. intros [= <- <-]. congruence.
        * apply list_lookup_singleton_Some in Hn as [E1 [= <- <-]]. left. split; [done|]. unfold id. lia.
    - intros o f g d v r Hc. apply (centry_mono m m' o f g d v r); [done..|]. by apply (wf_cache _ Hwf).
    - apply Hwf.
    - apply Hwf. }
  sp; try done.
  - by eapply lookup_lt_Some.
  - rewrite (evrank_nt _ _ _ _ hd Hnew); done.
  - by apply Hok.
Qed.

(** ** Operations *)
Lemma op_shift o k a b : ev_op o ((λ x, (x + k)%Z) <$> a) ((λ x, (x + k)%Z) <$> b) =
  (λ x, (x + match o with EMin | EMax => k | EAdd => k + k | ESub => 0 end)%Z) <$> ev_op o a b.
Proof. destruct o, a, b; cbn; try done; f_equal; lia. Qed.

Lemma back_value m rho o mu v r x : edge_value m rho v r x →
  edge_value m rho (ev_back o mu (v, r)).1 (ev_back o mu (v, r)).2
    ((λ x, (x + match o with EMin | EMax => mu | EAdd => mu + mu | ESub => 0 end)%Z) <$> x).
Proof.
  intros Hv. destruct o; cbn [ev_back fst snd].
  - rewrite (Z.add_comm (mu + mu)). by apply ev_shift.
  - replace v with (v + 0)%Z by lia. by apply ev_shift.
  - rewrite (Z.add_comm mu). by apply ev_shift.
  - rewrite (Z.add_comm mu). by apply ev_shift.
Qed.
Lemma back_node o mu e : (ev_back o mu e).2 = e.2.
Proof. by destruct o. Qed.

(** from the result relative to mu to the result *)
Lemma rel_value m rho o fv f gv g v r :
  (∀ a b, edge_value m rho (fv - Z.min fv gv) f a → edge_value m rho (gv - Z.min fv gv) g b →
     edge_value m rho v r (ev_op o a b)) →
  ∀ a b, edge_value m rho fv f a → edge_value m rho gv g b →
    edge_value m rho (ev_back o (Z.min fv gv) (v, r)).1 (ev_back o (Z.min fv gv) (v, r)).2 (ev_op o a b).
Proof.
  set (mu := Z.min fv gv). intros H a b Ha Hb.
  apply (ev_shift _ _ (- mu)) in Ha. apply (ev_shift _ _ (- mu)) in Hb.
  specialize (H _ _ Ha Hb). apply (back_value _ _ o mu) in H. revert H. rewrite op_shift.
  destruct (ev_op o a b) as [z|]; cbn [fmap option_fmap option_map]; [|done].
  match goal with |- edge_value _ _ _ _ (Some ?x) → _ => replace x with z; [done|] end.
  destruct o; lia.
Qed.

Lemma leaf_spec m o fv f gv g fn gn v r : evwf m → e_nodes m !! f = Some fn → e_nodes m !! g = Some gn →
  ev_leaf o fv f gv g fn gn = Some (v, r) →
  r < length (e_nodes m) ∧ evrank m r ≤ evrank m f `max` evrank m g ∧
  ∀ rho a b, edge_value m rho fv f a → edge_value m rho gv g b → edge_value m rho v r (ev_op o a b).
Proof.
  intros Hwf Hf Hg Hl.
  assert (H0 : 0 < length (e_nodes m)) by (eapply lookup_lt_Some, Hwf).
  assert (H1 : 1 < length (e_nodes m)) by (eapply lookup_lt_Some, Hwf).
  assert (R0 : evrank m ev_omega = 0) by (unfold evrank, ev_level, ev_omega; by rewrite (wf_om _ Hwf)).
  assert (R1 : evrank m ev_infinity = 0) by (unfold evrank, ev_level, ev_infinity; by rewrite (wf_inf _ Hwf)).
  assert (Hfl := lookup_lt_Some _ _ _ Hf). assert (Hgl := lookup_lt_Some _ _ _ Hg).
  assert (Ho : ∀ rho z, edge_value m rho z ev_omega (Some z)) by (intros; apply ev_om, Hwf).
  assert (Hi : ∀ rho z, edge_value m rho z ev_infinity None) by (intros; apply ev_inf, Hwf).
  unfold ev_leaf in Hl. destruct o, fn, gn; simplify_eq; (split; [done || (unfold ev_omega, ev_infinity; lia)|]);
    (split; [lia|]); intros rho a b Ha Hb; try (inversion Ha; simplify_eq); try (inversion Hb; simplify_eq);
    cbn; try done; try (destruct a; cbn; done); try (destruct b; cbn; done).
Qed.

Lemma expand_ev_spec m o fv f gv g fn gn : evwf m → e_nodes m !! f = Some fn → e_nodes m !! g = Some gn →
  ev_leaf o fv f gv g fn gn = None →
  ∃ h ps hd, ev_expand m fv f gv g fn gn = Some (h, ps) ∧ e_headers m !! h = Some hd ∧
    S (h_level hd) = evrank m f `max` evrank m g ∧ length ps = h_edges hd ∧
    ∀ i p, ps !! i = Some p → p.1.2 + p.2.2 < f + g ∧ p.1.2 < length (e_nodes m) ∧ p.2.2 < length (e_nodes m) ∧
      evrank m p.1.2 `max` evrank m p.2.2 ≤ h_level hd ∧
      ∀ rho a b, rho (h_level hd) = i → 
        (edge_value m rho (fv - Z.min fv gv) f a → edge_value m rho p.1.1 p.1.2 a) ∧
        (edge_value m rho (gv - Z.min fv gv) g b → edge_value m rho p.2.1 p.2.2 b).
Proof.
  intros Hwf Hf Hg Hl.
  assert (Hfl := lookup_lt_Some _ _ _ Hf). assert (Hgl := lookup_lt_Some _ _ _ Hg).
  set (mu := Z.min fv gv).
  assert (HL : ∀ h es, fn = ENt h es → (∀ h' es', gn = ENt h' es' → ∃ hd hd', e_headers m !! h = Some hd ∧ e_headers m !! h' = Some hd' ∧ h_level hd' < h_level hd) →
    gn ≠ EInfinity → ∃ hd, e_headers m !! h = Some hd ∧ S (h_level hd) = evrank m f `max` evrank m g ∧ length es = h_edges hd ∧
    ∀ i p, map (λ e : evedge, ((fv - mu + e.1, e.2), (gv - mu, g))%Z) es !! i = Some p → p.1.2 + p.2.2 < f + g ∧ p.1.2 < length (e_nodes m) ∧ p.2.2 < length (e_nodes m) ∧
      evrank m p.1.2 `max` evrank m p.2.2 ≤ h_level hd ∧
      ∀ rho a b, rho (h_level hd) = i → 
        (edge_value m rho (fv - mu) f a → edge_value m rho p.1.1 p.1.2 a) ∧
        (edge_value m rho (gv - mu) g b → edge_value m rho p.2.1 p.2.2 b)).
  { intros h es -> Hgt Hni. destruct (wf_nt _ Hwf _ _ _ Hf) as (hd & Hh & Hle & Hc & _). exists hd.
    pose proof (evrank_nt _ _ _ _ _ Hf Hh) as Ef. assert (evrank m g ≤ h_level hd) as Hgr.
    { destruct gn as [h' es'| |]; [|by unfold evrank, ev_level; rewrite Hg; cbn; lia|done].
      destruct (Hgt _ _ eq_refl) as (hd1 & hd' & Hh1 & Hh' & Hlt). rewrite (evrank_nt _ _ _ _ _ Hg Hh'). simplify_eq. lia. }
    split; [done|]. split; [lia|]. split; [done|]. intros i p Hp.
    apply list_lookup_fmap_Some in Hp as ([w c] & Hi & ->). cbn [fst snd].
    rewrite Forall_lookup in Hc. destruct (Hc _ _ Hi) as (H1 & H2 & H3). cbn [fst snd] in *.
    sp; [lia..|]. intros rho a b Hrho. split; [|done]. intros Ha. eapply ev_child; [done..| |done]. by rewrite Hrho. }
  assert (HR : ∀ h es, gn = ENt h es → (∀ h' es', fn = ENt h' es' → ∃ hd hd', e_headers m !! h = Some hd ∧ e_headers m !! h' = Some hd' ∧ h_level hd' < h_level hd) →
    fn ≠ EInfinity → ∃ hd, e_headers m !! h = Some hd ∧ S (h_level hd) = evrank m f `max` evrank m g ∧ length es = h_edges hd ∧
    ∀ i p, map (λ e : evedge, ((fv - mu, f), (gv - mu + e.1, e.2))%Z) es !! i = Some p → p.1.2 + p.2.2 < f + g ∧ p.1.2 < length (e_nodes m) ∧ p.2.2 < length (e_nodes m) ∧
      evrank m p.1.2 `max` evrank m p.2.2 ≤ h_level hd ∧
      ∀ rho a b, rho (h_level hd) = i → 
        (edge_value m rho (fv - mu) f a → edge_value m rho p.1.1 p.1.2 a) ∧
        (edge_value m rho (gv - mu) g b → edge_value m rho p.2.1 p.2.2 b)).
  { intros h es -> Hgt Hni. destruct (wf_nt _ Hwf _ _ _ Hg) as (hd & Hh & Hle & Hc & _). exists hd.
    pose proof (evrank_nt _ _ _ _ _ Hg Hh) as Ef. assert (evrank m f ≤ h_level hd) as Hfr.
    { destruct fn as [h' es'| |]; [|by unfold evrank, ev_level; rewrite Hf; cbn; lia|done].
      destruct (Hgt _ _ eq_refl) as (hd1 & hd' & Hh1 & Hh' & Hlt). rewrite (evrank_nt _ _ _ _ _ Hf Hh'). simplify_eq. lia. }
    split; [done|]. split; [lia|]. split; [done|]. intros i p Hp.
    apply list_lookup_fmap_Some in Hp as ([w c] & Hi & ->). cbn [fst snd].
    rewrite Forall_lookup in Hc. destruct (Hc _ _ Hi) as (H1 & H2 & H3). cbn [fst snd] in *.
    sp; [lia..|]. intros rho a b Hrho. split; [done|]. intros Ha. eapply ev_child; [done..| |done]. by rewrite Hrho. }
  assert (HLE : ∀ h es, length (map (λ e : evedge, ((fv - mu + e.1, e.2), (gv - mu, g))%Z) es) = length es ∧
    length (map (λ e : evedge, ((fv - mu, f), (gv - mu + e.1, e.2))%Z) es) = length es ∧ h = h :> nat) by (intros; by rewrite !map_length).
  unfold ev_expand. fold mu. destruct fn as [hf fe| |], gn as [hg ge| |]; try (by destruct o).
  - unfold ev_level. rewrite Hf, Hg. cbn [mbind option_bind].
    destruct (wf_nt _ Hwf _ _ _ Hf) as (hd & Hh & Hle & Hc & _).
    destruct (wf_nt _ Hwf _ _ _ Hg) as (hd' & Hh' & Hle' & Hc' & _). rewrite Hh, Hh'. cbn [fmap option_fmap option_map olt].
    destruct (Nat.ltb_spec (h_level hd') (h_level hd)) as [Hlt|Hge].
    { destruct (HL hf fe eq_refl) as (hd1 & E1 & E2 & E3 & E4); [|done|].
      - intros h' es' [= <- <-]. by exists hd, hd'.
      - eexists hf, _, hd1. split; [done|]. split; [done|]. split; [done|]. split; [|done]. by rewrite map_length. }
    destruct (Nat.ltb_spec (h_level hd) (h_level hd')) as [Hlt|Hge'].
    { destruct (HR hg ge eq_refl) as (hd1 & E1 & E2 & E3 & E4); [|done|].
      - intros h' es' [= <- <-]. by exists hd', hd.
      - eexists hg, _, hd1. split; [done|]. split; [done|]. split; [done|]. split; [|done]. by rewrite map_length. }
    assert (El : h_level hd = h_level hd') by lia.
    assert (Ee : h_edges hd = h_edges hd').
    { apply (wf_hc _ Hwf); [by eapply elem_of_list_lookup_2..|done]. }
    pose proof (evrank_nt _ _ _ _ _ Hf Hh) as Ef. pose proof (evrank_nt _ _ _ _ _ Hg Hh') as Eg.
    eexists hf, _, hd. split; [done|]. split; [done|]. split; [lia|].
    split. { rewrite map_length, zip_with_length. lia. }
    intros i p Hp. apply list_lookup_fmap_Some in Hp as ([[w c] [w' c']] & Hi & ->). apply lookup_zip_with_Some in Hi as (? & ? & [= <- <-] & H1 & H2).
    cbn [fst snd]. rewrite Forall_lookup in Hc, Hc'. destruct (Hc _ _ H1) as (A1 & A2 & A3). destruct (Hc' _ _ H2) as (B1 & B2 & B3). cbn [fst snd] in *.
    sp; [lia..|]. intros rho a b Hrho. split; intros Hv.
    + eapply ev_child; [exact Hf|exact Hh| |done]. by rewrite Hrho.
    + eapply ev_child; [exact Hg|exact Hh'| |done]. by rewrite <- El, Hrho.
  - destruct (HL hf fe eq_refl) as (hd1 & E1 & E2 & E3 & E4); [done|done|].
    eexists hf, _, hd1. split; [done|]. split; [done|]. split; [done|]. split; [|done]. by rewrite map_length.
  - destruct (HR hg ge eq_refl) as (hd1 & E1 & E2 & E3 & E4); [done|done|].
    eexists hg, _, hd1. split; [done|]. split; [done|]. split; [done|]. split; [|done]. by rewrite map_length.
Qed.

Definition binres (m : evm) o fv f gv g (e : evedge) : Prop :=
  e.2 < length (e_nodes m) ∧ evrank m e.2 ≤ evrank m f `max` evrank m g ∧
  ∀ rho a b, edge_value m rho fv f a → edge_value m rho gv g b → edge_value m rho e.1 e.2 (ev_op o a b).

Lemma binres_mono m m' o fv f gv g e : evwf m → eext m m' → f < length (e_nodes m) → g < length (e_nodes m) →
  binres m o fv f gv g e → binres m' o fv f gv g e.
Proof.
  intros Hwf He Hf Hg (H1 & H2 & H3). pose proof (eext_len _ _ He). unfold binres. rewrite !(evrank_mono m m') by done.
  refine (conj _ (conj _ _)); [lia|done|]. intros rho a b Ha Hb. apply (ev_mono m); [done|]. apply H3; by eapply ev_mono_inv.
Qed.

Lemma evop_code_inj o o' : evop_code o = evop_code o' → o = o'.
Proof. by destruct o, o'. Qed.

Theorem ev_bin_f_spec o n : ∀ m fv f gv g, evwf m → f < length (e_nodes m) → g < length (e_nodes m) → f + g < n →
  ∃ m' e, ev_bin_f o n m fv f gv g = Some (m', e) ∧ evwf m' ∧ eext m m' ∧ e_headers m' = e_headers m ∧ binres m' o fv f gv g e.
Proof.
  induction n as [|n IH]; intros m fv f gv g Hwf Hf Hg Hn; [lia|]. cbn [ev_bin_f].
  assert (Emx : Z.max 0 (fv - gv) = (fv - Z.min fv gv)%Z ∧ Z.max 0 (- (fv - gv)) = (gv - Z.min fv gv)%Z) by lia.
  destruct (e_cache m !! _) as [[v r]|] eqn:Hc.
  { eexists m, _. split; [done|]. sp; try done.
    apply (wf_cache _ Hwf) in Hc as (_ & _ & H3 & H4 & H5). unfold binres. rewrite back_node.
    refine (conj _ (conj _ _)); [done..|]. intros rho a b Ha Hb. rewrite <- (back_node o (Z.min fv gv) (v, r)).
    apply (rel_value m rho o fv f gv g v r); [|done..]. destruct Emx as [<- <-]. apply H5. }
  apply lookup_lt_is_Some in Hf as [fn Hfn]. apply lookup_lt_is_Some in Hg as [gn Hgn].
  rewrite Hfn, Hgn. cbn [mbind option_bind].
  destruct (ev_leaf o fv f gv g fn gn) as [[v r]|] eqn:Hl.
  { eexists m, _. split; [done|]. sp; try done. by apply (leaf_spec m o fv f gv g fn gn v r). }
  destruct (expand_ev_spec _ _ _ _ _ _ _ _ Hwf Hfn Hgn Hl) as (h & ps & hd & -> & Hh & Hrk & Hlen & Hps). cbn [mbind option_bind].
  apply lookup_lt_Some in Hfn, Hgn.
  set (st := λ x y, evwf x ∧ evwf y ∧ eext x y ∧ e_headers y = e_headers x).
  set (Q := λ x (p : evedge * evedge) e, binres x o p.1.1 p.1.2 p.2.1 p.2.2 e ∧ p.1.2 < length (e_nodes x) ∧ p.2.2 < length (e_nodes x)).
  pose proof (mapst_spec st Q (λ _, False) (λ m p, ev_bin_f o n m p.1.1 p.1.2 p.2.1 p.2.2) ps m) as HM.
  match type of HM with ?A → _ => let H := fresh in assert (H : A); [|specialize (HM H); clear H] end.
  { intros x y z (?&?&?&?) (?&?&?&?). unfold st. sp; try done; [by eapply eext_trans|congruence]. }
  match type of HM with ?A → _ => let H := fresh in assert (H : A); [|specialize (HM H); clear H] end.
  { intros x y (?&?&?&?). unfold st. sp; try done. }
  match type of HM with ?A → _ => let H := fresh in assert (H : A); [|specialize (HM H); clear H] end.
  { unfold st. sp; try done. }
  match type of HM with ?A → _ => let H := fresh in assert (H : A); [|specialize (HM H); clear H] end.
  { intros x y p e _ (?&?&He&?) (Hb & ? & ?). pose proof (eext_len _ _ He). unfold Q. sp; [|lia..]. by apply (binres_mono x y). }
  match type of HM with ?A → _ => let H := fresh in assert (H : A); [|specialize (HM H); clear H] end.
  { intros m' p Hin (?&?&He&?). apply elem_of_list_lookup in Hin as [i Hp]. destruct (Hps _ _ Hp) as (A1 & A2 & A3 & _).
    pose proof (eext_len _ _ He). destruct (IH m' p.1.1 p.1.2 p.2.1 p.2.2) as (m2 & e & -> & B1 & B2 & B3 & B4); [done|lia..|].
    pose proof (eext_len _ _ B2). unfold st, Q. sp; try done; lia. }
  destruct (mapst _ m ps) as [[m1 es]|] eqn:EM; [|by destruct HM as (? & _ & ?)].
  destruct HM as [(_ & Hwf1 & He1 & Eh1) HF]. cbn [mbind option_bind].
    destruct (create_node_spec m1 h hd es) as (m2 & v & r & -> & Hwf2 & He2 & Eh2 & Ec2 & Hr2 & Hk2 & Hv2); [done|by rewrite Eh1| | |].
    { by rewrite <- (Forall2_length _ _ _ HF). }
    { apply Forall_lookup. intros i e Hi. destruct (Forall2_lookup_r _ _ _ _ _ HF Hi) as (p & Hp & (B1 & B2 & _) & _ & _).
      destruct (Hps _ _ Hp) as (_ & A2 & A3 & A4 & _). split; [done|].
      etrans; [exact B2|]. by rewrite !(evrank_mono m m1). }
    cbn [mbind option_bind]. set (m3 := Evm _ _ _ _).
    assert (He3 : eext m2 m3) by done. assert (He3' : eext m3 m2) by done. assert (He12 := eext_trans _ _ _ He1 He2).
    assert (Hle := eext_len _ _ He12).
    assert (Hrel : ∀ rho a b, edge_value m2 rho (fv - Z.min fv gv) f a → edge_value m2 rho (gv - Z.min fv gv) g b →
      edge_value m2 rho v r (ev_op o a b)).
    { intros rho a b Ha Hb. apply ev_mono_inv with (m := m) in Ha; [|done..]. apply ev_mono_inv with (m := m) in Hb; [|done..].
      assert (∃ e, es !! rho (h_level hd) = Some e) as [[w c] Hi].
      { apply lookup_lt_is_Some. rewrite <- (Forall2_length _ _ _ HF), Hlen.
        assert (∃ p, ps !! rho (h_level hd) = Some p) as [p Hp]; [|by apply lookup_lt_Some in Hp; rewrite <- Hlen].
        apply lookup_lt_is_Some. rewrite Hlen.
        (* the index is in range because the operand at this level has a value *)
        assert (Hrg : ∀ id z x, id < length (e_nodes m) → evrank m id = S (h_level hd) → edge_value m rho z id x → rho (h_level hd) < h_edges hd).
        { intros id z x Hid Er Hx. inversion Hx as [? ? Hx1|? ? Hx1|? ? h' es' hd' w c r' Hx1 Hx2 Hx3]; subst.
          - exfalso. unfold evrank, ev_level in Er. by rewrite Hx1 in Er.
          - exfalso. unfold evrank, ev_level in Er. by rewrite Hx1 in Er.
          - rewrite (evrank_nt _ _ _ _ _ Hx1 Hx2) in Er. injection Er as Er.
            destruct (wf_nt _ Hwf _ _ _ Hx1) as (hd'' & Hh'' & Hl'' & _). simplify_eq.
            rewrite <- Er. apply lookup_lt_Some in Hx3. rewrite Hl'' in Hx3.
            rewrite (wf_hc _ Hwf hd hd'); [done| | |done]; by eapply elem_of_list_lookup_2. }
        destruct (decide (evrank m f = S (h_level hd))) as [E|E]; [by eapply (Hrg f)|].
        destruct (decide (evrank m g = S (h_level hd))) as [E'|E']; [by eapply (Hrg g)|].
        exfalso. lia. }
      destruct (Forall2_lookup_r _ _ _ _ _ HF Hi) as (p & Hp & (B1 & B2 & B3) & _ & _).
      destruct (Hps _ _ Hp) as (_ & _ & _ & _ & A5). destruct (A5 rho a b eq_refl) as [Ea Eb].
      eapply Hv2; [done|]. apply (ev_mono m1); [done|]. apply B3; (eapply ev_mono; [done|auto]). }
    eexists m3, _. split; [done|].
    assert (Hk2' : evrank m2 r ≤ evrank m2 f `max` evrank m2 g).
    { rewrite (evrank_mono m m2 f), (evrank_mono m m2 g) by done. lia. }
    assert (Hwf3 : evwf m3).
    { destruct Hwf2 as [W1 W2 W3 W4 W5 W6 W7 W8 W9]. constructor; try done.
      intros o' f' g' d' v' r'. cbn. intros [[E1 E2]|[_ E2]]%lookup_insert_Some.
      - injection E1 as Eo <- <- <-. apply evop_code_inj in Eo as <-. injection E2 as <- <-. apply (centry_mono m2 m3); [|done|].
        { by constructor. }
        unfold centry. refine (conj _ (conj _ (conj _ (conj _ _)))); [lia|lia|done|done|].
        intros rho a b. destruct Emx as [-> ->]. apply Hrel.
      - apply (centry_mono m2 m3); [by constructor|done|]. by apply (W7 o' f' g' d' v' r'). }
    sp; try done.
    + cbn. congruence.
    + unfold binres. rewrite back_node. refine (conj _ (conj _ _)); [done..|]. intros rho a b Ha Hb.
      rewrite <- (back_node o (Z.min fv gv) (v, r)). apply (ev_mono m2); [done|]. apply (rel_value m2 rho o fv f gv g v r (Hrel rho)); by apply (ev_mono m3).
Qed.

Lemma ev_reachable_wf m : ev_reachable m → evwf m.
Proof.
  induction 1 as [|m level label edges H IH Hf|m h es m' e H IH Hf Hc|m o fv f gv g m' e H IH Hf Hg Hb].
  - apply ev_new_wf.
  - by apply ev_header_wf.
  - unfold ev_node_fits in Hf. destruct (e_headers m !! h) as [hd|] eqn:Hh; [|done]. destruct Hf as [Hl Hf].
    destruct (create_node_spec m h hd es) as (m1 & v & r & E & Hwf & _); [done..| |congruence].
    eapply Fimpl; [done|]. intros e' He%below_rank. done.
  - destruct (ev_bin_f_spec o (S (f + g)) m fv f gv g) as (m1 & e1 & E & Hwf & _); [done..|lia|].
    unfold ev_bin in Hb. congruence.
Qed.

(** ** Uniqueness without infinity *)
Lemma ev_agree m rho rho' v f r : evwf m → edge_value m rho v f r → f < length (e_nodes m) →
  (∀ l, l < evrank m f → rho l = rho' l) → edge_value m rho' v f r.
Proof.
  intros Hwf. induction 1 as [| |v f h es hd w c r H1 H2 H3 H4 IH]; intros Hl Ha.
  - by apply ev_inf.
  - by apply ev_om.
  - rewrite (evrank_nt _ _ _ _ _ H1 H2) in Ha. destruct (wf_nt _ Hwf _ _ _ H1) as (hd' & Hh & _ & Hc & _).
    simplify_eq. rewrite Forall_lookup in Hc. destruct (Hc _ _ H3) as (A1 & A2 & _). cbn in A1, A2.
    eapply ev_nt; [done|done|rewrite <- Ha; [done|lia]|]. apply IH; [lia|]. intros l Hlt. apply Ha. lia.
Qed.

Lemma ev_finite_child m f h es e : ev_finite m f → e_nodes m !! f = Some (ENt h es) → e ∈ es → ev_finite m e.2.
Proof.
  intros Hf Hn He Hr. apply Hf. clear Hf. induction Hr as [|id h' es' e' H IH H1 H2].
  - eapply evr_edge; [apply evr_root|done..].
  - by eapply evr_edge.
Qed.

(** a state for every variable *)
Definition put (rho : nat → nat) (l i : nat) : nat → nat := λ k, if decide (k = l) then i else rho k.
Lemma put_range m rho hd i : evwf m → ev_in_range m rho → hd ∈ e_headers m → i < h_edges hd → ev_in_range m (put rho (h_level hd) i).
Proof.
  intros Hwf Hr Hh Hi hd' Hh'. unfold put. destruct (decide _) as [E|E]; [|by apply Hr].
  by rewrite (wf_hc _ Hwf hd' hd).
Qed.

Lemma ev_min_zero m f : evwf m → f < length (e_nodes m) → ev_finite m f →
  ∀ rho0, ev_in_range m rho0 → (∃ rho, ev_in_range m rho ∧ edge_value m rho 0 f (Some 0%Z)) ∧
  ∀ rho r, edge_value m rho 0 f r → ∃ z, r = Some z ∧ (0 <= z)%Z.
Proof.
  intros Hwf. induction f as [f IH] using lt_wf_ind. intros Hl Hfin rho0 Hr0.
  pose proof Hl as Hn. apply lookup_lt_is_Some in Hn as [n Hn]. destruct n as [h es| |].
  - destruct (wf_nt _ Hwf _ _ _ Hn) as (hd & Hh & Hle & Hc & (e & He & E0) & _).
    rewrite Forall_forall in Hc.
    assert (Hin : hd ∈ e_headers m) by (by eapply elem_of_list_lookup_2).
    split.
    + destruct (Hc _ He) as (A1 & A2 & _). destruct (IH e.2 A1) with (rho0 := rho0) as [(rho & Hr & Hv) _]; [lia|by eapply ev_finite_child|done|].
      apply elem_of_list_lookup in He as [i Hi]. pose proof (lookup_lt_Some _ _ _ Hi) as Hlt.
      exists (put rho (h_level hd) i). split; [apply put_range; [done..|lia]|].
      destruct e as [w c]. cbn in E0, A1, A2, Hv. subst w. eapply ev_nt; [done|done| |].
      * unfold put. rewrite decide_True by done. exact Hi.
      * eapply (ev_agree _ rho); [done|done|lia|]. intros l Hll. unfold put. rewrite decide_False by lia. done.
    + intros rho r Hv. inversion Hv; simplify_eq. match goal with H : es !! _ = Some _ |- _ => pose proof (elem_of_list_lookup_2 _ _ _ H) as Hi end.
      destruct (Hc _ Hi) as (A1 & A2 & A3). cbn in A1, A2, A3.
      destruct (IH c A1) with (rho0 := rho0) as [_ Hz]; [lia|by eapply (ev_finite_child _ _ _ _ (w, c))|done|].
      match goal with H : edge_value m rho (0 + w) c r |- _ => apply (ev_shift _ _ (- w)) in H; replace (0 + w + - w)%Z with 0%Z in H by lia;
        destruct (Hz _ _ H) as (z & Ez & Hzz) end.
      destruct r as [x|]; [|done]. injection Ez as Ez. exists x. split; [done|]. lia.
  - split; [exists rho0; split; [done|by apply ev_om]|]. intros rho r Hv. inversion Hv; simplify_eq. by exists 0%Z.
  - exfalso. apply Hfin. pose proof (wf_inf1 _ Hwf _ Hn) as E1; rewrite E1; apply evr_root.
Qed.

Lemma ev_range_exists m : evwf m → ∃ rho, ev_in_range m rho.
Proof. intros Hwf. exists (λ _, 0). intros hd Hh. by apply (wf_pos _ Hwf). Qed.

(** same function, same edge value *)
Lemma ev_same_val m v f w g : evwf m → f < length (e_nodes m) → g < length (e_nodes m) → ev_finite m f → ev_finite m g →
  (∀ rho r, ev_in_range m rho → edge_value m rho v f r ↔ edge_value m rho w g r) → v = w.
Proof.
  intros Hwf Hf Hg Ff Fg Heq. destruct (ev_range_exists _ Hwf) as [rho0 Hr0].
  destruct (ev_min_zero _ f Hwf Hf Ff rho0 Hr0) as [(r1 & R1 & V1) N1].
  destruct (ev_min_zero _ g Hwf Hg Fg rho0 Hr0) as [(r2 & R2 & V2) N2].
  apply (ev_shift _ _ v) in V1. apply (ev_shift _ _ w) in V2. cbn in V1, V2.
  replace (0 + v)%Z with v in V1 by lia. replace (0 + w)%Z with w in V2 by lia.
  apply (Heq r1) in V1; [|done]. apply (Heq r2) in V2; [|done].
  apply (ev_shift _ _ (- w)) in V1. apply (ev_shift _ _ (- v)) in V2. cbn in V1, V2.
  replace (w + - w)%Z with 0%Z in V1 by lia. replace (v + - v)%Z with 0%Z in V2 by lia.
  destruct (N2 _ _ V1) as (z1 & [= <-] & ?). destruct (N1 _ _ V2) as (z2 & [= <-] & ?). lia.
Qed.

Lemma ev_unique_n m : evwf m → ev_distinct m → ∀ n f g, f < n → g < n → f < length (e_nodes m) → g < length (e_nodes m) →
  ev_finite m f → ev_finite m g → ∀ v w,
  (∀ rho r, ev_in_range m rho → edge_value m rho v f r ↔ edge_value m rho w g r) → (v, f) = (w, g).
Proof.
  intros Hwf Hd. induction n as [|n IH]; [lia|].
  (* a node whose top variable does not matter does not exist *)
  assert (Hskip : ∀ f g v w h es hd, f < S n → f < length (e_nodes m) → g < length (e_nodes m) → ev_finite m f →
    e_nodes m !! f = Some (ENt h es) → e_headers m !! h = Some hd → evrank m g ≤ h_level hd →
    ¬ (∀ rho r, ev_in_range m rho → edge_value m rho v f r ↔ edge_value m rho w g r)).
  { intros f g v w h es hd Hfn Hf Hg Ff Hn Hh Hrk Heq.
    destruct (wf_nt _ Hwf _ _ _ Hn) as (hd' & Hh' & Hle & Hc & _ & (e1 & e2 & I1 & I2 & Hne)). simplify_eq. apply Hne.
    assert (Hin : hd ∈ e_headers m) by (by eapply elem_of_list_lookup_2).
    rewrite Forall_forall in Hc. destruct (Hc _ I1) as (A1 & A2 & _). destruct (Hc _ I2) as (B1 & B2 & _).
    pose proof (ev_finite_child _ _ _ _ _ Ff Hn I1) as F1. pose proof (ev_finite_child _ _ _ _ _ Ff Hn I2) as F2.
    destruct e1 as [w1 c1], e2 as [w2 c2]. cbn in *.
    apply elem_of_list_lookup in I1 as [i1 I1], I2 as [i2 I2].
    pose proof (lookup_lt_Some _ _ _ I1) as L1. pose proof (lookup_lt_Some _ _ _ I2) as L2. rewrite Hle in L1, L2.
    (* children at i have the function of g *)
    assert (Hch : ∀ i wi ci, es !! i = Some (wi, ci) → i < h_edges hd → ci < f → evrank m ci ≤ h_level hd → ∀ rho r, ev_in_range m rho →
      edge_value m rho (v + wi) ci r ↔ edge_value m rho w g r).
    { intros i wi ci Hi Hlt Hcf Hcr rho r Hr. set (rho' := put rho (h_level hd) i).
      assert (Hr' : ev_in_range m rho') by (by apply put_range).
      assert (Hrho : rho' (h_level hd) = i) by (unfold rho', put; by rewrite decide_True).
      assert (Hag : ∀ l, l < h_level hd → rho l = rho' l) by (intros l Hl; unfold rho', put; rewrite decide_False by lia; done).
      split; intros Hv.
      - apply (ev_agree _ rho') ; [done| |done|intros l Hl; symmetry; apply Hag; lia].
        apply Heq; [done|]. eapply ev_nt; [done|done|by rewrite Hrho|]. apply (ev_agree _ rho); [done|done|lia|]. intros l Hl. apply Hag. lia.
      - apply (ev_agree _ rho'); [done| |lia|intros l Hl; symmetry; apply Hag; lia].
        eapply ev_child; [done|done|by rewrite Hrho|]. apply Heq; [done|]. apply (ev_agree _ rho); [done|done|lia|]. intros l Hl. apply Hag. lia. }
    assert (E : (v + w1, c1)%Z = (v + w2, c2)%Z).
    { apply IH; try lia; try done. intros rho r Hr. rewrite (Hch _ _ _ I1), (Hch _ _ _ I2); done. }
    injection E as E1 E2. f_equal; [lia|done]. }
  intros f g Hf Hg Lf Lg Ff Fg v w Heq.
  assert (v = w) as <- by (apply (ev_same_val m v f w g); done). f_equal.
  pose proof Lf as Nf. pose proof Lg as Ng. apply lookup_lt_is_Some in Nf as [fn Nf], Ng as [gn Ng].
  assert (fn ≠ EInfinity) as Xf.
  { intros ->. apply Ff. pose proof (wf_inf1 _ Hwf _ Nf) as E1; rewrite E1; apply evr_root. }
  assert (gn ≠ EInfinity) as Xg.
  { intros ->. apply Fg. pose proof (wf_inf1 _ Hwf _ Ng) as E1; rewrite E1; apply evr_root. }
  assert (Hsym : ∀ rho r, ev_in_range m rho → edge_value m rho v g r ↔ edge_value m rho v f r) by (intros; symmetry; auto).
  destruct fn as [hf fe| |], gn as [hg ge| |]; try done.
  - destruct (wf_nt _ Hwf _ _ _ Nf) as (hd & Hh & Hle & Hc & _).
    destruct (wf_nt _ Hwf _ _ _ Ng) as (hd' & Hh' & Hle' & Hc' & _).
    pose proof (evrank_nt _ _ _ _ _ Nf Hh) as Rf. pose proof (evrank_nt _ _ _ _ _ Ng Hh') as Rg.
    destruct (Nat.lt_trichotomy (h_level hd) (h_level hd')) as [Hlt|[El|Hlt]].
    + exfalso. eapply (Hskip g f v v hg ge hd'); [done..|lia|exact Hsym].
    + assert (hf = hg) as <-.
      { eapply NoDup_lookup; [exact Hd| |]; rewrite list_lookup_fmap; [by rewrite Hh|]. rewrite Hh'. cbn. by rewrite El. }
      simplify_eq. assert (fe = ge) as <-.
      { apply list_eq_same_length with (n := h_edges hd); [done..|]. intros i [w1 c1] [w2 c2] Hi I1 I2.
        assert (Hin : hd ∈ e_headers m) by (by eapply elem_of_list_lookup_2).
        rewrite Forall_lookup in Hc, Hc'. destruct (Hc _ _ I1) as (A1 & A2 & _). destruct (Hc' _ _ I2) as (B1 & B2 & _). cbn in A1, A2, B1, B2.
        pose proof (elem_of_list_lookup_2 _ _ _ I1) as M1. pose proof (elem_of_list_lookup_2 _ _ _ I2) as M2.
        assert (E : (v + w1, c1)%Z = (v + w2, c2)%Z); [|injection E as E1 E2; f_equal; [lia|done]].
        apply IH; try lia.
        - by apply (ev_finite_child _ _ _ _ _ Ff Nf M1).
        - by apply (ev_finite_child _ _ _ _ _ Fg Ng M2).
        - intros rho r Hr. set (rho' := put rho (h_level hd) i).
          assert (Hr' : ev_in_range m rho') by (by apply put_range).
          assert (Hrho : rho' (h_level hd) = i) by (unfold rho', put; by rewrite decide_True).
          assert (Hag : ∀ l, l < h_level hd → rho l = rho' l) by (intros l Hl; unfold rho', put; rewrite decide_False by lia; done).
          split; intros Hv.
          + apply (ev_agree _ rho'); [done| |lia|intros l Hl; symmetry; apply Hag; lia].
            eapply ev_child; [exact Ng|done|by rewrite Hrho|]. apply Heq; [done|]. eapply ev_nt; [exact Nf|done|by rewrite Hrho|].
            apply (ev_agree _ rho); [done|done|lia|]. intros l Hl. apply Hag. lia.
          + apply (ev_agree _ rho'); [done| |lia|intros l Hl; symmetry; apply Hag; lia].
            eapply ev_child; [exact Nf|done|by rewrite Hrho|]. apply Heq; [done|]. eapply ev_nt; [exact Ng|done|by rewrite Hrho|].
            apply (ev_agree _ rho); [done|done|lia|]. intros l Hl. apply Hag. lia. }
      apply (wf_ut _ Hwf) in Nf, Ng. congruence.
    + exfalso. eapply (Hskip f g v v hf fe hd); [done..|lia|exact Heq].
  - destruct (wf_nt _ Hwf _ _ _ Nf) as (hd & Hh & _). exfalso. eapply (Hskip f g v v hf fe hd); [done..| |exact Heq].
    unfold evrank, ev_level. rewrite Ng. cbn. lia.
  - destruct (wf_nt _ Hwf _ _ _ Ng) as (hd & Hh & _). exfalso. eapply (Hskip g f v v hg ge hd); [done..| |exact Hsym].
    unfold evrank, ev_level. rewrite Nf. cbn. lia.
  - by rewrite (wf_om1 _ Hwf _ Nf), (wf_om1 _ Hwf _ Ng).
Qed.

Theorem ev_unique m v f w g : ev_reachable m → ev_distinct m → ev_valid m f → ev_valid m g → ev_finite m f → ev_finite m g →
  (∀ rho r, ev_in_range m rho → edge_value m rho v f r ↔ edge_value m rho w g r) → v = w ∧ f = g.
Proof.
  intros Hr Hd Hf Hg Ff Fg Heq. assert (E : (v, f) = (w, g)); [|by injection E].
  eapply (ev_unique_n _ (ev_reachable_wf _ Hr) Hd (S (f + g))); try done; lia.
Qed.

(** ** The theorems *)
Lemma ev_keep m m' : evwf m → eext m m' → ∀ rho w id x, ev_valid m id → edge_value m' rho w id x ↔ edge_value m rho w id x.
Proof. intros Hwf He rho w id x Hv. split; [by apply ev_mono_inv|by apply ev_mono]. Qed.

Theorem ev_bin_correct m o fv f gv g : ev_reachable m → ev_valid m f → ev_valid m g →
  ∃ m' v r, ev_bin o m fv f gv g = Some (m', (v, r)) ∧ ev_reachable m' ∧ ev_valid m' r ∧
    e_headers m' = e_headers m ∧
    (∀ rho w id x, ev_valid m id → edge_value m' rho w id x ↔ edge_value m rho w id x) ∧
    ∀ rho, ev_in_range m rho → ∃ a b,
      (∀ x, edge_value m rho fv f x ↔ x = a) ∧ (∀ x, edge_value m rho gv g x ↔ x = b) ∧
      ∀ x, edge_value m' rho v r x ↔ x = ev_op o a b.
Proof.
  intros Hm Hf Hg. pose proof (ev_reachable_wf _ Hm) as Hwf.
  destruct (ev_bin_f_spec o (S (f + g)) m fv f gv g) as (m1 & [v r] & E & Hwf1 & He & Eh & (B1 & B2 & B3)); [done..|lia|].
  exists m1, v, r. split; [done|]. split; [exact (er_op _ _ _ _ _ _ _ _ Hm Hf Hg E)|]. split; [done|]. split; [done|]. split; [by apply ev_keep|].
  intros rho Hr. destruct (ev_total _ _ Hwf Hr f fv Hf) as [a Ha]. destruct (ev_total _ _ Hwf Hr g gv Hg) as [b Hb].
  exists a, b. split; [|split].
  - intros x. split; [intros Hx; by eapply ev_det|by intros ->].
  - intros x. split; [intros Hx; by eapply ev_det|by intros ->].
  - assert (Hx : edge_value m1 rho v r (ev_op o a b)) by (apply B3; by apply (ev_mono m)).
    intros x. split; [intros Hx'; by eapply ev_det|by intros ->].
Qed.

Theorem ev_create_node_correct m h es hd : ev_reachable m → ev_node_fits m h es → e_headers m !! h = Some hd →
  ∃ m' v r, ev_create_node m h es = Some (m', (v, r)) ∧ ev_reachable m' ∧ ev_valid m' r ∧
    e_headers m' = e_headers m ∧
    (∀ rho w id x, ev_valid m id → edge_value m' rho w id x ↔ edge_value m rho w id x) ∧
    length (e_nodes m') ≤ S (length (e_nodes m)) ∧
    ev_create_node m' h es = Some (m', (v, r)) ∧
    ∀ rho, ev_in_range m rho → ∃ w c, es !! rho (h_level hd) = Some (w, c) ∧
      ∀ x, edge_value m' rho v r x ↔ edge_value m rho w c x.
Proof.
  intros Hm Hfit Hh. pose proof (ev_reachable_wf _ Hm) as Hwf. pose proof Hfit as Hf.
  unfold ev_node_fits in Hf. rewrite Hh in Hf. destruct Hf as [Hl Hf].
  destruct (create_node_spec m h hd es) as (m1 & v & r & E & Hwf1 & He & Eh & Ec & Hr & Hk & Hv); [done..| |].
  { eapply Fimpl; [done|]. intros e' He%below_rank. done. }
  exists m1, v, r. split; [done|]. split; [exact (er_node _ _ _ _ _ Hm Hfit E)|]. split; [done|]. split; [done|]. split; [by apply ev_keep|].
  refine (conj _ (conj _ _)).
  - unfold ev_create_node in E. destruct es as [|first es0]; [done|]. destruct (forallb _ _); [injection E as <-; lia|].
    destruct (e_utable m !! _); injection E as <-; [lia|]. cbn. rewrite app_length. cbn. lia.
  - unfold ev_create_node in E |- *. destruct es as [|first es0]; [done|]. destruct (forallb _ _); [congruence|].
    destruct (e_utable m !! _) as [x|] eqn:Hu; injection E as <- <- <-.
    + by rewrite Hu.
    + cbn [e_utable]. by rewrite lookup_insert.
  - intros rho Hrho. assert (Hi : rho (h_level hd) < length es).
    { rewrite Hl. apply Hrho. by eapply elem_of_list_lookup_2. }
    apply lookup_lt_is_Some in Hi as [[w c] Hi]. exists w, c. split; [done|]. intros x.
    rewrite Forall_lookup in Hf. destruct (Hf _ _ Hi) as [Hvc _]. cbn in Hvc. rewrite <- (ev_keep m m1) by done.
    split; [|by apply Hv]. intros Hx.
    assert (Hr1 : ev_in_range m1 rho) by (intros hd'; rewrite Eh; apply Hrho).
    destruct (ev_total _ _ Hwf1 Hr1 c w) as [y Hy]; [pose proof (eext_len _ _ He); unfold ev_valid in Hvc; lia|].
    by rewrite (ev_det _ _ _ _ _ _ Hx (Hv _ _ _ _ Hi Hy)).
Qed.
