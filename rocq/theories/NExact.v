(** The exact behaviour of the multi-valued operations as relations on trees: one constructor per way a call can end. *)
From Verif Require Import Prelude ComputeCache Arena Trees StripTrees ArenaProofs Bdd ArenaMore Mdd NaryProofs MddProofs.

Definition isbr {T} (d : dd T) : Prop := match d with Br _ _ => True | Leaf _ => False end.

(** strict versions of the connectives on terminals: undetermined always wins *)
Definition sop (o : mop) (a b : tv) : tv :=
  match a, b with
  | TUndet, _ | _, TUndet => TUndet
  | _, _ => match o with MAnd => kand a b | MOr => kor a b | MXOr => kxor a b | _ => a end
  end.
Inductive tarm := TRet (d : dd tv) | TNeg (d : dd tv) | TRec.
(** a terminal against a non-terminal [d] *)
Definition arm1 (o : mop) (t : tv) (d : dd tv) : tarm :=
  match o, t with
  | _, TUndet => TRet (Leaf TUndet)
  | MAnd, TZero => TRet (Leaf TZero) | MAnd, TOne => TRet d
  | MOr, TZero => TRet d | MOr, TOne => TRet (Leaf TOne)
  | MXOr, TZero => TRet d | MXOr, TOne => TNeg d
  | _, _ => TRec
  end.
Definition tarmf (o : mop) (df dg : dd tv) : tarm :=
  match o with
  | MNot => match df with Leaf t => TRet (Leaf (knot t)) | _ => TRec end
  | MReplace =>
      match df, dg with
      | Leaf TUndet, _ => TRet dg
      | Leaf t, _ => TRet (Leaf t)
      | _, Leaf TUndet => TRet df
      | _, _ => TRec
      end
  | _ =>
      match df, dg with
      | Leaf a, Leaf b => TRet (Leaf (sop o a b))
      | Leaf a, Br _ _ => arm1 o a dg
      | Br _ _, Leaf b => arm1 o b df
      | Br _ _, Br _ _ => TRec
      end
  end.
Definition same (o : mop) (d : dd tv) : option (dd tv) :=
  match o with MAnd | MOr => Some d | MXOr => Some (Leaf TZero) | _ => None end.

(** [A] holds of the headers a node may get. *)
Inductive X (A : header → Prop) : mop → dd tv → dd tv → dd tv → Prop :=
  | X_same o d dr : isbr d → same o d = Some dr → X A o d d dr
  | X_ret o df dg dr : tarmf o df dg = TRet dr → X A o df dg dr
  | X_neg o df dg dx dr : tarmf o df dg = TNeg dx → X A MNot dx (Leaf TZero) dr → X A o df dg dr
  | X_rec o df dg hd ds dr : tarmf o df dg = TRec → (mop_swap o = true → df ≠ dg) → A hd →
      rank df `max` rank dg = S (h_level hd) → length ds = h_edges hd →
      (∀ i d, ds !! i = Some d → X A o (cof df (h_level hd) i) (cof dg (h_level hd) i) d) →
      mkrel hd ds dr → X A o df dg dr.

Inductive X3 {T} (u : T) (A : header → Prop) : dd tv → dd T → dd T → dd T → Prop :=
  | X3_one dg dh : X3 u A (Leaf TOne) dg dh dg
  | X3_zero dg dh : X3 u A (Leaf TZero) dg dh dh
  | X3_undet dg dh : X3 u A (Leaf TUndet) dg dh (Leaf u)
  | X3_same df d : isbr df → X3 u A df d d d
  | X3_rec df dg dh hd ds dr : isbr df → dg ≠ dh → A hd →
      rank df `max` rank dg `max` rank dh = S (h_level hd) → length ds = h_edges hd →
      (∀ i d, ds !! i = Some d → X3 u A (cof df (h_level hd) i) (cof dg (h_level hd) i) (cof dh (h_level hd) i) d) →
      mkrel hd ds dr → X3 u A df dg dh dr.

Lemma X_mono (A A' : header → Prop) o df dg dr : (∀ hd, A hd → A' hd) → X A o df dg dr → X A' o df dg dr.
Proof.
  intros HA. induction 1 as [| | |? ? ? hd ds ? ? ? ? ? ? ? IH]; [by apply X_same|by apply X_ret|by eapply X_neg|].
  apply (X_rec A' _ _ _ hd ds); eauto.
Qed.
Lemma X3_mono {T} (u : T) (A A' : header → Prop) df dg dh dr : (∀ hd, A hd → A' hd) → X3 u A df dg dh dr → X3 u A' df dg dh dr.
Proof.
  intros HA. induction 1 as [| | | |? ? ? hd ds ? ? ? ? ? ? ? IH]; [apply X3_one|apply X3_zero|apply X3_undet|by apply X3_same|].
  apply (X3_rec u A' _ _ _ hd ds); eauto.
Qed.

Lemma sop_sym o a b : mop_swap o = true → sop o a b = sop o b a.
Proof. by destruct o, a, b. Qed.
Lemma tarmf_sym o df dg : mop_swap o = true → tarmf o df dg = tarmf o dg df.
Proof. destruct o; try done; intros _; destruct df as [a|], dg as [b|]; cbn; try done; f_equal; f_equal; by apply sop_sym. Qed.
Lemma X_sym A o df dg dr : X A o df dg dr → mop_swap o = true → X A o dg df dr.
Proof.
  induction 1 as [o d dr Hb Hs|o df dg dr Ha|o df dg dx dr Ha HX IH|o df dg hd ds dr Ha Hn HA Hk Hl HX IH Hm]; intros Ho.
  - by apply X_same.
  - apply X_ret. by rewrite tarmf_sym.
  - eapply X_neg; [|exact HX]. by rewrite tarmf_sym.
  - eapply (X_rec A o dg df hd ds); try done.
    + by rewrite tarmf_sym.
    + intros _ Heq. by apply Hn.
    + lia.
    + intros i d Hd. by apply IH.
Qed.

(** ** Headers given by level *)
Section by_level.
Context (H : nat → header) (A : header → Prop) (HA : ∀ hd, A hd → hd = H (h_level hd)).

Lemma mkrel_hdby {T} hd (ds : list (dd T)) dr : A hd → Forall (hdby H) ds → mkrel hd ds dr → hdby H dr.
Proof.
  intros Hh Hds [[Hf Hne]|[_ ->]]; [|by apply hdby_br; auto]. destruct ds as [|d ds]; [done|].
  rewrite !Forall_cons in *. destruct Hf as [-> _]. by destruct Hds.
Qed.
Lemma mkrel_det {T} hd (ds : list (dd T)) dr dr' : mkrel hd ds dr → mkrel hd ds dr' → dr = dr'.
Proof.
  intros [[Hf Hne]|[Hn ->]] [[Hf' Hne']|[Hn' ->]]; try done.
  - destruct ds as [|d ds]; [done|]. rewrite !Forall_cons in *. destruct Hf as [-> _]. by destruct Hf'.
  - destruct Hn'. by eexists.
  - destruct Hn. by eexists.
Qed.

Lemma arm1_hdby o t d dr : hdby H d → arm1 o t d = TRet dr ∨ arm1 o t d = TNeg dr → hdby H dr.
Proof. intros Hd. destruct o, t; cbn; intros [Heq|Heq]; try done; by injection Heq as <-. Qed.
Lemma tarmf_hdby o df dg dr : hdby H df → hdby H dg → tarmf o df dg = TRet dr ∨ tarmf o df dg = TNeg dr → hdby H dr.
Proof.
  intros Hf Hg. destruct o; cbn [tarmf].
  - destruct df; intros [Heq|Heq]; try done; by injection Heq as <-.
  - destruct df, dg; try (by apply arm1_hdby); intros [Heq|Heq]; try done; by injection Heq as <-.
  - destruct df, dg; try (by apply arm1_hdby); intros [Heq|Heq]; try done; by injection Heq as <-.
  - destruct df, dg; try (by apply arm1_hdby); intros [Heq|Heq]; try done; by injection Heq as <-.
  - destruct df as [[]|], dg as [[]|]; intros [Heq|Heq]; try done; by injection Heq as <-.
Qed.
Lemma X_hdby o df dg dr : X A o df dg dr → hdby H df → hdby H dg → hdby H dr.
Proof.
  induction 1 as [o d dr Hb Hs|o df dg dr Ha|o df dg dx dr Ha HX IH|o df dg hd ds dr Ha Hn Hh Hk Hl HX IH Hm]; intros Hf Hg.
  - destruct o; try done; by injection Hs as <-.
  - apply (tarmf_hdby o df dg); auto.
  - apply IH; [|done]. apply (tarmf_hdby o df dg); auto.
  - eapply mkrel_hdby; [done| |done]. apply Forall_lookup. intros i d Hd. eapply IH; [done|by apply hdby_cof..].
Qed.
Lemma X3_hdby {T} (u : T) df dg dh dr : X3 u A df dg dh dr → hdby H df → hdby H dg → hdby H dh → hdby H dr.
Proof.
  induction 1 as [| | | |df dg dh hd ds dr Hb Hn Hh Hk Hl HX IH Hm]; intros Hf Hg Hh'; try done.
  eapply mkrel_hdby; [done| |done]. apply Forall_lookup. intros i d Hd. eapply IH; [done|by apply hdby_cof..].
Qed.

Lemma same_isbr o d dr : same o d = Some dr → mop_swap o = true.
Proof. by destruct o. Qed.
Lemma same_rec o d dr : isbr d → same o d = Some dr → tarmf o d d = TRec.
Proof. by destruct d, o. Qed.
Lemma X_det o df dg dr : X A o df dg dr → ∀ dr', X A o df dg dr' → dr = dr'.
Proof.
  induction 1 as [o d dr Hb Hs|o df dg dr Ha|o df dg dx dr Ha HX IH|o df dg hd ds dr Ha Hn Hh Hk Hl HX IH Hm]; intros dr' HX'.
  - pose proof (same_rec _ _ _ Hb Hs) as Hr.
    inversion HX' as [? ? ? Hb' Hs'|? ? ? ? Ha'|? ? ? ? ? Ha' HX1|? ? ? hd' ds' ? Ha' Hn' Hh' Hk' Hl' HX1 Hm']; subst; try congruence.
    by destruct (Hn' (same_isbr _ _ _ Hs)).
  - inversion HX' as [? ? ? Hb' Hs'|? ? ? ? Ha'|? ? ? ? ? Ha' HX1|? ? ? hd' ds' ? Ha' Hn' Hh' Hk' Hl' HX1 Hm']; subst; try congruence.
    by rewrite (same_rec _ _ _ Hb' Hs') in Ha.
  - inversion HX' as [? ? ? Hb' Hs'|? ? ? ? Ha'|? ? ? ? ? Ha' HX1|? ? ? hd' ds' ? Ha' Hn' Hh' Hk' Hl' HX1 Hm']; subst; try congruence.
    + by rewrite (same_rec _ _ _ Hb' Hs') in Ha.
    + apply IH. congruence.
  - inversion HX' as [? ? ? Hb' Hs'|? ? ? ? Ha'|? ? ? ? ? Ha' HX1|? ? ? hd' ds' ? Ha' Hn' Hh' Hk' Hl' HX1 Hm']; subst; try congruence.
    + by destruct (Hn (same_isbr _ _ _ Hs')).
    + assert (hd' = hd) as -> by (rewrite (HA _ Hh), (HA _ Hh'); f_equal; lia).
      assert (ds = ds') as <-; [|by eapply mkrel_det].
      apply list_eq_same_length with (n := length ds); [lia|done|]. intros i x y _ Hx Hy. eapply IH; eauto.
Qed.
Lemma X3_det {T} (u : T) df dg dh dr : X3 u A df dg dh dr → ∀ dr', X3 u A df dg dh dr' → dr = dr'.
Proof.
  induction 1 as [| | |df d Hb|df dg dh hd ds dr Hb Hn Hh Hk Hl HX IH Hm]; intros dr' HX'.
  - by inversion HX'.
  - by inversion HX'.
  - by inversion HX'.
  - by inversion HX'; subst.
  - inversion HX' as [| | | |? ? ? hd' ds' ? Hb' Hn' Hh' Hk' Hl' HX1 Hm']; subst; try done.
    assert (hd' = hd) as -> by (rewrite (HA _ Hh), (HA _ Hh'); f_equal; lia).
    assert (ds = ds') as <-; [|by eapply mkrel_det].
    apply list_eq_same_length with (n := length ds); [lia|done|]. intros i x y _ Hx Hy. eapply IH; eauto.
Qed.
End by_level.

(** ** Without the identity of variables *)
Definition barel (E : nat → nat) (hd : header) : Prop := hd = bare E (h_level hd).
Section strip.
Context (H : nat → header) (A : header → Prop) (E : nat → nat).
Context (HA : ∀ hd, A hd → hd = H (h_level hd)) (HE : ∀ hd, A hd → h_edges hd = E (h_level hd)).

Lemma mkrel_strip {T} hd (ds : list (dd T)) dr : Forall (hdby H) ds → mkrel hd ds dr →
  mkrel (bare E (h_level hd)) (strip E <$> ds) (strip E dr).
Proof.
  intros Hds [[Hf Hne]|[Hn ->]]; [left|right].
  - split; [|by destruct ds]. apply Forall_fmap. eapply Forall_impl; [exact Hf|]. by intros x <-.
  - split; [|done]. intros [c Hc]. apply Hn. destruct ds as [|d ds]; [by exists (Br hd [])|]. exists d.
    rewrite Forall_fmap in Hc. rewrite Forall_cons in Hds, Hc |- *. destruct Hds as [Hd Hds], Hc as [H0 Hc]. split; [done|].
    rewrite Forall_forall in Hds, Hc |- *. intros x Hx. apply (strip_inj E H); [done|by apply Hds|]. rewrite <- (Hc x Hx). by symmetry.
Qed.
Lemma isbr_strip {T} (d : dd T) : isbr d → isbr (strip E d).
Proof. by destruct d. Qed.
Definition tstrip (x : tarm) : tarm := match x with TRet d => TRet (strip E d) | TNeg d => TNeg (strip E d) | TRec => TRec end.
Lemma tarmf_strip o df dg : tarmf o (strip E df) (strip E dg) = tstrip (tarmf o df dg).
Proof. destruct o, df as [[]|], dg as [[]|]; done. Qed.

Lemma X_strip o df dg dr : X A o df dg dr → hdby H df → hdby H dg → X (barel E) o (strip E df) (strip E dg) (strip E dr).
Proof.
  induction 1 as [o d dr Hb Hs|o df dg dr Ha|o df dg dx dr Ha HX IH|o df dg hd ds dr Ha Hn Hh Hk Hl HX IH Hm]; intros Hf Hg.
  - apply X_same; [by apply isbr_strip|]. destruct o; try done; by injection Hs as <-.
  - apply X_ret. by rewrite tarmf_strip, Ha.
  - eapply X_neg; [by rewrite tarmf_strip, Ha|]. apply IH; [|done]. apply (tarmf_hdby H o df dg); auto.
  - eapply (X_rec _ o _ _ (bare E (h_level hd)) (strip E <$> ds)).
    + by rewrite tarmf_strip, Ha.
    + intros Ho Heq. apply (Hn Ho). by eapply strip_inj.
    + done.
    + cbn [bare h_level]. by rewrite !strip_rank.
    + cbn [bare h_edges]. rewrite fmap_length, Hl. by apply HE.
    + intros i d. rewrite list_lookup_fmap. destruct (ds !! i) as [d'|] eqn:Hd; [|done]. intros [= <-].
      cbn [bare h_level]. rewrite !strip_cof. apply IH; [done|by apply hdby_cof..].
    + apply mkrel_strip; [|done]. apply Forall_lookup. intros i d Hd. eapply (X_hdby H A HA); [by apply HX|by apply hdby_cof..].
Qed.
Lemma X3_strip {T} (u : T) df dg dh dr : X3 u A df dg dh dr → hdby H df → hdby H dg → hdby H dh →
  X3 u (barel E) (strip E df) (strip E dg) (strip E dh) (strip E dr).
Proof.
  induction 1 as [| | |df d Hb|df dg dh hd ds dr Hb Hn Hh Hk Hl HX IH Hm]; intros Hf Hg Hh'.
  - apply X3_one.
  - apply X3_zero.
  - apply X3_undet.
  - apply X3_same. by apply isbr_strip.
  - eapply (X3_rec _ _ _ _ _ (bare E (h_level hd)) (strip E <$> ds)).
    + by apply isbr_strip.
    + intros Heq. apply Hn. by eapply strip_inj.
    + done.
    + cbn [bare h_level]. by rewrite !strip_rank.
    + cbn [bare h_edges]. rewrite fmap_length, Hl. by apply HE.
    + intros i d. rewrite list_lookup_fmap. destruct (ds !! i) as [d'|] eqn:Hd; [|done]. intros [= <-].
      cbn [bare h_level]. rewrite !strip_cof. apply IH; [done|by apply hdby_cof..].
    + apply mkrel_strip; [|done]. apply Forall_lookup. intros i d Hd. eapply (X3_hdby H A HA); [by apply HX|by apply hdby_cof..].
Qed.
End strip.
