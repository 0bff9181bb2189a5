(** The MDD operations behave exactly as the relations of NExact.v say, whatever is in the caches. *)
From Verif Require Import Prelude ComputeCache ComputeCacheProofs Arena Trees ArenaProofs Bdd ArenaMore Mdd NaryProofs MddProofs NExact.

Definition hin (hs : list header) (hd : header) : Prop := hd ∈ hs.
Lemma hin_mono {T} (a a' : arena T) hd : ext a a' → hin (ar_headers a) hd → hin (ar_headers a') hd.
Proof. intros [[k ->] _] Hin. apply elem_of_app. by left. Qed.

Definition xmcentry (a : arena tv) (k : N * N * N) (v : N) : Prop :=
  ∃ o df dg dr, k.1.1 = mop_code o ∧
    repr a df (N.to_nat k.1.2) ∧ repr a dg (N.to_nat k.2) ∧ repr a dr (N.to_nat v) ∧
    rank dr ≤ rank df `max` rank dg ∧ X (hin (ar_headers a)) o df dg dr.
Definition xmientry (a : arena tv) (k : N * N * N) (v : N) : Prop :=
  ∃ df dg dh dr, repr a df (N.to_nat k.1.1) ∧ repr a dg (N.to_nat k.1.2) ∧ repr a dh (N.to_nat k.2) ∧
    repr a dr (N.to_nat v) ∧
    rank dr ≤ rank df `max` rank dg `max` rank dh ∧ X3 TUndet (hin (ar_headers a)) df dg dh dr.

Record xmwf (m : mdd) : Prop := {
  xmw_good : mgood (d_ar m);
  xmw_c : cache_ok (d_cache m) (xmcentry (d_ar m));
  xmw_i : cache_ok (d_ite m) (xmientry (d_ar m));
}.

Definition xmstep (m m' : mdd) : Prop :=
  xmwf m' ∧ ext (d_ar m) (d_ar m') ∧ ar_headers (d_ar m') = ar_headers (d_ar m).

Lemma xmstep_refl m : xmwf m → xmstep m m.
Proof. intros. split; [done|]. split; [apply ext_refl|done]. Qed.
Lemma xmstep_trans m1 m2 m3 : xmstep m1 m2 → xmstep m2 m3 → xmstep m1 m3.
Proof.
  intros (_ & H1 & H2) (? & H3 & H4). split; [done|]. split; [by eapply ext_trans|congruence].
Qed.
Lemma xmstep_refl2 m m' : xmstep m m' → xmstep m' m'.
Proof. intros [? _]. by apply xmstep_refl. Qed.

Lemma mop_code_inj o o' : mop_code o = mop_code o' → o = o'.
Proof. by destruct o, o'. Qed.

Lemma xmcentry_mono a a' k v : ext a a' → xmcentry a k v → xmcentry a' k v.
Proof.
  intros He (o & df & dg & dr & Ho & Hf & Hg & Hr & Hk & Hp). exists o, df, dg, dr.
  sp; try done; try (by eapply repr_mono). eapply X_mono; [|exact Hp]; intros ?; by apply hin_mono.
Qed.
Lemma xmientry_mono a a' k v : ext a a' → xmientry a k v → xmientry a' k v.
Proof.
  intros He (df & dg & dh & dr & Hf & Hg & Hh & Hr & Hk & Hp). exists df, dg, dh, dr.
  sp; try done; try (by eapply repr_mono). eapply X3_mono; [|exact Hp]; intros ?; by apply hin_mono.
Qed.

Lemma mgood_mono a a' : mgood a → awf Rn a' → ext a a' → ar_headers a' = ar_headers a → mgood a'.
Proof.
  intros [? ? ? ? He] Hwf Hext Hh. constructor; try done; try by eapply repr_mono.
  by rewrite Hh.
Qed.

Lemma xmwith_ar_step m a : xmwf m → mgood a → ext (d_ar m) a → ar_headers a = ar_headers (d_ar m) →
  xmstep m (mdd_with_ar m a).
Proof.
  intros Hw Hg He Hh. split; [|done]. destruct Hw as [? Hc Hi]. constructor; try done; cbn.
  - eapply cache_ok_mono; [|done]. intros k v. by apply xmcentry_mono.
  - eapply cache_ok_mono; [|done]. intros k v. by apply xmientry_mono.
Qed.

Lemma xm_okh m d id : xmwf m → repr (d_ar m) d id → okh (ar_headers (d_ar m)) d.
Proof. intros [[] _ _]. by eapply repr_okh. Qed.

(** ** create_node *)
Lemma xmcreate_node m h hd ns (PP : nat → dd tv → Prop) : xmwf m → ar_headers (d_ar m) !! h = Some hd →
  length ns = h_edges hd →
  (∀ i r, ns !! i = Some r → ∃ d, repr (d_ar m) d r ∧ rank d ≤ h_level hd ∧ PP i d) →
  ∃ m' r dr ds, mdd_create_node m h ns = (m', r) ∧ xmstep m m' ∧ repr (d_ar m') dr r ∧
    rank dr ≤ S (h_level hd) ∧ mkrel hd ds dr ∧ length ds = h_edges hd ∧
    (∀ i d, ds !! i = Some d → PP i d).
Proof.
  intros Hw Hh Hlen Hns. destruct (trees_of _ _ _ _ Hns) as (ds & Hf & Hfk & Hl & Hpp).
  pose proof (xmw_good _ Hw) as Hg.
  destruct (mknode_spec (d_ar m) h hd ns ds) as (dr & Hmk & Hr); try done; [apply Hg|apply Hg|].
  unfold mdd_create_node. destruct (all_same ns) as [x|].
  - exists m, x, dr, ds. sp; try done.
    + by eapply mkrel_rank.
    + congruence.
  - destruct Hr as (a' & id & -> & Hwf & He & Hhd & Hr & _).
    exists (mdd_with_ar m a'), id, dr, ds. sp; try done.
    + apply xmwith_ar_step; try done. by eapply mgood_mono.
    + by eapply mkrel_rank.
    + congruence.
Qed.

(** ** Caches *)
Lemma xmcache_get m o f g df dg : xmwf m → repr (d_ar m) df f → repr (d_ar m) dg g →
  ∃ r, mdd_cache_get m o f g = Some r ∧
    ∀ x, r = Some x → ∃ dr, repr (d_ar m) dr x ∧ rank dr ≤ rank df `max` rank dg ∧
      X (hin (ar_headers (d_ar m))) o df dg dr.
Proof.
  intros Hw Hf Hg. unfold mdd_cache_get.
  destruct (cache_ok_get _ _ (mop_code o) (N.of_nat f) (N.of_nat g) (xmw_c _ Hw)) as (r & -> & Hr).
  cbn [mbind option_bind]. eexists. split; [done|]. intros x Hx. destruct r as [v|]; [|done].
  injection Hx as <-. destruct (Hr v eq_refl) as (o' & df' & dg' & dr & Ho & Hf' & Hg' & Hr' & Hk & Hp).
  cbn in *. rewrite !Nat2N.id in *. apply mop_code_inj in Ho as <-.
  rewrite (repr_fun _ _ _ _ Hf Hf'), (repr_fun _ _ _ _ Hg Hg'). by exists dr.
Qed.
Lemma xmcache_put m o f g r df dg dr : xmwf m →
  repr (d_ar m) df f → repr (d_ar m) dg g → repr (d_ar m) dr r →
  rank dr ≤ rank df `max` rank dg → X (hin (ar_headers (d_ar m))) o df dg dr →
  ∃ m', mdd_cache_put m o f g r = Some m' ∧ xmstep m m' ∧ d_ar m' = d_ar m.
Proof.
  intros Hw Hf Hg Hr Hk Hp. unfold mdd_cache_put.
  destruct (cache_ok_put _ _ (mop_code o) (N.of_nat f) (N.of_nat g) (N.of_nat r) (xmw_c _ Hw)) as (c' & -> & Hc).
  { exists o, df, dg, dr. cbn. rewrite !Nat2N.id. done. }
  cbn [mbind option_bind]. eexists. split; [done|]. split; [|done]. split; [|by split; [apply ext_refl|]].
  destruct Hw. by constructor.
Qed.
Lemma xmite_get m f g h df dg dh : xmwf m →
  repr (d_ar m) df f → repr (d_ar m) dg g → repr (d_ar m) dh h →
  ∃ r, mdd_ite_get m f g h = Some r ∧
    ∀ x, r = Some x → ∃ dr, repr (d_ar m) dr x ∧ rank dr ≤ rank df `max` rank dg `max` rank dh ∧
      X3 TUndet (hin (ar_headers (d_ar m))) df dg dh dr.
Proof.
  intros Hw Hf Hg Hh. unfold mdd_ite_get.
  destruct (cache_ok_get _ _ (N.of_nat f) (N.of_nat g) (N.of_nat h) (xmw_i _ Hw)) as (r & -> & Hr).
  cbn [mbind option_bind]. eexists. split; [done|]. intros x Hx. destruct r as [v|]; [|done].
  injection Hx as <-. destruct (Hr v eq_refl) as (df' & dg' & dh' & dr & Hf' & Hg' & Hh' & Hr' & Hk & Hp).
  cbn in *. rewrite !Nat2N.id in *.
  rewrite (repr_fun _ _ _ _ Hf Hf'), (repr_fun _ _ _ _ Hg Hg'), (repr_fun _ _ _ _ Hh Hh'). by exists dr.
Qed.
Lemma xmite_put m f g h r df dg dh dr : xmwf m →
  repr (d_ar m) df f → repr (d_ar m) dg g → repr (d_ar m) dh h → repr (d_ar m) dr r →
  rank dr ≤ rank df `max` rank dg `max` rank dh → X3 TUndet (hin (ar_headers (d_ar m))) df dg dh dr →
  ∃ m', mdd_ite_put m f g h r = Some m' ∧ xmstep m m' ∧ d_ar m' = d_ar m.
Proof.
  intros Hw Hf Hg Hh Hr Hk Hp. unfold mdd_ite_put.
  destruct (cache_ok_put _ _ (N.of_nat f) (N.of_nat g) (N.of_nat h) (N.of_nat r) (xmw_i _ Hw)) as (c' & -> & Hc).
  { exists df, dg, dh, dr. cbn. rewrite !Nat2N.id. done. }
  cbn [mbind option_bind]. eexists. split; [done|]. split; [|done]. split; [|by split; [apply ext_refl|]].
  destruct Hw. by constructor.
Qed.

(** ** Postcondition of an operation *)
Definition xmres (Rel : mop) m df dg (o : option (mdd * nat)) : Prop :=
  ∃ m' r dr, o = Some (m', r) ∧ xmstep m m' ∧ repr (d_ar m') dr r ∧
    rank dr ≤ rank df `max` rank dg ∧ X (hin (ar_headers (d_ar m))) Rel df dg dr.

Lemma xmfinish o m f g df dg (x : option (mdd * nat)) :
  xmwf m → repr (d_ar m) df f → repr (d_ar m) dg g →
  xmres o m df dg x →
  xmres o m df dg ('(m, result) ← x; m ← mdd_cache_put m o f g result; Some (m, result)).
Proof.
  intros Hw0 Hf Hg (m' & r & dr & -> & Hst & Hr & Hk & Hp). cbn [mbind option_bind].
  pose proof Hst as (Hw' & He & Hh).
  destruct (xmcache_put m' o f g r df dg dr) as (m'' & -> & Hst3 & Ha); try done.
  { by eapply repr_mono. }
  { by eapply repr_mono. }
  { by rewrite Hh. }
  cbn [mbind option_bind]. exists m'', r, dr. rewrite Ha. sp; try done. by eapply xmstep_trans.
Qed.

Lemma xmres_const Rel m df dg r dr : xmwf m → repr (d_ar m) dr r →
  rank dr ≤ rank df `max` rank dg → X (hin (ar_headers (d_ar m))) Rel df dg dr → xmres Rel m df dg (Some (m, r)).
Proof. intros. exists m, r, dr. sp; done. Qed.

(** recursive calls on the cofactors, then create_node *)
Lemma xmrec {A} m h hd (ps : list A) (F : mdd → A → option (mdd * nat)) (PP : nat → dd tv → Prop) :
  xmwf m → ar_headers (d_ar m) !! h = Some hd → length ps = h_edges hd →
  (∀ i p m', ps !! i = Some p → xmstep m m' →
     ∃ m'' r dr, F m' p = Some (m'', r) ∧ xmstep m' m'' ∧ repr (d_ar m'') dr r ∧ rank dr ≤ h_level hd ∧ PP i dr) →
  ∃ m' ns m2 r dr ds, mapst F m ps = Some (m', ns) ∧ mdd_create_node m' h ns = (m2, r) ∧ xmstep m m2 ∧
    repr (d_ar m2) dr r ∧ rank dr ≤ S (h_level hd) ∧ mkrel hd ds dr ∧ length ds = h_edges hd ∧
    (∀ i d, ds !! i = Some d → PP i d).
Proof.
  intros Hw Hh Hlen HF.
  pose proof (mapst_idx xmstep d_ar (λ _ _, False) F ps m (h_level hd) PP xmstep_trans xmstep_refl2 (xmstep_refl m Hw))
    as Hm.
  destruct (mapst F m ps) as [[m1 ns]|].
  - destruct Hm as (Hst & Hlns & Hns).
    { by intros x y (_ & ? & _). }
    { intros i p s' Hi Hs'. destruct (HF i p s' Hi Hs') as (m'' & r & dr & -> & ? & ?). split; [done|]. by exists dr. }
    pose proof Hst as (Hw1 & He1 & Hh1).
    destruct (xmcreate_node m1 h hd ns PP) as (m2 & r & dr & ds & Hc & Hst2 & Hr & Hk & Hmk & Hds & HPP); try done.
    { by rewrite Hh1. }
    { congruence. }
    exists m1, ns, m2, r, dr, ds. sp; try done. by eapply xmstep_trans.
  - exfalso. destruct Hm as (i & p & _ & []).
    { by intros x y (_ & ? & _). }
    { intros i p s' Hi Hs'. destruct (HF i p s' Hi Hs') as (m'' & r & dr & -> & ? & ?). split; [done|]. by exists dr. }
Qed.

Lemma xmrecurse {B} o m h hd df dg (ps : list B) (F : mdd → B → option (mdd * nat)) :
  xmwf m → ar_headers (d_ar m) !! h = Some hd → tarmf o df dg = TRec → (mop_swap o = true → df ≠ dg) →
  rank df `max` rank dg = S (h_level hd) → length ps = h_edges hd →
  (∀ i p m', ps !! i = Some p → xmstep m m' →
     ∃ m'' r dr, F m' p = Some (m'', r) ∧ xmstep m' m'' ∧ repr (d_ar m'') dr r ∧ rank dr ≤ h_level hd ∧
       X (hin (ar_headers (d_ar m))) o (cof df (h_level hd) i) (cof dg (h_level hd) i) dr) →
  xmres o m df dg ('(m, ns) ← mapst F m ps; Some (mdd_create_node m h ns)).
Proof.
  intros Hw Hh Ha Hn Hmax Hlen HF.
  destruct (xmrec m h hd ps F _ Hw Hh Hlen HF) as (m' & ns & m2 & r & dr & ds & -> & Hc & Hst & Hr & Hk & Hmk & Hds & HPP).
  cbn [mbind option_bind]. rewrite Hc. exists m2, r, dr. sp; try done; [lia|].
  apply (X_rec _ o df dg hd ds); try done. by eapply elem_of_list_lookup_2.
Qed.

(** ** not *)
Lemma xmnot_spec n : ∀ m f df, xmwf m → repr (d_ar m) df f → rank df < n →
  xmres MNot m df (Leaf TZero) (mdd_not_f n m f).
Proof.
  induction n as [|n IH]; intros m f df Hw Hf Hn; [lia|]. cbn [mdd_not_f].
  pose proof (xmw_good _ Hw) as Hg. pose proof (mg_zero _ Hg) as Hz.
  destruct (xmcache_get m MNot f 0 df (Leaf TZero) Hw Hf Hz) as (hit & -> & Hhit). cbn [mbind option_bind].
  destruct hit as [x|].
  { destruct (Hhit x eq_refl) as (dr & Hr & Hk & Hp). by eapply xmres_const. }
  pose proof (xm_okh _ _ _ Hw Hf) as Ho.
  destruct df as [t|hd ds].
  - pose proof Hf as [Hl Ht]%repr_leaf. rewrite Ht. cbn [mbind option_bind].
    apply (xmfinish MNot); try done.
    destruct t; (eapply xmres_const; [done|by apply Hg|done|]); by apply X_ret.
  - pose proof Hf as [Hl (h & cs & Hnd & Hh & Hcs)]%repr_br. rewrite Hnd. cbn [mbind option_bind].
    apply (xmfinish MNot); try done. cbn [rank] in Hn.
    destruct (aw_nt _ _ (mg_wf _ Hg) _ _ _ Hl Hnd) as (hd' & Hh' & Hlen & _). simplify_eq.
    eapply (xmrecurse _ m h hd); try done.
    intros i p m' Hi (Hw' & He' & Hh1).
    destruct (repr_kid _ _ _ _ _ _ _ _ _ (mg_wf _ Hg) Hf Hnd Hi) as [Hrc Hkc].
    destruct (IH m' p (cof (Br hd ds) (h_level hd) i) Hw') as (m'' & r & dr & -> & Hst & Hr & Hk & Hp).
    { by eapply repr_mono. }
    { lia. }
    exists m'', r, dr. sp; try done; [cbn [rank] in Hk; lia|by rewrite Hh1 in Hp].
Qed.

(** ** binary operations *)
Definition xmarm_ok (o : mop) m df dg (x : arm) : Prop :=
  match x with
  | ARet x => ∃ dr, repr (d_ar m) dr x ∧ rank dr ≤ rank df `max` rank dg ∧ X (hin (ar_headers (d_ar m))) o df dg dr
  | ANeg x => ∃ dx, repr (d_ar m) dx x ∧ rank dx ≤ rank df `max` rank dg ∧
                ∀ dr, X (hin (ar_headers (d_ar m))) MNot dx (Leaf TZero) dr → X (hin (ar_headers (d_ar m))) o df dg dr
  | ARec => 0 < rank df `max` rank dg ∧ tarmf o df dg = TRec ∧ (mop_swap o = true → df ≠ dg)
  end.

Lemma xmarm_spec o m f g df dg fn gn : o ≠ MNot → xmwf m → repr (d_ar m) df f → repr (d_ar m) dg g →
  ar_nodes (d_ar m) !! f = Some fn → ar_nodes (d_ar m) !! g = Some gn →
  xmarm_ok o m df dg (mop_arm o f g fn gn).
Proof.
  intros Ho Hw Hf Hg Hfn Hgn. pose proof (xmw_good _ Hw) as Hgd.
  assert (Kf : match df with Leaf t => fn = Term t | Br _ _ => ∃ h cs, fn = NT h cs end).
  { destruct df as [t|hd ds]; [apply repr_leaf in Hf as [_ Hf]; congruence|].
    apply repr_br in Hf as [_ (h & cs & Hn & _)]. rewrite Hfn in Hn. injection Hn as ->. eauto. }
  assert (Kg : match dg with Leaf t => gn = Term t | Br _ _ => ∃ h cs, gn = NT h cs end).
  { destruct dg as [t|hd ds]; [apply repr_leaf in Hg as [_ Hg]; congruence|].
    apply repr_br in Hg as [_ (h & cs & Hn & _)]. rewrite Hgn in Hn. injection Hn as ->. eauto. }
  assert (Hff : f = g → df = dg).
  { intros ->. by eapply repr_fun. }
  assert (Hfg : f ≠ g → df ≠ dg).
  { intros Hne ->. apply Hne. by eapply repr_inj; [apply Hgd|..]. }
  destruct df as [tf|hdf dsf], dg as [tg|hdg dsg];
    [subst fn gn|subst fn; destruct Kg as (hg & gc & ->)|destruct Kf as (hf & fc & ->); subst gn
    |destruct Kf as (hf & fc & ->), Kg as (hg & gc & ->)]; destruct o; try done.
  all: try (destruct tf); try (destruct tg); cbn [mop_arm mdd_and_arm mdd_or_arm mdd_xor_arm mdd_replace_arm].
  all: try (destruct (Nat.eqb_spec f g) as [Heq|Hne]; [apply Hff in Heq; injection Heq as <- <-|apply Hfg in Hne]).
  all: try (cbn [xmarm_ok rank]; split; [lia|]; split; [reflexivity|]; intros Hsw; first [done|discriminate Hsw]).
  all: cbn [xmarm_ok].
  all: let go d := (exists d; split; [first [done|by apply Hgd]|]; split; [cbn; lia|];
            first [by apply X_ret|by apply X_same]) in
   let neg d := (exists d; split; [done|]; split; [cbn; lia|]; intros dr HX; first
            [ by eapply X_neg | apply X_ret; inversion HX; by subst ]) in
   first
   [ go (Leaf TZero : dd tv) | go (Leaf TOne : dd tv) | go (Leaf TUndet : dd tv)
   | match type of Hf with repr _ ?d _ => go d end
   | match type of Hg with repr _ ?d _ => go d end
   | match type of Hf with repr _ ?d _ => neg d end
   | match type of Hg with repr _ ?d _ => neg d end
   | idtac ].
Qed.

Lemma xmbin_spec o : o ≠ MNot → ∀ n m f g df dg, xmwf m → repr (d_ar m) df f → repr (d_ar m) dg g →
  rank df `max` rank dg < n → xmres o m df dg (mdd_bin_f o n m f g).
Proof.
  intros Ho. induction n as [|n IH]; intros m f g df dg Hw Hf Hg Hn; [lia|]. cbn [mdd_bin_f].
  assert (Hsw : ∃ f' g' df' dg', (if mop_swap o && (g <? f) then (g, f) else (f, g)) = (f', g') ∧
    repr (d_ar m) df' f' ∧ repr (d_ar m) dg' g' ∧ rank df' `max` rank dg' < S n ∧
    (∀ x, xmres o m df' dg' x → xmres o m df dg x)).
  { destruct (mop_swap o && (g <? f)) eqn:Hs.
    - apply andb_true_iff in Hs as [Hs _]. exists g, f, dg, df. sp; try done; [lia|].
      intros x (m' & r & dr & -> & Hst & Hr & Hk & Hp). exists m', r, dr. sp; try done; [lia|]. by apply X_sym.
    - exists f, g, df, dg. done. }
  destruct Hsw as (f' & g' & df' & dg' & -> & Hf' & Hg' & Hn' & Hback). apply Hback.
  clear f g df dg Hf Hg Hn Hback. rename f' into f, g' into g, df' into df, dg' into dg.
  rename Hf' into Hf, Hg' into Hg, Hn' into Hn.
  pose proof (xmw_good _ Hw) as Hgd.
  destruct (xmcache_get m o f g df dg Hw Hf Hg) as (hit & -> & Hhit). cbn [mbind option_bind].
  destruct hit as [x|].
  { destruct (Hhit x eq_refl) as (dr & Hr & Hk & Hp). by eapply xmres_const. }
  destruct (live_lookup _ _ (repr_live _ _ _ Hf)) as [fn Hfn].
  destruct (live_lookup _ _ (repr_live _ _ _ Hg)) as [gn Hgn].
  rewrite Hfn, Hgn. cbn [mbind option_bind]. apply xmfinish; try done.
  pose proof (xmarm_spec o m f g df dg fn gn Ho Hw Hf Hg Hfn Hgn) as Harm.
  destruct (mop_arm o f g fn gn) as [x|x|].
  - destruct Harm as (dr & Hr & Hk & Hp). by eapply xmres_const.
  - destruct Harm as (dx & Hr & Hk & Hp).
    destruct (xmnot_spec (S n) m x dx Hw Hr) as (m' & r & dr & -> & Hst & Hr' & Hk' & Hp'); [lia|].
    exists m', r, dr. sp; try done; [cbn [rank] in Hk'; lia|]. by apply Hp.
  - destruct Harm as (Hpos & Harm & Hne).
    destruct (expand_spec Rn Rn false (d_ar m) (d_ar m) f g df dg fn gn)
      as (h & hd & ps & -> & Hh & Hmax & Hlen & Hps); try done; try apply Hgd.
    cbn [mbind option_bind]. eapply (xmrecurse _ m h hd); try done.
    intros i p m' Hi (Hw' & He' & Hh'). destruct (Hps i p Hi) as (Hr1 & Hk1 & Hr2 & Hk2).
    destruct (IH m' p.1 p.2 (cof df (h_level hd) i) (cof dg (h_level hd) i)) as (m'' & r & dr & -> & Hst & Hr & Hk & Hp);
      try done; try (by eapply repr_mono).
    { lia. }
    exists m'', r, dr. sp; try done; [lia|by rewrite Hh' in Hp].
Qed.

(** ** ite *)
Definition xmires m df dg dh (o : option (mdd * nat)) : Prop :=
  ∃ m' r dr, o = Some (m', r) ∧ xmstep m m' ∧ repr (d_ar m') dr r ∧
    rank dr ≤ rank df `max` rank dg `max` rank dh ∧ X3 TUndet (hin (ar_headers (d_ar m))) df dg dh dr.

Lemma xmite_spec n : ∀ m f g h df dg dh, xmwf m →
  repr (d_ar m) df f → repr (d_ar m) dg g → repr (d_ar m) dh h →
  rank df `max` rank dg `max` rank dh < n → xmires m df dg dh (mdd_ite_f n m f g h).
Proof.
  induction n as [|n IH]; intros m f g h df dg dh Hw Hf Hg Hh Hn; [lia|]. cbn [mdd_ite_f].
  pose proof (xmw_good _ Hw) as Hgd.
  pose proof (xm_okh _ _ _ Hw Hf) as Of. pose proof (xm_okh _ _ _ Hw Hg) as Og. pose proof (xm_okh _ _ _ Hw Hh) as Oh.
  destruct df as [t|hd ds].
  { pose proof Hf as [_ Ht]%repr_leaf. rewrite Ht. cbn [mbind option_bind].
    destruct t.
    - exists m, h, dh. sp; try done; [cbn; lia|]. apply X3_zero.
    - exists m, g, dg. sp; try done; [cbn; lia|]. apply X3_one.
    - exists m, mdd_undet, (Leaf TUndet). sp; try done; [by apply Hgd|cbn; lia|]. apply X3_undet. }
  pose proof Hf as [Hl (hf & cs & Hnd & Hhd & Hcs)]%repr_br.
  rewrite Hnd. cbn [mbind option_bind].
  destruct (Nat.eqb_spec g h) as [->|Hne].
  { rewrite (repr_fun _ _ _ _ Hg Hh). exists m, h, dh. sp; try done; [lia|]. by apply X3_same. }
  destruct (xmite_get m f g h _ _ _ Hw Hf Hg Hh) as (hit & -> & Hhit). cbn [mbind option_bind].
  destruct hit as [v|].
  { destruct (Hhit v eq_refl) as (dr & Hr & Hk & Hp). exists m, v, dr. sp; done. }
  rewrite (a_hdr_level _ _ _ Hhd). cbn [mbind option_bind].
  rewrite (top_step_spec _ _ _ _ Hg). cbn [mbind option_bind].
  rewrite (top_step_spec _ _ _ _ Hh). cbn [mbind option_bind].
  set (top := (h_level hd `max` Nat.pred (rank dg)) `max` Nat.pred (rank dh)).
  set (df := Br hd ds) in *.
  assert (Hrf : rank df = S (h_level hd)) by done.
  assert (Hmax : rank df `max` rank dg `max` rank dh = S top) by (subst top; lia).
  assert (rank df ≤ S top ∧ rank dg ≤ S top ∧ rank dh ≤ S top) as (Kf & Kg & Kh) by lia.
  destruct (top_header_spec Rn (d_ar m) [f; g; h] [df; dg; dh] top) as (hid & thd & -> & Hth & Htl); try apply Hgd.
  { repeat (apply Forall2_cons; split; [done|]). done. }
  { destruct (decide (rank df = S top)); [exists df; split; [set_solver|done]|].
    destruct (decide (rank dg = S top)); [exists dg; split; [set_solver|done]|].
    exists dh; split; [set_solver|lia]. }
  cbn [mbind option_bind]. pose proof (elem_of_list_lookup_2 _ _ _ Hth) as Hin.
  destruct (cofactor_spec Rn (d_ar m) df f top thd) as (fc & -> & Lf & Cf); try done; try apply Hgd.
  destruct (cofactor_spec Rn (d_ar m) dg g top thd) as (gc & -> & Lg & Cg); try done; try apply Hgd.
  destruct (cofactor_spec Rn (d_ar m) dh h top thd) as (hc & -> & Lh & Ch); try done; try apply Hgd.
  cbn [mbind option_bind].
  destruct (triples_spec (h_edges thd) fc gc hc) as (ts & -> & Lt & Ct); try done.
  cbn [mbind option_bind]. clearbody top. subst top.
  destruct (xmrec m hid thd ts (λ m t, mdd_ite_f n m t.1.1 t.1.2 t.2)
    (λ i d, X3 TUndet (hin (ar_headers (d_ar m))) (cof df (h_level thd) i) (cof dg (h_level thd) i) (cof dh (h_level thd) i) d))
    as (m' & ns & m2 & r & dr & es & -> & Hc & Hst & Hr & Hk & Hmk & Hds & HPP); try done.
  { intros i [[x y] z] m' Hi (Hw' & He' & Hh'). destruct (Ct _ _ Hi) as (Hx & Hy & Hz). cbn [fst snd] in *.
    destruct (Cf _ _ Hx), (Cg _ _ Hy), (Ch _ _ Hz).
    destruct (IH m' x y z (cof df (h_level thd) i) (cof dg (h_level thd) i) (cof dh (h_level thd) i))
      as (m'' & r & dr & -> & Hst & Hr & Hk & Hp); try done; try (by eapply repr_mono); [lia|].
    exists m'', r, dr. sp; try done; [lia|by rewrite Hh' in Hp]. }
  cbn [mbind option_bind]. rewrite Hc. pose proof Hst as (Hw2 & He2 & Hh2).
  assert (HP : X3 TUndet (hin (ar_headers (d_ar m))) df dg dh dr).
  { apply (X3_rec _ _ df dg dh thd es); try done.
    intros Heq. apply Hne. subst dh. by eapply repr_inj; [apply Hgd|..]. }
  destruct (xmite_put m2 f g h r df dg dh dr) as (m4 & -> & Hst4 & Ha4); try done; try (by eapply repr_mono).
  { lia. }
  { by rewrite Hh2. }
  cbn [mbind option_bind]. exists m4, r, dr. rewrite Ha4. sp; try done; [|lia]. by eapply xmstep_trans.
Qed.

(** ** API *)
Lemma xmdd_not_ok m f df : xmwf m → repr (d_ar m) df f → xmres MNot m df (Leaf TZero) (mdd_not m f).
Proof. intros Hw Hf. apply xmnot_spec; try done. by eapply a_fuel_enough. Qed.
Lemma xmdd_bin_ok o m f g df dg : o ≠ MNot → xmwf m → repr (d_ar m) df f → repr (d_ar m) dg g →
  xmres o m df dg (mdd_bin_f o (ar_fuel (d_ar m)) m f g).
Proof.
  intros Ho Hw Hf Hg. pose proof (a_fuel_enough _ _ _ Hf). pose proof (a_fuel_enough _ _ _ Hg).
  apply xmbin_spec; try done. lia.
Qed.
Lemma xmdd_ite_ok m f g h df dg dh : xmwf m →
  repr (d_ar m) df f → repr (d_ar m) dg g → repr (d_ar m) dh h → xmires m df dg dh (mdd_ite m f g h).
Proof.
  intros Hw Hf Hg Hh. pose proof (a_fuel_enough _ _ _ Hf). pose proof (a_fuel_enough _ _ _ Hg).
  pose proof (a_fuel_enough _ _ _ Hh). apply xmite_spec; try done. lia.
Qed.

(** ** new, create_header, gc, clear_cache *)
Lemma xmdd_new_ok : xmwf mdd_new.
Proof.
  assert (Hl : ∀ i, live (d_ar mdd_new) i ↔ i < 3).
  { intros i. unfold live. cbn. split; [by intros [? _]|]. split; [done|apply not_elem_of_nil]. }
  constructor; cbn; try apply cache_ok_new.
  constructor; cbn.
  - constructor; cbn.
    * intros h hd H. by rewrite lookup_nil in H.
    * constructor.
    * intros id H. by apply elem_of_nil in H.
    * intros id h cs H. apply Hl in H. destruct id as [|[|[|]]]; cbn; intros; [done..|lia].
    * intros h cs id. rewrite lookup_empty. split; [done|]. intros [H Hn].
      apply Hl in H. destruct id as [|[|[|]]]; cbn in *; [done..|lia].
    * intros i j t Hi Hj Hni Hnj. apply Hl in Hi, Hj.
      destruct i as [|[|[|]]], j as [|[|[|]]]; cbn in *; try lia; congruence.
  - split; [apply Hl; unfold mdd_zero; lia|done].
  - split; [apply Hl; unfold mdd_one; lia|done].
  - split; [apply Hl; unfold mdd_undet; lia|done].
  - apply hcons_nil.
Qed.

Lemma xmdd_create_header_ok m level label edges m' h : xmwf m → hnew (ar_headers (d_ar m)) level edges →
  mdd_create_header m level label edges = (m', h) →
  xmwf m' ∧ ext (d_ar m) (d_ar m') ∧ h = length (ar_headers (d_ar m)) ∧
  ar_headers (d_ar m') = ar_headers (d_ar m) ++ [Header h level label edges] ∧
  ar_nodes (d_ar m') = ar_nodes (d_ar m) ∧ (∀ i, live (d_ar m') i ↔ live (d_ar m) i).
Proof.
  intros Hw Hnew. unfold mdd_create_header. destruct (ar_create_header _ _ _ _) as [a h0] eqn:Ha.
  intros [= <- <-]. cbn [mdd_with_ar d_ar].
  destruct (create_header_spec _ _ _ _ _ _ _ (mg_wf _ (xmw_good _ Hw)) Ha) as (Hwf & He & Hh & -> & Hns & Hl).
  sp; try done. destruct Hw as [[_ ? ? ? Hed] Hc Hi]. constructor; try done; cbn.
  - constructor; try done; try by eapply repr_mono.
    rewrite Hh. by apply hcons_app.
  - eapply cache_ok_mono; [|done]. intros k v. by apply xmcentry_mono.
  - eapply cache_ok_mono; [|done]. intros k v. by apply xmientry_mono.
Qed.

Lemma xmdd_clear_cache_ok m : xmwf m → xmwf (mdd_clear_cache m).
Proof.
  intros [Hg [Hc _] [Hi _]]. constructor; try done; cbn; by apply cache_ok_clear.
Qed.

Lemma xmdd_gc_ok m roots : xmwf m → (∀ r, r ∈ roots → live (d_ar m) r) →
  ∃ m' n, mdd_gc m roots = Some (m', n) ∧ xmwf m' ∧
    ar_headers (d_ar m') = ar_headers (d_ar m) ∧ ar_nodes (d_ar m') = ar_nodes (d_ar m) ∧
    (∀ id, live (d_ar m') id ↔ id ∈ [mdd_zero; mdd_one; mdd_undet] ∨ reach (d_ar m) roots id) ∧
    (∀ id, live (d_ar m') id → live (d_ar m) id) ∧
    n = length (ar_free (d_ar m')).
Proof.
  intros Hw Hroots. pose proof (xmw_good _ Hw) as Hg. unfold mdd_gc.
  destruct (gc_spec Rn (d_ar m) [mdd_zero; mdd_one; mdd_undet] roots)
    as (a' & lv & -> & Hwf & Hhd & Hns & Hlen & Hl & Hsub & Hm); try done.
  { apply Hg. }
  { intros b. rewrite !elem_of_cons, elem_of_nil.
    destruct Hg as [_ [??] [??] [??] _]. intros [->|[->|[->|[]]]]; eauto. }
  cbn [mbind option_bind].
  assert (Hlt : ∀ d i, repr (d_ar m) d i → i < length lv).
  { intros d i Hd. rewrite Hlen. by apply repr_live in Hd as [? _]. }
  assert (Hrg : ∀ d i, marked lv i → repr (d_ar m) d i → repr a' d i).
  { intros d i Hi Hd. eapply repr_gc; try done. by apply Hm. }
  destruct (cache_ok_retain (d_cache m) _ (xmcentry a') lv (xmw_c _ Hw)) as (c' & -> & Hc).
  { intros k v (o & df & dg & dr & Ho & Hf & Hg' & Hr & _).
    unfold words2. rewrite !Forall_cons, Forall_nil. sp; eauto. }
  { intros k v (o & df & dg & dr & Ho & Hf & Hg' & Hr & Hk & Hp) Hal.
    unfold words2 in Hal. rewrite !Forall_cons in Hal. destruct Hal as (A1 & A2 & A3 & _).
    exists o, df, dg, dr. rewrite Hhd. sp; try done; by apply Hrg. }
  cbn [mbind option_bind].
  destruct (cache_ok_retain3 (d_ite m) _ (xmientry a') lv (xmw_i _ Hw)) as (i' & -> & Hi).
  { intros k v (df & dg & dh & dr & Hf & Hg' & Hh & Hr & _).
    unfold words3. rewrite !Forall_cons, Forall_nil. sp; eauto. }
  { intros k v (df & dg & dh & dr & Hf & Hg' & Hh & Hr & Hk & Hp) Hal.
    unfold words3 in Hal. rewrite !Forall_cons in Hal. destruct Hal as (A0 & A1 & A2 & A3 & _).
    exists df, dg, dh, dr. rewrite Hhd. sp; try done; by apply Hrg. }
  cbn [mbind option_bind]. eexists _, _. split; [done|]. cbn [d_ar].
  sp; try done. constructor; try done; cbn.
  destruct Hg as [? Hz Ho Hu He]. constructor; try done.
  - apply Hrg; [|done]. apply Hm, Hl. left. set_solver.
  - apply Hrg; [|done]. apply Hm, Hl. left. set_solver.
  - apply Hrg; [|done]. apply Hm, Hl. left. set_solver.
  - by rewrite Hhd.
Qed.
