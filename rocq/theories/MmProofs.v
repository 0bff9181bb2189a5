(** Correctness of the combined manager's cross-forest operations (internal lemmas, stated on trees). *)
From Verif Require Import Prelude ComputeCache ComputeCacheProofs Arena Trees ArenaProofs Bdd ArenaMore Mdd MtMdd MtMdd2.
From Verif Require Import NaryProofs MddProofs MtProofs.

Definition crel (o : cop) (a b : vt) (r : tv) : Prop :=
  r = match a, b with VVal x, VVal y => if cop_test o x y then TOne else TZero | _, _ => TZero end.
Definition vifrel (a : tv) (b r : vt) : Prop := r = match a with TOne => b | _ => VUndet end.
Definition viterel (a : tv) (b c r : vt) : Prop :=
  match a with TOne => r = b | TZero => r = c | TUndet => r = VUndet ∨ (r = b ∧ b = c) end.

Section mm.
Context (I : vint).

Notation bar m := (d_ar (mm_b m)).
Notation var m := (t_ar (mm_v m)).
Notation hs m := (ar_headers (d_ar (mm_b m))).

Definition bentry (b : arena tv) (v : arena vt) (k : N * N * N) (x : N) : Prop :=
  ∃ o df dg dr, k.1.1 = cop_code o ∧ repr v df (N.to_nat k.1.2) ∧ repr v dg (N.to_nat k.2) ∧
    repr b dr (N.to_nat x) ∧ rank dr ≤ rank df `max` rank dg ∧ P2 (ar_headers b) (crel o) df dg dr.
Definition ventry (b : arena tv) (v : arena vt) (k : N * N * N) (x : N) : Prop :=
  ∃ df dg dr, repr b df (N.to_nat k.1.2) ∧ repr v dg (N.to_nat k.2) ∧
    repr v dr (N.to_nat x) ∧ rank dr ≤ rank df `max` rank dg ∧ P2 (ar_headers b) vifrel df dg dr.
Definition viteentry (b : arena tv) (v : arena vt) (k : N * N * N) (x : N) : Prop :=
  ∃ df dg dh dr, repr b df (N.to_nat k.1.1) ∧ repr v dg (N.to_nat k.1.2) ∧ repr v dh (N.to_nat k.2) ∧
    repr v dr (N.to_nat x) ∧ rank dr ≤ rank df `max` rank dg `max` rank dh ∧
    P3 (ar_headers b) viterel df dg dh dr.

Record mmwf (m : mm) : Prop := {
  mmw_b : mwf (mm_b m);
  mmw_v : twf I (mm_v m);
  mmw_h : ar_headers (var m) = hs m;
  mmw_bc : cache_ok (mm_bc m) (bentry (bar m) (var m));
  mmw_vc : cache_ok (mm_vc m) (ventry (bar m) (var m));
  mmw_vi : cache_ok (mm_vite m) (viteentry (bar m) (var m));
}.
Definition mmstep (m m' : mm) : Prop :=
  mmwf m' ∧ ext (bar m) (bar m') ∧ ext (var m) (var m') ∧ hs m' = hs m.

Lemma mmstep_refl m : mmwf m → mmstep m m.
Proof. intros. split; [done|]. split; [apply ext_refl|]. split; [apply ext_refl|done]. Qed.
Lemma mmstep_trans m1 m2 m3 : mmstep m1 m2 → mmstep m2 m3 → mmstep m1 m3.
Proof.
  intros (_ & H1 & H2 & H3) (? & H4 & H5 & H6). split; [done|]. split; [by eapply ext_trans|].
  split; [by eapply ext_trans|congruence].
Qed.
Lemma mmstep_refl2 m m' : mmstep m m' → mmstep m' m'.
Proof. intros [? _]. by apply mmstep_refl. Qed.

Lemma bentry_mono b b' v v' k x : ext b b' → ext v v' → bentry b v k x → bentry b' v' k x.
Proof.
  intros Hb Hv (o & df & dg & dr & Ho & Hf & Hg & Hr & Hk & Hp). exists o, df, dg, dr.
  sp; try done; try (eapply repr_mono; [exact Hv|done]); try (eapply repr_mono; [exact Hb|done]).
  eapply P2_mono; [by apply ext_hdr|done].
Qed.
Lemma ventry_mono b b' v v' k x : ext b b' → ext v v' → ventry b v k x → ventry b' v' k x.
Proof.
  intros Hb Hv (df & dg & dr & Hf & Hg & Hr & Hk & Hp). exists df, dg, dr.
  sp; try done; try (eapply repr_mono; [exact Hv|done]); try (eapply repr_mono; [exact Hb|done]).
  eapply P2_mono; [by apply ext_hdr|done].
Qed.
Lemma viteentry_mono b b' v v' k x : ext b b' → ext v v' → viteentry b v k x → viteentry b' v' k x.
Proof.
  intros Hb Hv (df & dg & dh & dr & Hf & Hg & Hh & Hr & Hk & Hp). exists df, dg, dh, dr.
  sp; try done; try (eapply repr_mono; [exact Hv|done]); try (eapply repr_mono; [exact Hb|done]).
  eapply P3_mono; [by apply ext_hdr|done].
Qed.

Lemma mmwf_ext m b v : mmwf m → mwf b → twf I v → ext (bar m) (d_ar b) → ext (var m) (t_ar v) →
  ar_headers (t_ar v) = ar_headers (d_ar b) → mmwf (MM b v (mm_bc m) (mm_vc m) (mm_vite m)).
Proof.
  intros [? ? ? Hc Hv Hi] Hb Hvv Eb Ev Hh. constructor; try done; cbn.
  - eapply cache_ok_mono; [|done]. intros k x. by apply bentry_mono.
  - eapply cache_ok_mono; [|done]. intros k x. by apply ventry_mono.
  - eapply cache_ok_mono; [|done]. intros k x. by apply viteentry_mono.
Qed.

Lemma with_b_step m b : mmwf m → mstep (mm_b m) b → mmstep m (mm_with_b m b).
Proof.
  intros Hw (Hb & He & Hh). split; [|split; [done|split; [apply ext_refl|done]]].
  apply mmwf_ext; try done; [apply Hw|]. by rewrite (mmw_h _ Hw).
Qed.
Lemma with_v_step m v : mmwf m → tstep I (mm_v m) v → mmstep m (mm_with_v m v).
Proof.
  intros Hw (Hv & He & Hh). split; [|split; [apply ext_refl|split; [done|done]]].
  apply mmwf_ext; try done; [apply Hw|]. by rewrite Hh, (mmw_h _ Hw).
Qed.

Lemma okh_b m d id : mmwf m → repr (bar m) d id → okh (hs m) d.
Proof. intros Hw. by apply m_okh, Hw. Qed.
Lemma okh_v m d id : mmwf m → repr (var m) d id → okh (hs m) d.
Proof. intros Hw. rewrite <- (mmw_h _ Hw). apply (t_okh I), Hw. Qed.
Lemma mm_hc m : mmwf m → hcons (hs m).
Proof. intros Hw. apply Hw. Qed.

Lemma cop_code_inj o o' : cop_code o = cop_code o' → o = o'.
Proof. by destruct o, o'. Qed.

(** ** Caches *)
Lemma bc_get m o f g df dg : mmwf m → repr (var m) df f → repr (var m) dg g →
  ∃ r, mm_bc_get m o f g = Some r ∧
    ∀ x, r = Some x → ∃ dr, repr (bar m) dr x ∧ rank dr ≤ rank df `max` rank dg ∧ P2 (hs m) (crel o) df dg dr.
Proof.
  intros Hw Hf Hg. unfold mm_bc_get.
  destruct (cache_ok_get _ _ (cop_code o) (N.of_nat f) (N.of_nat g) (mmw_bc _ Hw)) as (r & -> & Hr).
  cbn [mbind option_bind]. eexists. split; [done|]. intros x Hx. destruct r as [v|]; [|done].
  injection Hx as <-. destruct (Hr v eq_refl) as (o' & df' & dg' & dr & Ho & Hf' & Hg' & Hr' & Hk & Hp).
  cbn in *. rewrite !Nat2N.id in *. apply cop_code_inj in Ho as <-.
  rewrite (repr_fun _ _ _ _ Hf Hf'), (repr_fun _ _ _ _ Hg Hg'). by exists dr.
Qed.
Lemma bc_put m o f g r df dg dr : mmwf m → repr (var m) df f → repr (var m) dg g → repr (bar m) dr r →
  rank dr ≤ rank df `max` rank dg → P2 (hs m) (crel o) df dg dr →
  ∃ m', mm_bc_put m o f g r = Some m' ∧ mmstep m m' ∧ mm_b m' = mm_b m ∧ mm_v m' = mm_v m.
Proof.
  intros Hw Hf Hg Hr Hk Hp. unfold mm_bc_put.
  destruct (cache_ok_put _ _ (cop_code o) (N.of_nat f) (N.of_nat g) (N.of_nat r) (mmw_bc _ Hw)) as (c' & -> & Hc).
  { exists o, df, dg, dr. cbn. rewrite !Nat2N.id. done. }
  cbn [mbind option_bind]. eexists. split; [done|]. split; [|done].
  split; [|split; [apply ext_refl|split; [apply ext_refl|done]]]. destruct Hw. by constructor.
Qed.
Lemma vc_get m f g df dg : mmwf m → repr (bar m) df f → repr (var m) dg g →
  ∃ r, mm_vc_get m f g = Some r ∧
    ∀ x, r = Some x → ∃ dr, repr (var m) dr x ∧ rank dr ≤ rank df `max` rank dg ∧ P2 (hs m) vifrel df dg dr.
Proof.
  intros Hw Hf Hg. unfold mm_vc_get.
  destruct (cache_ok_get _ _ vif_code (N.of_nat f) (N.of_nat g) (mmw_vc _ Hw)) as (r & -> & Hr).
  cbn [mbind option_bind]. eexists. split; [done|]. intros x Hx. destruct r as [v|]; [|done].
  injection Hx as <-. destruct (Hr v eq_refl) as (df' & dg' & dr & Hf' & Hg' & Hr' & Hk & Hp).
  cbn in *. rewrite !Nat2N.id in *.
  rewrite (repr_fun _ _ _ _ Hf Hf'), (repr_fun _ _ _ _ Hg Hg'). by exists dr.
Qed.
Lemma vc_put m f g r df dg dr : mmwf m → repr (bar m) df f → repr (var m) dg g → repr (var m) dr r →
  rank dr ≤ rank df `max` rank dg → P2 (hs m) vifrel df dg dr →
  ∃ m', mm_vc_put m f g r = Some m' ∧ mmstep m m' ∧ mm_b m' = mm_b m ∧ mm_v m' = mm_v m.
Proof.
  intros Hw Hf Hg Hr Hk Hp. unfold mm_vc_put.
  destruct (cache_ok_put _ _ vif_code (N.of_nat f) (N.of_nat g) (N.of_nat r) (mmw_vc _ Hw)) as (c' & -> & Hc).
  { exists df, dg, dr. cbn. rewrite !Nat2N.id. done. }
  cbn [mbind option_bind]. eexists. split; [done|]. split; [|done].
  split; [|split; [apply ext_refl|split; [apply ext_refl|done]]]. destruct Hw. by constructor.
Qed.
Lemma vite_get m f g h df dg dh : mmwf m → repr (bar m) df f → repr (var m) dg g → repr (var m) dh h →
  ∃ r, mm_vite_get m f g h = Some r ∧
    ∀ x, r = Some x → ∃ dr, repr (var m) dr x ∧ rank dr ≤ rank df `max` rank dg `max` rank dh ∧
      P3 (hs m) viterel df dg dh dr.
Proof.
  intros Hw Hf Hg Hh. unfold mm_vite_get.
  destruct (cache_ok_get _ _ (N.of_nat f) (N.of_nat g) (N.of_nat h) (mmw_vi _ Hw)) as (r & -> & Hr).
  cbn [mbind option_bind]. eexists. split; [done|]. intros x Hx. destruct r as [v|]; [|done].
  injection Hx as <-. destruct (Hr v eq_refl) as (df' & dg' & dh' & dr & Hf' & Hg' & Hh' & Hr' & Hk & Hp).
  cbn in *. rewrite !Nat2N.id in *.
  rewrite (repr_fun _ _ _ _ Hf Hf'), (repr_fun _ _ _ _ Hg Hg'), (repr_fun _ _ _ _ Hh Hh'). by exists dr.
Qed.
Lemma vite_put m f g h r df dg dh dr : mmwf m →
  repr (bar m) df f → repr (var m) dg g → repr (var m) dh h → repr (var m) dr r →
  rank dr ≤ rank df `max` rank dg `max` rank dh → P3 (hs m) viterel df dg dh dr →
  ∃ m', mm_vite_put m f g h r = Some m' ∧ mmstep m m' ∧ mm_b m' = mm_b m ∧ mm_v m' = mm_v m.
Proof.
  intros Hw Hf Hg Hh Hr Hk Hp. unfold mm_vite_put.
  destruct (cache_ok_put _ _ (N.of_nat f) (N.of_nat g) (N.of_nat h) (N.of_nat r) (mmw_vi _ Hw)) as (c' & -> & Hc).
  { exists df, dg, dh, dr. cbn. rewrite !Nat2N.id. done. }
  cbn [mbind option_bind]. eexists. split; [done|]. split; [|done].
  split; [|split; [apply ext_refl|split; [apply ext_refl|done]]]. destruct Hw. by constructor.
Qed.

(** ** recursion, then create_node in one of the forests *)
Lemma mmrec_b {A} m h hd (ps : list A) (F : mm → A → option (mm * nat)) (PP : nat → dd tv → Prop) :
  mmwf m → hs m !! h = Some hd → length ps = h_edges hd →
  (∀ i p m', ps !! i = Some p → mmstep m m' →
     ∃ m'' r dr, F m' p = Some (m'', r) ∧ mmstep m' m'' ∧ repr (bar m'') dr r ∧ rank dr ≤ h_level hd ∧ PP i dr) →
  ∃ m' ns b r dr ds, mapst F m ps = Some (m', ns) ∧ mdd_create_node (mm_b m') h ns = (b, r) ∧
    mmstep m (mm_with_b m' b) ∧
    repr (d_ar b) dr r ∧ rank dr ≤ S (h_level hd) ∧ mkrel hd ds dr ∧ length ds = h_edges hd ∧
    (∀ i d, ds !! i = Some d → PP i d).
Proof.
  intros Hw Hh Hlen HF.
  pose proof (mapst_idx mmstep (λ m, bar m) (λ _ _, False) F ps m (h_level hd) PP mmstep_trans mmstep_refl2
    (mmstep_refl m Hw)) as Hm.
  assert (He : ∀ x y, mmstep x y → ext (bar x) (bar y)) by by intros x y (_ & ? & _).
  specialize (Hm He). assert (HF' : ∀ i p s', ps !! i = Some p → mmstep m s' →
    match F s' p with Some (s'', r) => mmstep s' s'' ∧ ∃ dr, repr (bar s'') dr r ∧ rank dr ≤ h_level hd ∧ PP i dr
    | None => False end).
  { intros i p s' Hi Hs'. destruct (HF i p s' Hi Hs') as (m'' & r & dr & -> & ? & ?). split; [done|]. by exists dr. }
  specialize (Hm HF').
  destruct (mapst F m ps) as [[m1 ns]|]; [|by destruct Hm as (i & p & _ & [])].
  destruct Hm as (Hst & Hlns & Hns).
  pose proof Hst as (Hw1 & He1 & He1' & Hh1).
  destruct (mcreate_node (mm_b m1) h hd ns PP) as (m2 & r & dr & ds & Hc & Hst2 & Hr & Hk & Hmk & Hds & HPP); try done.
  { apply Hw1. }
  { by rewrite Hh1. }
  { congruence. }
  exists m1, ns, m2, r, dr, ds. sp; try done. eapply mmstep_trans; [exact Hst|]. by apply with_b_step.
Qed.
Lemma mmrec_v {A} m h hd (ps : list A) (F : mm → A → option (mm * nat)) (PP : nat → dd vt → Prop) :
  mmwf m → hs m !! h = Some hd → length ps = h_edges hd →
  (∀ i p m', ps !! i = Some p → mmstep m m' →
     ∃ m'' r dr, F m' p = Some (m'', r) ∧ mmstep m' m'' ∧ repr (var m'') dr r ∧ rank dr ≤ h_level hd ∧ PP i dr) →
  ∃ m' ns v r dr ds, mapst F m ps = Some (m', ns) ∧ mt_create_node (mm_v m') h ns = (v, r) ∧
    mmstep m (mm_with_v m' v) ∧
    repr (t_ar v) dr r ∧ rank dr ≤ S (h_level hd) ∧ mkrel hd ds dr ∧ length ds = h_edges hd ∧
    (∀ i d, ds !! i = Some d → PP i d).
Proof.
  intros Hw Hh Hlen HF.
  pose proof (mapst_idx mmstep (λ m, var m) (λ _ _, False) F ps m (h_level hd) PP mmstep_trans mmstep_refl2
    (mmstep_refl m Hw)) as Hm.
  assert (He : ∀ x y, mmstep x y → ext (var x) (var y)) by by intros x y (_ & _ & ? & _).
  specialize (Hm He). assert (HF' : ∀ i p s', ps !! i = Some p → mmstep m s' →
    match F s' p with Some (s'', r) => mmstep s' s'' ∧ ∃ dr, repr (var s'') dr r ∧ rank dr ≤ h_level hd ∧ PP i dr
    | None => False end).
  { intros i p s' Hi Hs'. destruct (HF i p s' Hi Hs') as (m'' & r & dr & -> & ? & ?). split; [done|]. by exists dr. }
  specialize (Hm HF').
  destruct (mapst F m ps) as [[m1 ns]|]; [|by destruct Hm as (i & p & _ & [])].
  destruct Hm as (Hst & Hlns & Hns).
  pose proof Hst as (Hw1 & He1 & He1' & Hh1).
  destruct (tcreate_node I (mm_v m1) h hd ns PP) as (m2 & r & dr & ds & Hc & Hst2 & Hr & Hk & Hmk & Hds & HPP); try done.
  { apply Hw1. }
  { by rewrite (mmw_h _ Hw1), Hh1. }
  { congruence. }
  exists m1, ns, m2, r, dr, ds. sp; try done. eapply mmstep_trans; [exact Hst|]. by apply with_v_step.
Qed.

Lemma node_kind {T} (a : arena T) d id n : repr a d id → ar_nodes a !! id = Some n →
  match d with Leaf t => n = Term t | Br _ _ => ∃ h cs, n = NT h cs end.
Proof.
  intros Hr Hn. destruct d as [t|hd ds].
  - apply repr_leaf in Hr as [_ Hr]. congruence.
  - apply repr_br in Hr as [_ (h & cs & Hn' & _)]. rewrite Hn in Hn'. injection Hn' as ->. eauto.
Qed.

(** ** comparisons *)
Definition cres o m df dg (x : option (mm * nat)) : Prop :=
  ∃ m' r dr, x = Some (m', r) ∧ mmstep m m' ∧ repr (bar m') dr r ∧ rank dr ≤ rank df `max` rank dg ∧
    P2 (hs m) (crel o) df dg dr.

Lemma cmp_spec o : ∀ n m f g df dg, mmwf m → repr (var m) df f → repr (var m) dg g →
  rank df `max` rank dg < n → cres o m df dg (mm_cmp_f o n m f g).
Proof.
  induction n as [|n IH]; intros m f g df dg Hw Hf Hg Hn; [lia|]. cbn [mm_cmp_f].
  destruct (bc_get m o f g df dg Hw Hf Hg) as (hit & -> & Hhit). cbn [mbind option_bind].
  destruct hit as [x|].
  { destruct (Hhit x eq_refl) as (dr & Hr & Hk & Hp). exists m, x, dr. sp; try done. }
  destruct (live_lookup _ _ (repr_live _ _ _ Hf)) as [fn Hfn].
  destruct (live_lookup _ _ (repr_live _ _ _ Hg)) as [gn Hgn].
  rewrite Hfn, Hgn. cbn [mbind option_bind].
  pose proof (node_kind _ _ _ _ Hf Hfn) as Kf. pose proof (node_kind _ _ _ _ Hg Hgn) as Kg.
  pose proof (okh_v _ _ _ Hw Hf) as Of. pose proof (okh_v _ _ _ Hw Hg) as Og.
  pose proof (mw_good _ (mmw_b _ Hw)) as Hgd.
  assert (Hfin : ∀ y, cres o m df dg y → cres o m df dg ('(m, result) ← y; m ← mm_bc_put m o f g result; Some (m, result))).
  { intros y (m' & r & dr & -> & Hst & Hr & Hk & Hp). cbn [mbind option_bind]. pose proof Hst as (Hw' & Eb & Ev & Hh).
    destruct (bc_put m' o f g r df dg dr) as (m'' & -> & Hst3 & Hb & Hv); try done; try (by eapply repr_mono).
    { by rewrite Hh. }
    cbn [mbind option_bind]. exists m'', r, dr. rewrite Hb. sp; try done. by eapply mmstep_trans. }
  apply Hfin. clear Hfin.
  assert (Hleaf : ∀ t x, repr (bar m) (Leaf t) x → (∀ ρ a b, eval ρ df = Some a → eval ρ dg = Some b → crel o a b t) →
    cres o m df dg (Some (m, x))).
  { intros t x Hx HR. exists m, x, (Leaf t). sp; try done; [cbn; lia|]. apply P2_intro; try done.
    intros ρ a b r _ Ea Eb [= <-]. eauto. }
  assert (Harm : match cop_arm o fn gn with Some x => cres o m df dg (Some (m, x)) | None => 0 < rank df `max` rank dg end).
  { destruct df as [[|zf]|hdf dsf], dg as [[|zg]|hdg dsg]; try subst fn; try subst gn; try destruct Kf as (hf & fc & ->);
      try destruct Kg as (hg & gc & ->); cbn [cop_arm]; try (cbn [rank]; lia);
      try (apply (Hleaf TZero); [apply Hgd|]; intros ρ a b Ea Eb; try (cbn in Ea); try (cbn in Eb); simplify_eq;
           unfold crel; try (destruct a); done).
    destruct (cop_test o zf zg) eqn:Ht.
    - apply (Hleaf TOne); [apply Hgd|]. intros ρ a b [= <-] [= <-]. unfold crel. by rewrite Ht.
    - apply (Hleaf TZero); [apply Hgd|]. intros ρ a b [= <-] [= <-]. unfold crel. by rewrite Ht. }
  destruct (cop_arm o fn gn) as [x|]; [done|].
  pose proof (tw_good _ _ (mmw_v _ Hw)) as Hgv.
  destruct (expand_spec Rn Rn true (var m) (var m) f g df dg fn gn)
    as (h & hd & ps & -> & Hh & Hmax & Hlen & Hps); try done; try apply Hgv.
  cbn [mbind option_bind]. rewrite (mmw_h _ Hw) in Hh.
  destruct (mmrec_b m h hd ps (λ m p, mm_cmp_f o n m p.1 p.2)
    (λ i d, P2 (hs m) (crel o) (cof df (h_level hd) i) (cof dg (h_level hd) i) d))
    as (m' & ns & b & r & dr & ds & -> & Hc & Hst & Hr & Hk & Hmk & Hds & HPP); try done.
  { intros i p m' Hi (Hw' & Eb & Ev & Hh'). destruct (Hps i p Hi) as (Hr1 & Hk1 & Hr2 & Hk2).
    destruct (IH m' p.1 p.2 (cof df (h_level hd) i) (cof dg (h_level hd) i)) as (m'' & r & dr & -> & Hst & Hr & Hk & Hp);
      try done; try (by eapply repr_mono).
    { lia. }
    exists m'', r, dr. sp; try done; [lia|by rewrite Hh' in Hp]. }
  cbn [mbind option_bind]. rewrite Hc. exists (mm_with_b m' b), r, dr. sp; try done; [lia|].
  eapply shannon2; try done; [by apply mm_hc|by eapply elem_of_list_lookup_2].
Qed.

(** ** vif *)
Definition vifres m df dg (x : option (mm * nat)) : Prop :=
  ∃ m' r dr, x = Some (m', r) ∧ mmstep m m' ∧ repr (var m') dr r ∧ rank dr ≤ rank df `max` rank dg ∧
    P2 (hs m) vifrel df dg dr.

Lemma vif_spec : ∀ n m f g df dg, mmwf m → repr (bar m) df f → repr (var m) dg g →
  rank df `max` rank dg < n → vifres m df dg (mm_vif_f n m f g).
Proof.
  induction n as [|n IH]; intros m f g df dg Hw Hf Hg Hn; [lia|]. cbn [mm_vif_f].
  destruct (vc_get m f g df dg Hw Hf Hg) as (hit & -> & Hhit). cbn [mbind option_bind].
  destruct hit as [x|].
  { destruct (Hhit x eq_refl) as (dr & Hr & Hk & Hp). exists m, x, dr. sp; try done. }
  destruct (live_lookup _ _ (repr_live _ _ _ Hf)) as [fn Hfn].
  destruct (live_lookup _ _ (repr_live _ _ _ Hg)) as [gn Hgn].
  rewrite Hfn, Hgn. cbn [mbind option_bind].
  pose proof (node_kind _ _ _ _ Hf Hfn) as Kf. pose proof (node_kind _ _ _ _ Hg Hgn) as Kg.
  pose proof (okh_b _ _ _ Hw Hf) as Of. pose proof (okh_v _ _ _ Hw Hg) as Og.
  pose proof (mw_good _ (mmw_b _ Hw)) as Hgd. pose proof (tw_good _ _ (mmw_v _ Hw)) as Hgv.
  assert (Hfin : ∀ y, vifres m df dg y → vifres m df dg ('(m, result) ← y; m ← mm_vc_put m f g result; Some (m, result))).
  { intros y (m' & r & dr & -> & Hst & Hr & Hk & Hp). cbn [mbind option_bind]. pose proof Hst as (Hw' & Eb & Ev & Hh).
    destruct (vc_put m' f g r df dg dr) as (m'' & -> & Hst3 & Hb & Hv); try done;
      try (eapply repr_mono; [exact Eb|done]); try (eapply repr_mono; [exact Ev|done]).
    { by rewrite Hh. }
    cbn [mbind option_bind]. exists m'', r, dr. rewrite Hv. sp; try done. by eapply mmstep_trans. }
  apply Hfin. clear Hfin.
  assert (Hleaf : ∀ d x, repr (var m) d x → okh (hs m) d → rank d ≤ rank df `max` rank dg →
    (∀ ρ a b r, eval ρ df = Some a → eval ρ dg = Some b → eval ρ d = Some r → vifrel a b r) →
    vifres m df dg (Some (m, x))).
  { intros d x Hx Od Kd HR. exists m, x, d. sp; try done. apply P2_intro; try done.
    intros ρ a b r _ Ea Eb Er. eauto. }
  assert (Harm : match vif_arm g fn gn with Some x => vifres m df dg (Some (m, x)) | None => 0 < rank df `max` rank dg end).
  { destruct df as [[| |]|hdf dsf], dg as [[|zg]|hdg dsg]; try subst fn; try subst gn; try destruct Kf as (hf & fc & ->);
      try destruct Kg as (hg & gc & ->); cbn [vif_arm]; try (cbn [rank]; lia).
    all: first
     [ apply (Hleaf (Leaf VUndet)); [apply Hgv|done|cbn; lia|];
       intros ρ a b r Ea Eb Er; try (cbn in Ea); try (cbn in Eb); cbn in Er; simplify_eq; unfold vifrel;
       try (destruct a); congruence
     | match type of Hg with repr _ ?d _ => apply (Hleaf d) end; [done|done|cbn; lia|];
       intros ρ a b r Ea Eb Er; cbn in Ea; simplify_eq; unfold vifrel; congruence ]. }
  destruct (vif_arm g fn gn) as [x|]; [done|].
  destruct (expand_spec Rn Rn true (bar m) (var m) f g df dg fn gn)
    as (h & hd & ps & -> & Hh & Hmax & Hlen & Hps); try done; try apply Hgv; try apply Hgd.
  { by rewrite (mmw_h _ Hw). }
  cbn [mbind option_bind].
  destruct (mmrec_v m h hd ps (λ m p, mm_vif_f n m p.1 p.2)
    (λ i d, P2 (hs m) vifrel (cof df (h_level hd) i) (cof dg (h_level hd) i) d))
    as (m' & ns & b & r & dr & ds & -> & Hc & Hst & Hr & Hk & Hmk & Hds & HPP); try done.
  { intros i p m' Hi (Hw' & Eb & Ev & Hh'). destruct (Hps i p Hi) as (Hr1 & Hk1 & Hr2 & Hk2).
    destruct (IH m' p.1 p.2 (cof df (h_level hd) i) (cof dg (h_level hd) i)) as (m'' & r & dr & -> & Hst & Hr & Hk & Hp);
      try done; try (eapply repr_mono; [exact Eb|done]); try (eapply repr_mono; [exact Ev|done]).
    { lia. }
    exists m'', r, dr. sp; try done; [lia|by rewrite Hh' in Hp]. }
  cbn [mbind option_bind]. rewrite Hc. exists (mm_with_v m' b), r, dr. sp; try done; [lia|].
  eapply shannon2; try done; [by apply mm_hc|by eapply elem_of_list_lookup_2].
Qed.

(** ** vite *)
Definition viteres m df dg dh (x : option (mm * nat)) : Prop :=
  ∃ m' r dr, x = Some (m', r) ∧ mmstep m m' ∧ repr (var m') dr r ∧
    rank dr ≤ rank df `max` rank dg `max` rank dh ∧ P3 (hs m) viterel df dg dh dr.

Lemma vite_top_header_spec m f g h df dg dh top : mmwf m →
  repr (bar m) df f → repr (var m) dg g → repr (var m) dh h →
  rank df = S top ∨ rank dg = S top ∨ rank dh = S top →
  ∃ hid thd, vite_top_header m f g h top = Some (hid, h_edges thd) ∧ hs m !! hid = Some thd ∧ h_level thd = top.
Proof.
  intros Hw Hf Hg Hh Htop. unfold vite_top_header. rewrite (a_node_level _ _ _ Hf). cbn [mbind option_bind].
  pose proof (tg_wf _ _ (tw_good _ _ (mmw_v _ Hw))) as Hwv. pose proof (mg_wf _ (mw_good _ (mmw_b _ Hw))) as Hwb.
  assert (Hrest : rank df ≠ S top → ∃ hid thd, ite_top_header (var m) [g; h] top = Some (hid, h_edges thd) ∧
    hs m !! hid = Some thd ∧ h_level thd = top).
  { intros Hne. destruct (top_header_spec Rn (var m) [g; h] [dg; dh] top Hwv) as (hid & thd & ? & Hx & ?).
    { repeat (apply Forall2_cons; split; [done|]). done. }
    { destruct Htop as [?|[?|?]]; [done|exists dg|exists dh]; (split; [set_solver|done]). }
    rewrite (mmw_h _ Hw) in Hx. by exists hid, thd. }
  destruct df as [t|hd ds].
  { rewrite decide_False by done. apply Hrest. done. }
  destruct (decide (Some (h_level hd) = Some top)) as [[= Heq]|Hne].
  - apply repr_br in Hf as [Hl (hf & cs & Hn & Hhd & _)]. rewrite Hn. cbn [mbind option_bind].
    exists hf, hd. split; [|done]. destruct (aw_nt _ _ Hwb _ _ _ Hl Hn) as (hd' & Hh' & -> & _). by simplify_eq.
  - apply Hrest. cbn [rank]. congruence.
Qed.

Lemma vite_spec n : ∀ m f g h df dg dh, mmwf m →
  repr (bar m) df f → repr (var m) dg g → repr (var m) dh h →
  rank df `max` rank dg `max` rank dh < n → viteres m df dg dh (mm_vite_f n m f g h).
Proof.
  induction n as [|n IH]; intros m f g h df dg dh Hw Hf Hg Hh Hn; [lia|]. cbn [mm_vite_f].
  pose proof (mw_good _ (mmw_b _ Hw)) as Hgd. pose proof (tw_good _ _ (mmw_v _ Hw)) as Hgv.
  pose proof (okh_b _ _ _ Hw Hf) as Of. pose proof (okh_v _ _ _ Hw Hg) as Og. pose proof (okh_v _ _ _ Hw Hh) as Oh.
  destruct df as [t|hd ds].
  { pose proof Hf as [_ Ht]%repr_leaf. rewrite Ht. cbn [mbind option_bind].
    destruct t.
    - exists m, h, dh. sp; try done; [cbn; lia|]. apply P3_intro; try done.
      intros ρ a b c r _. cbn. intros [= <-] E1 E2 E3. cbn. congruence.
    - exists m, g, dg. sp; try done; [cbn; lia|]. apply P3_intro; try done.
      intros ρ a b c r _. cbn. intros [= <-] E1 E2 E3. cbn. congruence.
    - exists m, mt_undet, (Leaf VUndet). sp; try done; [by apply Hgv|cbn; lia|]. apply P3_intro; try done.
      intros ρ a b c r _. cbn. intros [= <-] E1 E2 [= <-]. by left. }
  pose proof Hf as [Hl (hf & cs & Hnd & Hhd & Hcs)]%repr_br.
  rewrite Hnd. cbn [mbind option_bind].
  destruct (Nat.eqb_spec g h) as [->|Hne].
  { rewrite (repr_fun _ _ _ _ Hg Hh). exists m, h, dh. sp; try done; [lia|]. apply P3_intro; try done.
    intros ρ a b c r _ _ E1 E2 E3. unfold viterel. destruct a; [congruence|congruence|]. right. split; congruence. }
  destruct (vite_get m f g h _ _ _ Hw Hf Hg Hh) as (hit & -> & Hhit). cbn [mbind option_bind].
  destruct hit as [v|].
  { destruct (Hhit v eq_refl) as (dr & Hr & Hk & Hp). exists m, v, dr. sp; done. }
  rewrite (a_hdr_level _ _ _ Hhd). cbn [mbind option_bind].
  rewrite (top_step_spec _ _ _ _ Hg). cbn [mbind option_bind].
  rewrite (top_step_spec _ _ _ _ Hh). cbn [mbind option_bind].
  set (top := (h_level hd `max` Nat.pred (rank dg)) `max` Nat.pred (rank dh)).
  set (df := Br hd ds) in *.
  assert (Hrf : rank df = S (h_level hd)) by done.
  assert (Hmax : rank df `max` rank dg `max` rank dh = S top) by (subst top; lia).
  assert (rank df ≤ S top ∧ rank dg ≤ S top ∧ rank dh ≤ S top) as (Kf & Kg & Kh) by lia.
  destruct (vite_top_header_spec m f g h df dg dh top) as (hid & thd & -> & Hth & Htl); try done.
  { lia. }
  cbn [mbind option_bind]. pose proof (elem_of_list_lookup_2 _ _ _ Hth) as Hin.
  assert (Hinv : thd ∈ ar_headers (var m)) by by rewrite (mmw_h _ Hw).
  destruct (cofactor_spec Rn (bar m) df f top thd) as (fc & -> & Lf & Cf); try done; try apply Hgd.
  destruct (cofactor_spec Rn (var m) dg g top thd) as (gc & -> & Lg & Cg); try done; try apply Hgv.
  destruct (cofactor_spec Rn (var m) dh h top thd) as (hc & -> & Lh & Ch); try done; try apply Hgv.
  cbn [mbind option_bind].
  destruct (triples_spec (h_edges thd) fc gc hc) as (ts & -> & Lt & Ct); try done.
  cbn [mbind option_bind]. clearbody top. subst top.
  destruct (mmrec_v m hid thd ts (λ m t, mm_vite_f n m t.1.1 t.1.2 t.2)
    (λ i d, P3 (hs m) viterel (cof df (h_level thd) i) (cof dg (h_level thd) i) (cof dh (h_level thd) i) d))
    as (m' & ns & v & r & dr & es & -> & Hc & Hst & Hr & Hk & Hmk & Hds & HPP); try done.
  { intros i [[x y] z] m' Hi (Hw' & Eb & Ev & Hh'). destruct (Ct _ _ Hi) as (Hx & Hy & Hz). cbn [fst snd] in *.
    destruct (Cf _ _ Hx), (Cg _ _ Hy), (Ch _ _ Hz).
    destruct (IH m' x y z (cof df (h_level thd) i) (cof dg (h_level thd) i) (cof dh (h_level thd) i))
      as (m'' & r & dr & -> & Hst & Hr & Hk & Hp); try done;
      try (eapply repr_mono; [exact Eb|done]); try (eapply repr_mono; [exact Ev|done]); [lia|].
    exists m'', r, dr. sp; try done; [lia|by rewrite Hh' in Hp]. }
  cbn [mbind option_bind]. rewrite Hc. pose proof Hst as (Hw2 & Eb2 & Ev2 & Hh2).
  assert (HP : P3 (hs m) viterel df dg dh dr).
  { eapply shannon3; try done. by apply mm_hc. }
  destruct (vite_put (mm_with_v m' v) f g h r df dg dh dr) as (m4 & -> & Hst4 & Hb4 & Hv4); try done;
    try (eapply repr_mono; [exact Eb2|done]); try (eapply repr_mono; [exact Ev2|done]).
  { lia. }
  { by rewrite Hh2. }
  cbn [mbind option_bind]. exists m4, r, dr. rewrite Hv4. sp; try done; [|lia]. by eapply mmstep_trans.
Qed.

(** ** API *)
Lemma mm_fuel m : mmwf m → ar_fuel (var m) = ar_fuel (bar m).
Proof. intros Hw. unfold ar_fuel. by rewrite (mmw_h _ Hw). Qed.

Lemma mm_cmp_ok o m f g df dg : mmwf m → repr (var m) df f → repr (var m) dg g →
  cres o m df dg (mm_cmp_f o (ar_fuel (var m)) m f g).
Proof.
  intros Hw Hf Hg. pose proof (a_fuel_enough _ _ _ Hf). pose proof (a_fuel_enough _ _ _ Hg).
  apply cmp_spec; try done. lia.
Qed.
Lemma mm_vif_ok m f g df dg : mmwf m → repr (bar m) df f → repr (var m) dg g → vifres m df dg (mm_vif m f g).
Proof.
  intros Hw Hf Hg. pose proof (a_fuel_enough _ _ _ Hf). pose proof (a_fuel_enough _ _ _ Hg).
  rewrite (mm_fuel m Hw) in *. apply vif_spec; try done. lia.
Qed.
Lemma mm_vite_ok m f g h df dg dh : mmwf m → repr (bar m) df f → repr (var m) dg g → repr (var m) dh h →
  viteres m df dg dh (mm_vite_op m f g h).
Proof.
  intros Hw Hf Hg Hh. pose proof (a_fuel_enough _ _ _ Hf). pose proof (a_fuel_enough _ _ _ Hg).
  pose proof (a_fuel_enough _ _ _ Hh).
  rewrite (mm_fuel m Hw) in *. apply vite_spec; try done. lia.
Qed.

Lemma mm_new_ok : mmwf mm_new.
Proof.
  constructor; cbn; try apply cache_ok_new; [apply mdd_new_ok|apply mt_new_ok|done].
Qed.

Lemma mm_create_header_ok m level label edges : mmwf m → hnew (hs m) level edges →
  ∃ m', mm_create_header m level label edges = Some (m', length (hs m)) ∧ mmwf m' ∧
    ext (bar m) (bar m') ∧ ext (var m) (var m') ∧
    hs m' = hs m ++ [Header (length (hs m)) level label edges] ∧
    ar_nodes (bar m') = ar_nodes (bar m) ∧ ar_nodes (var m') = ar_nodes (var m) ∧
    (∀ i, live (bar m') i ↔ live (bar m) i) ∧ (∀ i, live (var m') i ↔ live (var m) i).
Proof.
  intros Hw Hnew. unfold mm_create_header.
  destruct (mt_create_header (mm_v m) level label edges) as [v h1] eqn:Hv.
  destruct (mdd_create_header (mm_b m) level label edges) as [b h2] eqn:Hb.
  destruct (mdd_create_header_ok _ _ _ _ _ _ (mmw_b _ Hw) Hnew Hb) as (Wb & Eb & -> & Hhb & Nb & Lb).
  apply (mt_create_header_ok I) in Hv as (Wv & Ev & -> & Hhv & Nv & Lv); [|apply Hw|].
  2:{ rewrite (mmw_h _ Hw). apply hcons_app; [by apply mm_hc|done]. }
  rewrite (mmw_h _ Hw) in *. rewrite Nat.eqb_refl.
  eexists. split; [done|]. cbn. sp; try done. apply mmwf_ext; try done. congruence.
Qed.

Lemma mm_clear_cache_ok m : mmwf m → mmwf (mm_clear_cache m).
Proof.
  intros [Hb Hv Hh [Hc _] [Hvc _] [Hvi _]]. constructor; cbn.
  - by apply mdd_clear_cache_ok.
  - by apply mt_clear_cache_ok.
  - done.
  - by apply cache_ok_clear.
  - by apply cache_ok_clear.
  - by apply cache_ok_clear.
Qed.

Lemma mm_gc_ok m roots : mmwf m →
  (∀ f, NVal f ∈ roots → live (var m) f) → (∀ f, NBool f ∈ roots → live (bar m) f) →
  ∃ m' nv nb, mm_gc m roots = Some (m', (nv, nb)) ∧ mmwf m' ∧ hs m' = hs m ∧
    ar_nodes (bar m') = ar_nodes (bar m) ∧ ar_nodes (var m') = ar_nodes (var m) ∧
    (∀ id, live (bar m') id ↔ id ∈ [mdd_zero; mdd_one; mdd_undet] ∨ reach (bar m) (broots roots) id) ∧
    (∀ id, live (var m') id ↔ id ∈ [mt_undet] ∨ reach (var m) (vroots roots) id) ∧
    (∀ id, live (bar m') id → live (bar m) id) ∧ (∀ id, live (var m') id → live (var m) id) ∧
    nv = length (ar_free (var m')) ∧ nb = length (ar_free (bar m')).
Proof.
  intros Hw Hv Hb. unfold mm_gc.
  destruct (mt_gc_ok I (mm_v m) (vroots roots) (mmw_v _ Hw)) as (v & nv & -> & Wv & Hhv & Nv & Lv & Sv & Fv).
  { intros r Hr. unfold vroots in Hr. apply elem_of_list_omap in Hr as ([x|x] & Hin & Hx); [|done].
    injection Hx as <-. by apply Hv. }
  cbn [mbind option_bind].
  destruct (mdd_gc_ok (mm_b m) (broots roots) (mmw_b _ Hw)) as (b & nb & -> & Wb & Hhb & Nb & Lb & Sb & Fb).
  { intros r Hr. unfold broots in Hr. apply elem_of_list_omap in Hr as ([x|x] & Hin & Hx); [done|].
    injection Hx as <-. by apply Hb. }
  cbn [mbind option_bind]. eexists _, nv, nb. split; [done|]. cbn [mm_b mm_v].
  sp; try done. destruct Hw as [_ _ Hh [Hc _] [Hvc _] [Hvi _]]. constructor; cbn; try done.
  - congruence.
  - by apply cache_ok_clear.
  - by apply cache_ok_clear.
  - by apply cache_ok_clear.
Qed.
End mm.
