(** The combined manager's value if-then-else behaves exactly as the relation of NExact.v says, whatever is in the caches. *)
From Verif Require Import Prelude ComputeCache ComputeCacheProofs Arena Trees StripTrees ArenaProofs Bdd ArenaMore Mdd MtMdd MtMdd2.
From Verif Require Import NaryProofs MddProofs MtProofs MmProofs NExact MddExact.

Section mm.
Context (I : vint).
Notation bar m := (d_ar (mm_b m)).
Notation var m := (t_ar (mm_v m)).
Notation hs m := (ar_headers (d_ar (mm_b m))).

Definition xventry (b : arena tv) (v : arena vt) (k : N * N * N) (x : N) : Prop :=
  ∃ df dg dh dr, repr b df (N.to_nat k.1.1) ∧ repr v dg (N.to_nat k.1.2) ∧ repr v dh (N.to_nat k.2) ∧
    repr v dr (N.to_nat x) ∧ rank dr ≤ rank df `max` rank dg `max` rank dh ∧
    X3 VUndet (hin (ar_headers b)) df dg dh dr.
Record xvwf (m : mm) : Prop := {
  xv_wf : mmwf I m;
  xv_vi : cache_ok (mm_vite m) (xventry (bar m) (var m));
}.
(** no step below touches the boolean forest *)
Definition xvstep (m m' : mm) : Prop :=
  xvwf m' ∧ mm_b m' = mm_b m ∧ ext (var m) (var m') ∧ hs m' = hs m.
Lemma xvstep_refl m : xvwf m → xvstep m m.
Proof. intros. split; [done|]. split; [done|]. split; [apply ext_refl|done]. Qed.
Lemma xvstep_trans m1 m2 m3 : xvstep m1 m2 → xvstep m2 m3 → xvstep m1 m3.
Proof. intros (_ & H1 & H2 & H3) (? & H4 & H5 & H6). split; [done|]. split; [congruence|]. split; [by eapply ext_trans|congruence]. Qed.
Lemma xvstep_refl2 m m' : xvstep m m' → xvstep m' m'.
Proof. intros [? _]. by apply xvstep_refl. Qed.

Lemma xventry_mono b b' v v' k x : ext b b' → ext v v' → xventry b v k x → xventry b' v' k x.
Proof.
  intros Hb Hv (df & dg & dh & dr & Hf & Hg & Hh & Hr & Hk & Hp). exists df, dg, dh, dr.
  sp; try done; try (eapply repr_mono; [exact Hv|done]); try (eapply repr_mono; [exact Hb|done]).
  eapply X3_mono; [|exact Hp]. intros ?. by apply hin_mono.
Qed.
Lemma xvite_get m f g h df dg dh : xvwf m → repr (bar m) df f → repr (var m) dg g → repr (var m) dh h →
  ∃ r, mm_vite_get m f g h = Some r ∧
    ∀ x, r = Some x → ∃ dr, repr (var m) dr x ∧ rank dr ≤ rank df `max` rank dg `max` rank dh ∧
      X3 VUndet (hin (hs m)) df dg dh dr.
Proof.
  intros Hw Hf Hg Hh. unfold mm_vite_get.
  destruct (cache_ok_get _ _ (N.of_nat f) (N.of_nat g) (N.of_nat h) (xv_vi _ Hw)) as (r & -> & Hr).
  cbn [mbind option_bind]. eexists. split; [done|]. intros x Hx. destruct r as [v|]; [|done].
  injection Hx as <-. destruct (Hr v eq_refl) as (df' & dg' & dh' & dr & Hf' & Hg' & Hh' & Hr' & Hk & Hp).
  cbn in *. rewrite !Nat2N.id in *.
  rewrite (repr_fun _ _ _ _ Hf Hf'), (repr_fun _ _ _ _ Hg Hg'), (repr_fun _ _ _ _ Hh Hh'). by exists dr.
Qed.
(** a stored entry is right in both senses *)
Lemma X3_P3 hs df dg dh dr : hcons hs → okh hs df → okh hs dg → okh hs dh → X3 VUndet (hin hs) df dg dh dr → P3 hs viterel df dg dh dr.
Proof.
  intros Hc Of Og Oh HX. revert Of Og Oh.
  induction HX as [| | |df d Hb|df dg dh hd ds dr Hb Hn Hh Hk Hl HX IH Hm]; intros Of Og Oh.
  - apply P3_intro; try done. intros ρ a b c r _. cbn. intros [= <-] E1 E2 E3. cbn. congruence.
  - apply P3_intro; try done. intros ρ a b c r _. cbn. intros [= <-] E1 E2 E3. cbn. congruence.
  - apply P3_intro; try done. intros ρ a b c r _. cbn. intros [= <-] E1 E2 [= <-]. by left.
  - apply P3_intro; try done. intros ρ a b c r _ _ E1 E2 E3. unfold viterel. destruct a; [congruence|congruence|]. right. split; congruence.
  - eapply (shannon3 hs viterel hd); try done; try lia.
    intros i d Hd. pose proof (lookup_lt_Some _ _ _ Hd) as Hi. rewrite Hl in Hi.
    apply IH; try done; intros ρ; (apply cof_ok; [done|]; rewrite <- (Eof_edges hs ρ hd Hc Hh); done).
Qed.
Lemma xvite_put m f g h r df dg dh dr : xvwf m →
  repr (bar m) df f → repr (var m) dg g → repr (var m) dh h → repr (var m) dr r →
  rank dr ≤ rank df `max` rank dg `max` rank dh → X3 VUndet (hin (hs m)) df dg dh dr →
  ∃ m', mm_vite_put m f g h r = Some m' ∧ xvstep m m' ∧ mm_b m' = mm_b m ∧ mm_v m' = mm_v m.
Proof.
  intros Hw Hf Hg Hh Hr Hk Hp. pose proof (xv_wf _ Hw) as Hm.
  assert (HP : P3 (hs m) viterel df dg dh dr).
  { apply X3_P3; try done; [by eapply (mm_hc I)|by eapply (okh_b I)|by eapply (okh_v I)|by eapply (okh_v I)]. }
  destruct (vite_put I m f g h r df dg dh dr) as (m' & Heq & Hst & Hb & Hv); try done.
  exists m'. sp; try done. unfold mm_vite_put in Heq.
  destruct (cache_ok_put _ _ (N.of_nat f) (N.of_nat g) (N.of_nat h) (N.of_nat r) (xv_vi _ Hw)) as (c' & Hc' & Hc).
  { exists df, dg, dh, dr. cbn. rewrite !Nat2N.id. done. }
  rewrite Hc' in Heq. cbn [mbind option_bind] in Heq. injection Heq as <-.
  split; [|split; [done|split; [apply ext_refl|done]]]. split; [apply Hst|done].
Qed.
Lemma xvwith_step m v : xvwf m → tstep I (mm_v m) v → xvstep m (mm_with_v m v).
Proof.
  intros Hw Hst. destruct (with_v_step I m v (xv_wf _ Hw) Hst) as (W & _ & Ev & Hh).
  split; [|done]. split; [done|]. eapply cache_ok_mono; [|exact (xv_vi _ Hw)]. intros k x. apply xventry_mono; [apply ext_refl|done].
Qed.
Lemma xmmrec_v {B} m h hd (ps : list B) (F : mm → B → option (mm * nat)) (PP : nat → dd vt → Prop) :
  xvwf m → hs m !! h = Some hd → length ps = h_edges hd →
  (∀ i p m', ps !! i = Some p → xvstep m m' →
     ∃ m'' r dr, F m' p = Some (m'', r) ∧ xvstep m' m'' ∧ repr (var m'') dr r ∧ rank dr ≤ h_level hd ∧ PP i dr) →
  ∃ m' ns v r dr ds, mapst F m ps = Some (m', ns) ∧ mt_create_node (mm_v m') h ns = (v, r) ∧
    xvstep m (mm_with_v m' v) ∧
    repr (t_ar v) dr r ∧ rank dr ≤ S (h_level hd) ∧ mkrel hd ds dr ∧ length ds = h_edges hd ∧
    (∀ i d, ds !! i = Some d → PP i d).
Proof.
  intros Hw Hh Hlen HF.
  pose proof (mapst_idx xvstep (λ m, var m) (λ _ _, False) F ps m (h_level hd) PP xvstep_trans xvstep_refl2
    (xvstep_refl m Hw)) as Hm.
  assert (He : ∀ x y, xvstep x y → ext (var x) (var y)) by by intros x y (_ & _ & ? & _).
  specialize (Hm He). assert (HF' : ∀ i p s', ps !! i = Some p → xvstep m s' →
    match F s' p with Some (s'', r) => xvstep s' s'' ∧ ∃ dr, repr (var s'') dr r ∧ rank dr ≤ h_level hd ∧ PP i dr
    | None => False end).
  { intros i p s' Hi Hs'. destruct (HF i p s' Hi Hs') as (m'' & r & dr & -> & ? & ?). split; [done|]. by exists dr. }
  specialize (Hm HF').
  destruct (mapst F m ps) as [[m1 ns]|]; [|by destruct Hm as (i & p & _ & [])].
  destruct Hm as (Hst & Hlns & Hns).
  pose proof Hst as (Hw1 & He1 & He1' & Hh1). pose proof (xv_wf _ Hw1) as Hm1.
  destruct (tcreate_node I (mm_v m1) h hd ns PP) as (m2 & r & dr & ds & Hc & Hst2 & Hr & Hk & Hmk & Hds & HPP); try done.
  { apply Hm1. }
  { by rewrite (mmw_h I _ Hm1), Hh1. }
  { congruence. }
  exists m1, ns, m2, r, dr, ds. sp; try done. eapply xvstep_trans; [exact Hst|]. by apply xvwith_step.
Qed.

Definition xviteres m df dg dh (x : option (mm * nat)) : Prop :=
  ∃ m' r dr, x = Some (m', r) ∧ xvstep m m' ∧ repr (var m') dr r ∧
    rank dr ≤ rank df `max` rank dg `max` rank dh ∧ X3 VUndet (hin (hs m)) df dg dh dr.

Lemma xvite_spec n : ∀ m f g h df dg dh, xvwf m →
  repr (bar m) df f → repr (var m) dg g → repr (var m) dh h →
  rank df `max` rank dg `max` rank dh < n → xviteres m df dg dh (mm_vite_f n m f g h).
Proof.
  induction n as [|n IH]; intros m f g h df dg dh Hxw Hf Hg Hh Hn; [lia|]. cbn [mm_vite_f]. pose proof (xv_wf _ Hxw) as Hw.
  pose proof (mw_good _ (mmw_b I _ Hw)) as Hgd. pose proof (tw_good _ _ (mmw_v I _ Hw)) as Hgv.
  pose proof (okh_b I _ _ _ Hw Hf) as Of. pose proof (okh_v I _ _ _ Hw Hg) as Og. pose proof (okh_v I _ _ _ Hw Hh) as Oh.
  destruct df as [t|hd ds].
  { pose proof Hf as [_ Ht]%repr_leaf. rewrite Ht. cbn [mbind option_bind].
    destruct t.
    - exists m, h, dh. sp; try done; [cbn; lia|]. apply X3_zero.
    - exists m, g, dg. sp; try done; [cbn; lia|]. apply X3_one.
    - exists m, mt_undet, (Leaf VUndet). sp; try done; [by apply Hgv|cbn; lia|]. apply X3_undet. }
  pose proof Hf as [Hl (hf & cs & Hnd & Hhd & Hcs)]%repr_br.
  rewrite Hnd. cbn [mbind option_bind].
  destruct (Nat.eqb_spec g h) as [->|Hne].
  { rewrite (repr_fun _ _ _ _ Hg Hh). exists m, h, dh. sp; try done; [lia|]. by apply X3_same. }
  destruct (xvite_get m f g h _ _ _ Hxw Hf Hg Hh) as (hit & -> & Hhit). cbn [mbind option_bind].
  destruct hit as [v|].
  { destruct (Hhit v eq_refl) as (dr & Hr & Hk & Hp). exists m, v, dr. sp; done. }
  rewrite (a_hdr_level _ _ _ Hhd). cbn [mbind option_bind].
  rewrite (top_step_spec _ _ _ _ Hg). cbn [mbind option_bind].
  rewrite (top_step_spec _ _ _ _ Hh). cbn [mbind option_bind].
  set (top := (h_level hd `max` Nat.pred (rank dg)) `max` Nat.pred (rank dh)).
  set (df := Br hd ds) in *.
  assert (Hrf : rank df = S (h_level hd)) by done.
  assert (Hmax : rank df `max` rank dg `max` rank dh = S top) by (subst top; lia).
  assert (rank df ≤ S top ∧ rank dg ≤ S top ∧ rank dh ≤ S top) as (Kf & Kg & Kh) by lia.
  destruct (vite_top_header_spec I m f g h df dg dh top) as (hid & thd & -> & Hth & Htl); try done.
  { lia. }
  cbn [mbind option_bind]. pose proof (elem_of_list_lookup_2 _ _ _ Hth) as Hin.
  assert (Hinv : thd ∈ ar_headers (var m)) by by rewrite (mmw_h I _ Hw).
  destruct (cofactor_spec Rn (bar m) df f top thd) as (fc & -> & Lf & Cf); try done; try apply Hgd.
  destruct (cofactor_spec Rn (var m) dg g top thd) as (gc & -> & Lg & Cg); try done; try apply Hgv.
  destruct (cofactor_spec Rn (var m) dh h top thd) as (hc & -> & Lh & Ch); try done; try apply Hgv.
  cbn [mbind option_bind].
  destruct (triples_spec (h_edges thd) fc gc hc) as (ts & -> & Lt & Ct); try done.
  cbn [mbind option_bind]. clearbody top. subst top.
  destruct (xmmrec_v m hid thd ts (λ m t, mm_vite_f n m t.1.1 t.1.2 t.2)
    (λ i d, X3 VUndet (hin (hs m)) (cof df (h_level thd) i) (cof dg (h_level thd) i) (cof dh (h_level thd) i) d))
    as (m' & ns & v & r & dr & es & -> & Hc & Hst & Hr & Hk & Hmk & Hds & HPP); try done.
  { intros i [[x y] z] m' Hi (Hw' & Hb' & Ev & Hh'). destruct (Ct _ _ Hi) as (Hx & Hy & Hz). cbn [fst snd] in *.
    destruct (Cf _ _ Hx), (Cg _ _ Hy), (Ch _ _ Hz).
    destruct (IH m' x y z (cof df (h_level thd) i) (cof dg (h_level thd) i) (cof dh (h_level thd) i))
      as (m'' & r & dr & -> & Hst & Hr & Hk & Hp); try done;
      try (eapply repr_mono; [rewrite Hb'; apply ext_refl|done]); try (eapply repr_mono; [exact Ev|done]); [lia|].
    exists m'', r, dr. sp; try done; [lia|by rewrite Hh' in Hp]. }
  cbn [mbind option_bind]. rewrite Hc. pose proof Hst as (Hw2 & Hb2 & Ev2 & Hh2).
  assert (HP : X3 VUndet (hin (hs m)) df dg dh dr).
  { apply (X3_rec _ _ df dg dh thd es); try done.
    intros Heq. apply Hne. subst dh. by eapply repr_inj; [apply Hgv|..]. }
  destruct (xvite_put (mm_with_v m' v) f g h r df dg dh dr) as (m4 & -> & Hst4 & Hb4 & Hv4); try done;
    try (eapply repr_mono; [rewrite Hb2; apply ext_refl|done]); try (eapply repr_mono; [exact Ev2|done]).
  { lia. }
  { by rewrite Hh2. }
  cbn [mbind option_bind]. exists m4, r, dr. rewrite Hv4. sp; try done; [|lia]. by eapply xvstep_trans.
Qed.

Lemma xmm_vite_ok m f g h df dg dh : xvwf m → repr (bar m) df f → repr (var m) dg g → repr (var m) dh h →
  xviteres m df dg dh (mm_vite_op m f g h).
Proof.
  intros Hw Hf Hg Hh. pose proof (a_fuel_enough _ _ _ Hf). pose proof (a_fuel_enough _ _ _ Hg).
  pose proof (a_fuel_enough _ _ _ Hh).
  rewrite (mm_fuel I m (xv_wf _ Hw)) in *. apply xvite_spec; try done. lia.
Qed.
End mm.
