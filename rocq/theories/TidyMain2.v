(** Proof of the property that operations leave no garbage: the ZDD and the multi-state managers. *)
From stdpp Require Import strings.
From Verif Require Import Prelude ComputeCache Arena Trees ArenaProofs ArenaMore Bdd Zdd Mdd MtMdd SpecBdd SpecZdd SpecMdd SpecTidy Tidy.
From Verif Require Import BddProofs ZddProofs ZddMain ZddConv ZddTidy NaryProofs MddProofs MtProofs MddMain MddTidy TidyMain.

(** ** ZDD *)
Lemma zdd_tidy m c m' r : zwf m → zdd_legal m c → zdd_direct c → zdd_exec m c = Some (m', r) →
  tidy (z_ar m) (z_ar m') r ∧ zstep m m' ∧ zdd_valid m' r.
Proof.
  intros Hw Hl Hd He.
  assert (Hfe : ∀ id d, repr (z_ar m) d id → rank d < ar_fuel (z_ar m)) by (intros; by eapply a_fuel_enough).
  destruct c as [l s|h lo hi|o f g|roots|]; cbn [zdd_exec zdd_legal] in *; try done.
  - destruct (ar_headers (z_ar m) !! h) as [hd|] eqn:Hh; [|done]. destruct Hl as [[Vlo Blo] [Vhi Bhi]].
    destruct (zvalid_repr _ _ Hw Vlo) as [dlo Hlo]. destruct (zvalid_repr _ _ Hw Vhi) as [dhi Hhi]. injection He as He.
    pose proof (zbelow_rank _ _ _ _ Hlo Blo). pose proof (zbelow_rank _ _ _ _ Hhi Bhi). split.
    + apply (zcreate_tidy m m m h hd lo hi dlo dhi m' r); try done; apply tidy_refl.
    + destruct (zcreate_node_spec m h hd lo hi dlo dhi) as (m1 & r1 & dr & Heq & Hst & Hr & _); try done.
      rewrite Heq in He. injection He as <- <-. split; [done|by eapply repr_live].
  - destruct Hl as [Vf Vg]. destruct (zvalid_repr _ _ Hw Vf) as [df Hf]. destruct (zvalid_repr _ _ Hw Vg) as [dg Hg].
    pose proof (Hfe _ _ Hf). pose proof (Hfe _ _ Hg). assert (rank df `max` rank dg < ar_fuel (z_ar m)) by lia. split.
    + destruct o; try done; cbn [zdd_op] in He.
      * exact (zintersect_tidy _ m f g df dg Hw Hf Hg ltac:(done) m' r He).
      * exact (zunion_tidy _ m f g df dg Hw Hf Hg ltac:(done) m' r He).
      * exact (zsetdiff_tidy _ m f g df dg Hw Hf Hg ltac:(done) m' r He).
    + destruct (zop_ok o m f g df dg Hw Hf Hg) as (m1 & r1 & dr & Heq & Hst & Hr & _). rewrite Heq in He. injection He as <- <-.
      split; [done|by eapply repr_live].
Qed.
Lemma zdd_no_garbage m c m' r : zdd_reachable m → zdd_legal m c → zdd_direct c → zdd_exec m c = Some (m', r) →
  only_adds (z_ar m) (z_ar m') [r] ∧ grows_by_result (z_ar m) (z_ar m') r.
Proof.
  intros Hm%zreachable_wf Hl Hd He. destruct (zdd_tidy m c m' r Hm Hl Hd He) as (Ht & Hst & _).
  split; [by apply tidy_adds|]. eapply (tidy_grows Rz); [apply Hm|apply Hst|done].
Qed.
Lemma zdd_nothing_to_collect m c m' r roots : zdd_reachable m → zdd_legal m c → zdd_direct c → zdd_exec m c = Some (m', r) →
  Forall (zdd_valid m) roots → all_needed (z_ar m) [zdd_zero; zdd_one; zdd_undet] roots →
  ∃ m'' n, zdd_gc m' (r :: roots) = Some (m'', n) ∧ ∀ id, zdd_valid m'' id ↔ zdd_valid m' id.
Proof.
  intros Hm Hl Hd He Hr Hn. pose proof (zreachable_wf _ Hm) as Hw. destruct (zdd_tidy m c m' r Hw Hl Hd He) as (_ & Hst & Vr).
  destruct (zdd_no_garbage m c m' r Hm Hl Hd He) as [Ha _].
  assert (Hr' : Forall (zdd_valid m') (r :: roots)).
  { apply Forall_cons. split; [done|]. eapply Forall_impl; [exact Hr|]. intros x Hx. by eapply ext_live; [apply Hst|]. }
  assert (Hm' : zdd_reachable m') by by eapply zreachable_step.
  destruct (zgc_exact_l m' (r :: roots) Hm' Hr') as (m'' & n & Hg & Hv & _). exists m'', n. split; [done|].
  apply (collect_none Rz (z_ar m) (z_ar m') [zdd_zero; zdd_one; zdd_undet] roots r); try done; try apply Hst; [apply Hw| |].
  - destruct Hst as ([[] _] & _). repeat constructor; by eapply repr_live.
  - intros id. rewrite Hv. by rewrite zreaches_reach.
Qed.

(** ** MDD *)
Lemma kids_live {T} R (a : arena T) h cs : awf R a → node_fits a h cs → Forall (live a) cs.
Proof.
  intros Hw Hf. destruct (fits_header _ _ _ Hf) as [hd Hh]. destruct (fits_kids _ _ _ _ _ Hw Hh Hf) as [_ Hk].
  apply Forall_lookup. intros i x Hx. destruct (Hk i x Hx) as (d & Hd & _). by eapply repr_live.
Qed.
Lemma fits_tidy {T} (a : arena T) h cs : awf Rn a → hcons (ar_headers a) → node_fits a h cs →
  match all_same cs with
  | Some x => tidy a a x
  | None => ∀ a' id, ar_hashcons a h cs = (a', id) → tidy a a' id
  end.
Proof.
  intros Hw Hc Hf. destruct (fits_header _ _ _ Hf) as [hd Hh]. destruct (fits_kids _ _ _ _ _ Hw Hh Hf) as [Hlen Hk].
  apply (nchain_create a cs a h hd); try done; [by apply chain_refl; [|by eapply kids_live]|].
  intros i r Hr. destruct (Hk i r Hr) as (d & ? & ? & _). by exists d.
Qed.
Lemma mdd_tidy m c m' r : mwf m → mdd_legal m c → mdd_direct c → mdd_exec m c = Some (m', r) →
  tidy (d_ar m) (d_ar m') r ∧ mstep m m' ∧ node_valid (d_ar m') r.
Proof.
  intros Hw Hl Hd He. pose proof (mg_wf _ (mw_good _ Hw)) as Hwf.
  assert (Hfe : ∀ id d, repr (d_ar m) d id → rank d < ar_fuel (d_ar m)) by (intros; by eapply a_fuel_enough).
  destruct c as [l s e|h cs|f|c f g|f g|f g h|roots|]; cbn [mdd_exec mdd_legal] in *; try done.
  - destruct (mcreate_ok m h cs Hw Hl) as (hd & m1 & r1 & _ & Heq & Hst & Hv & _). injection He as He. rewrite He in Heq. injection Heq as <- <-.
    split; [|done]. pose proof (fits_tidy (d_ar m) h cs Hwf (mg_hc _ (mw_good _ Hw)) Hl) as Ht. unfold mdd_create_node in He.
    destruct (all_same cs) as [x|]; [by injection He as <- <-|].
    destruct (ar_hashcons (d_ar m) h cs) as [a' id] eqn:E. injection He as <- <-. by apply Ht.
  - destruct (nvalid_repr _ _ _ Hwf Hl) as [d Hf]. split; [exact (mnot_tidy _ m f d Hw Hf (Hfe _ _ Hf) m' r He)|].
    destruct (mnot_l' m f Hw Hl) as (m1 & r1 & Heq & Hst & Hv & _). rewrite Heq in He. by injection He as <- <-.
  - destruct Hl as [Vf Vg]. destruct (nvalid_repr _ _ _ Hwf Vf) as [df Hf]. destruct (nvalid_repr _ _ _ Hwf Vg) as [dg Hg].
    pose proof (Hfe _ _ Hf). pose proof (Hfe _ _ Hg). assert (rank df `max` rank dg < ar_fuel (d_ar m)) by lia. split.
    + destruct c; try done; cbn [mdd_conn] in He.
      * exact (mbin_tidy MAnd ltac:(done) _ m f g df dg Hw Hf Hg ltac:(done) m' r He).
      * exact (mbin_tidy MOr ltac:(done) _ m f g df dg Hw Hf Hg ltac:(done) m' r He).
      * exact (mbin_tidy MXOr ltac:(done) _ m f g df dg Hw Hf Hg ltac:(done) m' r He).
    + destruct (mconn_l' m c f g Hw Vf Vg) as (m1 & r1 & Heq & Hst & Hv & _). rewrite Heq in He. by injection He as <- <-.
  - destruct Hl as [Vf Vg]. destruct (nvalid_repr _ _ _ Hwf Vf) as [df Hf]. destruct (nvalid_repr _ _ _ Hwf Vg) as [dg Hg].
    pose proof (Hfe _ _ Hf). pose proof (Hfe _ _ Hg). assert (rank df `max` rank dg < ar_fuel (d_ar m)) by lia. split.
    + exact (mbin_tidy MReplace ltac:(done) _ m f g df dg Hw Hf Hg ltac:(done) m' r He).
    + destruct (mreplace_l' m f g Hw Vf Vg) as (m1 & r1 & Heq & Hst & Hv & _). rewrite Heq in He. by injection He as <- <-.
  - destruct Hl as (Vf & Vg & Vh). destruct (nvalid_repr _ _ _ Hwf Vf) as [df Hf]. destruct (nvalid_repr _ _ _ Hwf Vg) as [dg Hg].
    destruct (nvalid_repr _ _ _ Hwf Vh) as [dh Hh]. pose proof (Hfe _ _ Hf). pose proof (Hfe _ _ Hg). pose proof (Hfe _ _ Hh).
    assert (rank df `max` rank dg `max` rank dh < ar_fuel (d_ar m)) by lia. split.
    + exact (mite_tidy _ m f g h df dg dh Hw Hf Hg Hh ltac:(done) m' r He).
    + destruct (mite_l' m f g h Hw Vf Vg Vh) as (m1 & r1 & Heq & Hst & Hv & _). rewrite Heq in He. by injection He as <- <-.
Qed.
Lemma mdd_no_garbage m c m' r : mdd_reachable m → mdd_legal m c → mdd_direct c → mdd_exec m c = Some (m', r) →
  only_adds (d_ar m) (d_ar m') [r] ∧ grows_by_result (d_ar m) (d_ar m') r.
Proof.
  intros Hm%mreachable_wf Hl Hd He. destruct (mdd_tidy m c m' r Hm Hl Hd He) as (Ht & Hst & _).
  split; [by apply tidy_adds|]. eapply (tidy_grows Rn); [apply (mw_good _ Hm)|apply Hst|done].
Qed.
Lemma mdd_nothing_to_collect m c m' r roots : mdd_reachable m → mdd_legal m c → mdd_direct c → mdd_exec m c = Some (m', r) →
  Forall (node_valid (d_ar m)) roots → all_needed (d_ar m) [mdd_zero; mdd_one; mdd_undet] roots →
  ∃ m'' n, mdd_gc m' (r :: roots) = Some (m'', n) ∧ ∀ id, node_valid (d_ar m'') id ↔ node_valid (d_ar m') id.
Proof.
  intros Hm Hl Hd He Hr Hn. pose proof (mreachable_wf _ Hm) as Hw. destruct (mdd_tidy m c m' r Hw Hl Hd He) as (_ & Hst & Vr).
  destruct (mdd_no_garbage m c m' r Hm Hl Hd He) as [Ha _].
  assert (Hr' : Forall (node_valid (d_ar m')) (r :: roots)).
  { apply Forall_cons. split; [done|]. eapply Forall_impl; [exact Hr|]. intros x Hx. by eapply ext_live; [apply Hst|]. }
  assert (Hm' : mdd_reachable m') by by eapply mreachable_step.
  destruct (mgc_l m' (r :: roots) Hm' Hr') as (m'' & n & Hg & Hv & _). exists m'', n. split; [done|].
  apply (collect_none Rn (d_ar m) (d_ar m') [mdd_zero; mdd_one; mdd_undet] roots r); try done; try apply Hst; [apply (mw_good _ Hw)| |].
  - destruct Hst as ([[] _ _] & _). repeat constructor; by eapply repr_live.
  - intros id. rewrite Hv. by rewrite nreaches_reach.
Qed.
Lemma mdd_derived m c f g c1 m1 t m' r : mdd_reachable m → node_valid (d_ar m) f → node_valid (d_ar m) g → mderived c f g = Some c1 →
  mdd_exec m c1 = Some (m1, t) → mdd_conn c m f g = Some (m', r) → only_adds (d_ar m) (d_ar m') [t; r].
Proof.
  intros Hm Vf Vg Hc He Hx. pose proof (mreachable_wf _ Hm) as Hw.
  assert (Hl : mdd_legal m c1 ∧ mdd_direct c1) by (destruct c; try done; injection Hc as <-; done). destruct Hl as [Hl Hd].
  destruct (mdd_tidy m c1 m1 t Hw Hl Hd He) as (T1 & Hst & Vt).
  assert (Vg1 : node_valid (d_ar m1) g) by by eapply ext_live; [apply Hst|].
  assert (H2 : ∃ c2, mdd_legal m1 c2 ∧ mdd_direct c2 ∧ mdd_exec m1 c2 = Some (m', r)).
  { destruct c; try done; injection Hc as <-; cbn [mdd_conn mdd_exec] in *; unfold mdd_imp, mdd_nand, mdd_nor, mdd_xnor in Hx; rewrite He in Hx; cbn [mbind option_bind] in Hx.
    - by exists (DConn Or t g).
    - by exists (DNot t).
    - by exists (DNot t).
    - by exists (DNot t). }
  destruct H2 as (c2 & Hl2 & Hd2 & He2). assert (Hw1 : mwf m1) by apply Hst.
  destruct (mdd_tidy m1 c2 m' r Hw1 Hl2 Hd2 He2) as (T2 & Hst2 & _).
  apply (adds_two Rn (d_ar m) (d_ar m1) (d_ar m')); try done; [apply (mw_good _ Hw1)|apply Hst2].
Qed.

(** ** values *)
Section val.
Context (I : vint).
Lemma mt_tidy m c m' r : twf I m → mt_legal m c → mt_direct c → mt_exec I m c = Some (m', r) →
  tidy (t_ar m) (t_ar m') r ∧ tstep I m m' ∧ node_valid (t_ar m') r.
Proof.
  intros Hw Hl Hd He. pose proof (tg_wf _ _ (tw_good _ _ Hw)) as Hwf.
  assert (Hfe : ∀ id d, repr (t_ar m) d id → rank d < ar_fuel (t_ar m)) by (intros; by eapply a_fuel_enough).
  destruct c as [l s e|z|h cs|o f g|roots|]; cbn [mt_exec mt_legal] in *; try done.
  - injection He as He. destruct (mt_value_ok I m z Hw) as (m1 & r1 & Hv & Hst & Hr). split; [by eapply mt_value_tidy|].
    rewrite Hv in He. injection He as <- <-. split; [done|by eapply repr_live].
  - destruct (tcreate_ok I m h cs Hw Hl) as (hd & m1 & r1 & _ & Heq & Hst & Hv & _). injection He as He. rewrite He in Heq. injection Heq as <- <-.
    split; [|done]. pose proof (fits_tidy (t_ar m) h cs Hwf (tg_hc _ _ (tw_good _ _ Hw)) Hl) as Ht. unfold mt_create_node in He.
    destruct (all_same cs) as [x|]; [by injection He as <- <-|].
    destruct (ar_hashcons (t_ar m) h cs) as [a' id] eqn:E. injection He as <- <-. by apply Ht.
  - destruct Hl as [Vf Vg]. destruct (nvalid_repr _ _ _ Hwf Vf) as [df Hf]. destruct (nvalid_repr _ _ _ Hwf Vg) as [dg Hg].
    pose proof (Hfe _ _ Hf). pose proof (Hfe _ _ Hg). assert (rank df `max` rank dg < ar_fuel (t_ar m)) by lia. split.
    + exact (tbin_tidy I o _ m f g df dg Hw Hf Hg ltac:(done) m' r He).
    + pose proof (tbin_l' I m o f g Hw Vf Vg) as Hb. rewrite He in Hb. by destruct Hb as (? & ? & _).
Qed.
Lemma mt_no_garbage m c m' r : mt_reachable I m → mt_legal m c → mt_direct c → mt_exec I m c = Some (m', r) →
  only_adds (t_ar m) (t_ar m') [r] ∧ grows_by_result (t_ar m) (t_ar m') r.
Proof.
  intros Hm%treachable_wf Hl Hd He. destruct (mt_tidy m c m' r Hm Hl Hd He) as (Ht & Hst & _).
  split; [by apply tidy_adds|]. eapply (tidy_grows Rn); [apply (tw_good _ _ Hm)|apply Hst|done].
Qed.
Lemma mt_nothing_to_collect m c m' r roots : mt_reachable I m → mt_legal m c → mt_direct c → mt_exec I m c = Some (m', r) →
  Forall (node_valid (t_ar m)) roots → all_needed (t_ar m) [mt_undet] roots →
  ∃ m'' n, mt_gc m' (r :: roots) = Some (m'', n) ∧ ∀ id, node_valid (t_ar m'') id ↔ node_valid (t_ar m') id.
Proof.
  intros Hm Hl Hd He Hr Hn. pose proof (treachable_wf I _ Hm) as Hw. destruct (mt_tidy m c m' r Hw Hl Hd He) as (_ & Hst & Vr).
  destruct (mt_no_garbage m c m' r Hm Hl Hd He) as [Ha _].
  assert (Hr' : Forall (node_valid (t_ar m')) (r :: roots)).
  { apply Forall_cons. split; [done|]. eapply Forall_impl; [exact Hr|]. intros x Hx. by eapply ext_live; [apply Hst|]. }
  assert (Hm' : mt_reachable I m') by by eapply treachable_step.
  destruct (tgc_l I m' (r :: roots) Hm' Hr') as (m'' & n & Hg & Hv & _). exists m'', n. split; [done|].
  apply (collect_none Rn (t_ar m) (t_ar m') [mt_undet] roots r); try done; try apply Hst; [apply (tw_good _ _ Hw)| |].
  - destruct Hst as ([[] _] & _). repeat constructor; by eapply repr_live.
  - intros id. rewrite Hv. by rewrite nreaches_reach, elem_of_list_singleton.
Qed.
End val.
