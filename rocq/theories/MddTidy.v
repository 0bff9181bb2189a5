(** MDD and multi-terminal operations leave no nodes besides their result: proofs. *)
From stdpp Require Import strings.
From Verif Require Import Prelude ComputeCache ComputeCacheProofs Arena Trees ArenaProofs Bdd ArenaMore Mdd.
From Verif Require BddProofs.
From Verif Require Import NaryProofs MddProofs MtMdd MtProofs Tidy.

Lemma mapst_chain {S A T} (st : S → S → Prop) (ar : S → arena T) (F : S → A → option (S * nat)) :
  (∀ x y z, st x y → st y z → st x z) → (∀ x y, st x y → st y y) →
  ∀ l s s' ns, st s s →
  (∀ i p s1, l !! i = Some p → st s s1 → ∀ s2 r, F s1 p = Some (s2, r) →
     st s1 s2 ∧ awf Rn (ar s2) ∧ ext (ar s1) (ar s2) ∧ live (ar s2) r ∧ tidy (ar s1) (ar s2) r) →
  mapst F s l = Some (s', ns) → chain Rn (ar s) ns (ar s').
Proof.
  intros Htr Hrr. induction l as [|p l IH]; intros s s' ns Hs HF; cbn [mapst]; [intros [= <- <-]; constructor|].
  destruct (F s p) as [[s1 r]|] eqn:E; [|done]. cbn [mbind option_bind].
  destruct (mapst F s1 l) as [[s2 rs]|] eqn:E2; [|done]. cbn [mbind option_bind]. intros [= <- <-].
  destruct (HF 0 p s eq_refl Hs s1 r E) as (Hst & Hwf & He & Hl & Ht).
  apply (chain_cons Rn _ (ar s1)); try done. apply IH; [by eapply Hrr| |done].
  intros i q s3 Hi Hs3. apply (HF (Datatypes.S i)); [done|by eapply Htr].
Qed.
Lemma all_same_all ns x : all_same ns = Some x → Forall (λ y, y = x) ns.
Proof.
  unfold all_same. destruct ns as [|y ns]; [done|]. destruct (forallb _ _) eqn:E; [|done]. intros [= ->].
  apply Forall_forall. intros z Hz. rewrite forallb_forall in E. specialize (E z). rewrite <- elem_of_list_In, Nat.eqb_eq in E.
  symmetry. by apply E.
Qed.
Lemma nchain_create {T} (a0 : arena T) ns a h hd : chain Rn a0 ns a → awf Rn a → hcons (ar_headers a) → ar_headers a !! h = Some hd →
  length ns = h_edges hd → (∀ i r, ns !! i = Some r → ∃ d, repr a d r ∧ rank d ≤ h_level hd ∧ True) →
  match all_same ns with
  | Some x => tidy a0 a x
  | None => ∀ a' id, ar_hashcons a h ns = (a', id) → tidy a0 a' id
  end.
Proof.
  intros Hc Hwf Hhc Hh Hlen Hns. destruct (trees_of _ _ _ _ Hns) as (ds & Hf & Hfk & Hl & _).
  destruct (mknode_spec a h hd ns ds) as (dr & _ & Hr); try done. destruct (all_same ns) as [x|] eqn:E.
  - eapply chain_same; [exact Hc|]. by apply all_same_all.
  - destruct Hr as (a' & id & -> & Hwf' & He & _ & _ & Hlv & Hn). intros ? ? [= <- <-].
    eapply (chain_node Rn); try done; [|intros i; apply Hlv].
    apply Forall_forall. intros y Hy. apply elem_of_list_lookup in Hy as [i Hi]. destruct (Hns i y Hi) as (d & Hd & _). by eapply repr_live.
Qed.

(** ** MDD *)
Definition mtres (m : mdd) (x : option (mdd * nat)) : Prop := ∀ m' r, x = Some (m', r) → tidy (d_ar m) (d_ar m') r.
Lemma mtres_const m r : mtres m (Some (m, r)).
Proof. intros m' r' [= <- <-]. apply tidy_refl. Qed.
Lemma mtres_finish m o f g x : mtres m x → mtres m ('(m, result) ← x; m ← mdd_cache_put m o f g result; Some (m, result)).
Proof.
  intros Hx m' r Heq. destruct x as [[m1 r1]|]; [|done]. cbn [mbind option_bind] in Heq. unfold mdd_cache_put in Heq.
  destruct (cc_put _ _ _ _ _) as [c|]; [|done]. cbn [mbind option_bind] in Heq. injection Heq as <- <-. exact (Hx _ _ eq_refl).
Qed.
Lemma mrec_tidy {A} m h hd (ps : list A) (F : mdd → A → option (mdd * nat)) :
  mwf m → ar_headers (d_ar m) !! h = Some hd → length ps = h_edges hd →
  (∀ i p m', ps !! i = Some p → mstep m m' →
     (∃ m'' r dr, F m' p = Some (m'', r) ∧ mstep m' m'' ∧ repr (d_ar m'') dr r ∧ rank dr ≤ h_level hd) ∧ mtres m' (F m' p)) →
  mtres m ('(m, ns) ← mapst F m ps; Some (mdd_create_node m h ns)).
Proof.
  intros Hw Hh Hlen HF m' r Heq.
  assert (Hm := mapst_idx mstep d_ar (λ _ _, False) F ps m (h_level hd) (λ _ _, True) mstep_trans mstep_refl2 (mstep_refl m Hw)).
  destruct (mapst F m ps) as [[m1 ns]|] eqn:E; [|done]. cbn [mbind option_bind] in Heq. injection Heq as Heq.
  destruct Hm as (Hst & Hlns & Hns).
  { by intros x y (_ & ? & _). }
  { intros i p s' Hi Hs'. destruct (HF i p s' Hi Hs') as [(m'' & r' & dr & -> & ? & ? & ?) _]. split; [done|]. by exists dr. }
  pose proof Hst as (Hw1 & He1 & Hh1).
  assert (Hc : chain Rn (d_ar m) ns (d_ar m1)).
  { apply (mapst_chain mstep d_ar F mstep_trans mstep_refl2 ps m m1 ns); [by apply mstep_refl| |done].
    intros i p s1 Hi Hs1 s2 r2 E2. destruct (HF i p s1 Hi Hs1) as [(m'' & r' & dr & E' & St & Hr & _) Ht]. specialize (Ht _ _ E2).
    rewrite E' in E2. injection E2 as -> ->. sp; try done; try apply St. by eapply repr_live. }
  pose proof (nchain_create _ ns (d_ar m1) h hd Hc) as Hcr. unfold mdd_create_node in Heq.
  assert (ar_headers (d_ar m1) !! h = Some hd) as Hh' by by rewrite Hh1.
  specialize (Hcr (mg_wf _ (mw_good _ Hw1)) (mg_hc _ (mw_good _ Hw1)) Hh' ltac:(congruence) Hns).
  destruct (all_same ns) as [x|]; [injection Heq as <- <-; done|].
  destruct (ar_hashcons (d_ar m1) h ns) as [a' id]. injection Heq as <- <-. by apply Hcr.
Qed.

Lemma mnot_tidy n : ∀ m f df, mwf m → repr (d_ar m) df f → rank df < n → mtres m (mdd_not_f n m f).
Proof.
  induction n as [|n IH]; intros m f df Hw Hf Hn; [lia|]. cbn [mdd_not_f].
  pose proof (mw_good _ Hw) as Hg. pose proof (mg_zero _ Hg) as Hz.
  destruct (mcache_get m MNot f 0 df (Leaf TZero) Hw Hf Hz) as (hit & -> & Hhit). cbn [mbind option_bind].
  destruct hit as [x|]; [apply mtres_const|].
  destruct df as [t|hd ds].
  - pose proof Hf as [Hl Ht]%repr_leaf. rewrite Ht. cbn [mbind option_bind].
    apply (mtres_finish m MNot). destruct t; apply mtres_const.
  - pose proof Hf as [Hl (h & cs & Hnd & Hh & Hcs)]%repr_br. rewrite Hnd. cbn [mbind option_bind].
    apply (mtres_finish m MNot). cbn [rank] in Hn.
    destruct (aw_nt _ _ (mg_wf _ Hg) _ _ _ Hl Hnd) as (hd' & Hh' & Hlen & _). simplify_eq.
    apply (mrec_tidy m h hd); try done.
    intros i p m' Hi (Hw' & He' & Hh1).
    destruct (repr_kid _ _ _ _ _ _ _ _ _ (mg_wf _ Hg) Hf Hnd Hi) as [Hrc Hkc].
    assert (repr (d_ar m') (cof (Br hd ds) (h_level hd) i) p) as Hp' by by eapply repr_mono. split.
    + destruct (mnot_spec n m' p _ Hw' Hp') as (m'' & r & dr & -> & Hst & Hr & Hk & Hp); [lia|].
      exists m'', r, dr. sp; try done. cbn [rank] in Hk; lia.
    + eapply IH; [done|exact Hp'|lia].
Qed.

Lemma mbin_tidy o : o ≠ MNot → ∀ n m f g df dg, mwf m → repr (d_ar m) df f → repr (d_ar m) dg g →
  rank df `max` rank dg < n → mtres m (mdd_bin_f o n m f g).
Proof.
  intros Ho. induction n as [|n IH]; intros m f g df dg Hw Hf Hg Hn; [lia|]. cbn [mdd_bin_f].
  assert (Hsw : ∃ f' g' df' dg', (if mop_swap o && (g <? f) then (g, f) else (f, g)) = (f', g') ∧
    repr (d_ar m) df' f' ∧ repr (d_ar m) dg' g' ∧ rank df' `max` rank dg' < S n).
  { destruct (mop_swap o && (g <? f)) eqn:Hs.
    - exists g, f, dg, df. sp; try done. lia.
    - exists f, g, df, dg. done. }
  destruct Hsw as (f' & g' & df' & dg' & -> & Hf' & Hg' & Hn').
  clear f g df dg Hf Hg Hn. rename f' into f, g' into g, df' into df, dg' into dg.
  rename Hf' into Hf, Hg' into Hg, Hn' into Hn.
  pose proof (mw_good _ Hw) as Hgd.
  destruct (mcache_get m o f g df dg Hw Hf Hg) as (hit & -> & Hhit). cbn [mbind option_bind].
  destruct hit as [x|]; [apply mtres_const|].
  destruct (live_lookup _ _ (repr_live _ _ _ Hf)) as [fn Hfn].
  destruct (live_lookup _ _ (repr_live _ _ _ Hg)) as [gn Hgn].
  rewrite Hfn, Hgn. cbn [mbind option_bind]. apply mtres_finish.
  pose proof (marm_spec o m f g df dg fn gn Ho Hw Hf Hg Hfn Hgn) as Harm.
  destruct (mop_arm o f g fn gn) as [x|x|].
  - apply mtres_const.
  - destruct Harm as (dx & Hr & Hk & Hp). eapply mnot_tidy; [done|done|lia].
  - cbn in Harm.
    destruct (expand_spec Rn Rn false (d_ar m) (d_ar m) f g df dg fn gn)
      as (h & hd & ps & -> & Hh & Hmax & Hlen & Hps); try done; try apply Hgd.
    cbn [mbind option_bind]. eapply (mrec_tidy m h hd); try done.
    intros i p m' Hi (Hw' & He' & Hh'). destruct (Hps i p Hi) as (Hr1 & Hk1 & Hr2 & Hk2).
    assert (repr (d_ar m') (cof df (h_level hd) i) p.1 ∧ repr (d_ar m') (cof dg (h_level hd) i) p.2) as [R1 R2].
    { split; by eapply repr_mono. }
    split.
    + destruct (mbin_spec o Ho n m' p.1 p.2 _ _ Hw' R1 R2) as (m'' & r & dr & -> & Hst & Hr & Hk & Hp); [lia|].
      exists m'', r, dr. sp; try done. lia.
    + eapply IH; [done|exact R1|exact R2|lia].
Qed.

Lemma mite_tidy n : ∀ m f g h df dg dh, mwf m →
  repr (d_ar m) df f → repr (d_ar m) dg g → repr (d_ar m) dh h →
  rank df `max` rank dg `max` rank dh < n → mtres m (mdd_ite_f n m f g h).
Proof.
  induction n as [|n IH]; intros m f g h df dg dh Hw Hf Hg Hh Hn; [lia|]. cbn [mdd_ite_f].
  pose proof (mw_good _ Hw) as Hgd.
  destruct df as [t|hd ds].
  { pose proof Hf as [_ Ht]%repr_leaf. rewrite Ht. cbn [mbind option_bind]. destruct t; apply mtres_const. }
  pose proof Hf as [Hl (hf & cs & Hnd & Hhd & Hcs)]%repr_br.
  rewrite Hnd. cbn [mbind option_bind].
  destruct (Nat.eqb_spec g h) as [->|Hne]; [apply mtres_const|].
  destruct (mite_get m f g h _ _ _ Hw Hf Hg Hh) as (hit & -> & Hhit). cbn [mbind option_bind].
  destruct hit as [v|]; [apply mtres_const|].
  rewrite (a_hdr_level _ _ _ Hhd). cbn [mbind option_bind].
  rewrite (top_step_spec _ _ _ _ Hg). cbn [mbind option_bind].
  rewrite (top_step_spec _ _ _ _ Hh). cbn [mbind option_bind].
  set (top := (h_level hd `max` Nat.pred (rank dg)) `max` Nat.pred (rank dh)).
  set (df := Br hd ds) in *.
  assert (Hrf : rank df = S (h_level hd)) by done.
  assert (Hmax : rank df `max` rank dg `max` rank dh = S top) by (subst top; lia).
  assert (rank df ≤ S top ∧ rank dg ≤ S top ∧ rank dh ≤ S top) as (Kf & Kg & Kh) by lia.
  destruct (top_header_spec Rn (d_ar m) [f; g; h] [df; dg; dh] top) as (hid & thd & -> & Hth & Htl); try apply Hgd.
  { repeat (apply Forall2_cons; split; [done|]). done. }
  { destruct (decide (rank df = S top)); [exists df; split; [set_solver|done]|].
    destruct (decide (rank dg = S top)); [exists dg; split; [set_solver|done]|].
    exists dh; split; [set_solver|lia]. }
  cbn [mbind option_bind]. pose proof (elem_of_list_lookup_2 _ _ _ Hth) as Hin.
  destruct (cofactor_spec Rn (d_ar m) df f top thd) as (fc & -> & Lf & Cf); try done; try apply Hgd.
  destruct (cofactor_spec Rn (d_ar m) dg g top thd) as (gc & -> & Lg & Cg); try done; try apply Hgd.
  destruct (cofactor_spec Rn (d_ar m) dh h top thd) as (hc & -> & Lh & Ch); try done; try apply Hgd.
  cbn [mbind option_bind].
  destruct (triples_spec (h_edges thd) fc gc hc) as (ts & -> & Lt & Ct); try done.
  cbn [mbind option_bind]. clearbody top. subst top.
  assert (Hrec : mtres m ('(m, ns) ← mapst (λ m t, mdd_ite_f n m t.1.1 t.1.2 t.2) m ts; Some (mdd_create_node m hid ns))).
  { apply (mrec_tidy m hid thd); try done.
    intros i [[x y] z] m' Hi (Hw' & He' & Hh'). destruct (Ct _ _ Hi) as (Hx & Hy & Hz). cbn [fst snd] in *.
    destruct (Cf _ _ Hx), (Cg _ _ Hy), (Ch _ _ Hz).
    assert (repr (d_ar m') (cof df (h_level thd) i) x ∧ repr (d_ar m') (cof dg (h_level thd) i) y ∧ repr (d_ar m') (cof dh (h_level thd) i) z) as (R1 & R2 & R3).
    { sp; by eapply repr_mono. }
    split.
    - destruct (mite_spec n m' x y z _ _ _ Hw' R1 R2 R3) as (m'' & r & dr & -> & Hst & Hr & Hk & Hp); [lia|].
      exists m'', r, dr. sp; try done. lia.
    - eapply IH; [done|exact R1|exact R2|exact R3|lia]. }
  destruct (mapst _ m ts) as [[m1 ns]|]; [|done]. cbn [mbind option_bind] in *.
  destruct (mdd_create_node m1 hid ns) as [m2 r]. intros m' r' Heq. unfold mdd_ite_put in Heq.
  destruct (cc_put _ _ _ _ _) as [c|]; [|done]. cbn [mbind option_bind] in Heq. injection Heq as <- <-. exact (Hrec _ _ eq_refl).
Qed.

(** ** MtMdd *)
Section mt.
Context (I : vint).
Definition ttres (m : mt) (x : option (mt * nat)) : Prop := ∀ m' r, x = Some (m', r) → tidy (t_ar m) (t_ar m') r.
Lemma ttres_const m r : ttres m (Some (m, r)).
Proof. intros m' r' [= <- <-]. apply tidy_refl. Qed.
Lemma ttres_finish m m1 r o f g : tidy (t_ar m) (t_ar m1) r → ttres m (m2 ← mt_cache_put m1 o f g r; Some (m2, r)).
Proof.
  intros Hx m' r' Heq. unfold mt_cache_put in Heq.
  destruct (cc_put _ _ _ _ _) as [c|]; [|done]. cbn [mbind option_bind] in Heq. injection Heq as <- <-. exact Hx.
Qed.
Lemma mt_value_tidy m z m' r : twf I m → mt_value m z = (m', r) → tidy (t_ar m) (t_ar m') r.
Proof.
  intros Hw. unfold mt_value. pose proof (tw_good _ _ Hw) as Hg.
  destruct (t_vtab m !! z) as [x|] eqn:Hz; [intros [= <- <-]; apply tidy_refl|].
  destruct (ar_alloc (t_ar m) (Term (VVal z))) as [a id] eqn:Ha.
  assert (Hno : ∀ i, live (t_ar m) i → ar_nodes (t_ar m) !! i ≠ Some (Term (VVal z))).
  { intros i Hl Hn. assert (t_vtab m !! z = Some i) as Hs; [|by rewrite Hz in Hs].
    apply (tg_vt _ _ Hg). by apply repr_leaf. }
  destruct (alloc_term_spec Rn (t_ar m) (VVal z) a id (tg_wf _ _ Hg) Ha Hno)
    as (Hwf & He & Hh & Hl & Hnl & Hn & Hlv).
  intros [= <- <-] i Hi. apply Hlv in Hi as [Hi| ->]; [by left|]. right. constructor. by left.
Qed.
Lemma trec_tidy {A} m h hd (ps : list A) (F : mt → A → option (mt * nat)) m' ns m2 r :
  twf I m → ar_headers (t_ar m) !! h = Some hd → length ps = h_edges hd →
  (∀ i p m', ps !! i = Some p → tstep I m m' →
     match F m' p with
     | Some (m'', r) => tstep I m' m'' ∧ ∃ dr, repr (t_ar m'') dr r ∧ rank dr ≤ h_level hd ∧ True
     | None => True
     end ∧ ttres m' (F m' p)) →
  mapst F m ps = Some (m', ns) → mt_create_node m' h ns = (m2, r) → tidy (t_ar m) (t_ar m2) r.
Proof.
  intros Hw Hh Hlen HF E Heq.
  pose proof (mapst_idx (tstep I) t_ar (λ _ _, True) F ps m (h_level hd) (λ _ _, True) (tstep_trans I) (tstep_refl2 I) (tstep_refl I m Hw)) as Hm.
  rewrite E in Hm. destruct Hm as (Hst & Hlns & Hns).
  { by intros x y (_ & ? & _). }
  { intros i p s' Hi Hs'. apply (HF i p s' Hi Hs'). }
  pose proof Hst as (Hw1 & He1 & Hh1).
  assert (Hc : chain Rn (t_ar m) ns (t_ar m')).
  { apply (mapst_chain (tstep I) t_ar F (tstep_trans I) (tstep_refl2 I) ps m m' ns); [by apply tstep_refl| |done].
    intros i p s1 Hi Hs1 s2 r2 E2. destruct (HF i p s1 Hi Hs1) as [Hres Ht]. specialize (Ht _ _ E2). rewrite E2 in Hres.
    destruct Hres as [St (dr & Hr & _)]. sp; try done; try apply St. by eapply repr_live. }
  pose proof (nchain_create _ ns (t_ar m') h hd Hc) as Hcr. unfold mt_create_node in Heq.
  assert (ar_headers (t_ar m') !! h = Some hd) as Hh' by by rewrite Hh1.
  specialize (Hcr (tg_wf _ _ (tw_good _ _ Hw1)) (tg_hc _ _ (tw_good _ _ Hw1)) Hh' ltac:(congruence) Hns).
  destruct (all_same ns) as [x|]; [injection Heq as <- <-; done|].
  destruct (ar_hashcons (t_ar m') h ns) as [a' id]. injection Heq as <- <-. by apply Hcr.
Qed.
Lemma tbin_tidy o : ∀ n m f g df dg, twf I m → repr (t_ar m) df f → repr (t_ar m) dg g →
  rank df `max` rank dg < n → ttres m (mt_bin_f I o n m f g).
Proof.
  induction n as [|n IH]; intros m f g df dg Hw Hf Hg Hn; [lia|]. cbn [mt_bin_f].
  assert (Hsw : ∃ f' g' df' dg', (if vop_swap o && (g <? f) then (g, f) else (f, g)) = (f', g') ∧
    repr (t_ar m) df' f' ∧ repr (t_ar m) dg' g' ∧ rank df' `max` rank dg' < S n).
  { destruct (vop_swap o && (g <? f)) eqn:Hs.
    - exists g, f, dg, df. sp; try done. lia.
    - exists f, g, df, dg. done. }
  destruct Hsw as (f' & g' & df' & dg' & -> & Hf' & Hg' & Hn').
  clear f g df dg Hf Hg Hn. rename f' into f, g' into g, df' into df, dg' into dg.
  rename Hf' into Hf, Hg' into Hg, Hn' into Hn.
  pose proof (tw_good _ _ Hw) as Hgd.
  destruct (tcache_get I m o f g df dg Hw Hf Hg) as (hit & -> & Hhit). cbn [mbind option_bind].
  destruct hit as [x|]; [apply ttres_const|].
  destruct (live_lookup _ _ (repr_live _ _ _ Hf)) as [fn Hfn].
  destruct (live_lookup _ _ (repr_live _ _ _ Hg)) as [gn Hgn].
  rewrite Hfn, Hgn. cbn [mbind option_bind].
  pose proof (tarm_spec I o m f g df dg fn gn Hw Hf Hg Hfn Hgn) as Harm.
  destruct (vop_arm I o f g fn gn) as [x|z| | |]; cbn [fst snd].
  - apply ttres_finish, tidy_refl.
  - destruct (mt_value m z) as [m' r] eqn:E. cbn [fst snd]. apply ttres_finish. by eapply mt_value_tidy.
  - apply ttres_const.
  - done.
  - cbn in Harm.
    destruct (expand_spec Rn Rn true (t_ar m) (t_ar m) f g df dg fn gn)
      as (h & hd & ps & -> & Hh & Hmax & Hlen & Hps); try done; try apply Hgd.
    cbn [mbind option_bind].
    destruct (mapst _ m ps) as [[m' ns]|] eqn:E; [|done]. cbn [mbind option_bind].
    destruct (mt_create_node m' h ns) as [m2 r] eqn:Ec. cbn [fst snd]. apply ttres_finish.
    eapply (trec_tidy m h hd ps); try done.
    intros i p m1 Hi (Hw' & He' & Hh'). destruct (Hps i p Hi) as (Hr1 & Hk1 & Hr2 & Hk2).
    assert (repr (t_ar m1) (cof df (h_level hd) i) p.1 ∧ repr (t_ar m1) (cof dg (h_level hd) i) p.2) as [R1 R2].
    { split; by eapply repr_mono. }
    split.
    + pose proof (tbin_spec I o n m1 p.1 p.2 _ _ Hw' R1 R2 ltac:(lia)) as Hres. unfold tres in Hres.
      destruct (mt_bin_f I o n m1 p.1 p.2) as [[m'' r']|]; [|done]. destruct Hres as [St (dr & Hr & Hk & _)]. split; [done|]. exists dr. sp; try done. lia.
    + eapply IH; [done|exact R1|exact R2|lia].
Qed.
End mt.
