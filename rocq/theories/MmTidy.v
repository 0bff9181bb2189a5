(** The combined manager's cross-forest operations leave no nodes besides their result: proofs. *)
From stdpp Require Import strings.
From Verif Require Import Prelude ComputeCache ComputeCacheProofs Arena Trees ArenaProofs Bdd ArenaMore Mdd MtMdd MtMdd2.
From Verif Require Import NaryProofs MddProofs MtProofs MmProofs Tidy MddTidy.

Lemma mapst_keep {S A B} (p : S → B) (F : S → A → option (S * nat)) : (∀ s x s' r, F s x = Some (s', r) → p s' = p s) →
  ∀ l s s' ns, mapst F s l = Some (s', ns) → p s' = p s.
Proof.
  intros HF. induction l as [|x l IH]; intros s s' ns; cbn [mapst]; [by intros [= <- <-]|].
  destruct (F s x) as [[s1 r]|] eqn:E; [|done]. cbn [mbind option_bind].
  destruct (mapst F s1 l) as [[s2 rs]|] eqn:E2; [|done]. cbn [mbind option_bind]. intros [= <- <-].
  rewrite (IH _ _ _ E2). by eapply HF.
Qed.

Section mm.
Context (I : vint).
Notation bar m := (d_ar (mm_b m)).
Notation var m := (t_ar (mm_v m)).
Notation hs m := (ar_headers (d_ar (mm_b m))).

(** the other forest is untouched *)
Lemma bc_put_keep m o f g x m' : mm_bc_put m o f g x = Some m' → mm_b m' = mm_b m ∧ mm_v m' = mm_v m.
Proof. unfold mm_bc_put. destruct (cc_put _ _ _ _ _); [|done]. by intros [= <-]. Qed.
Lemma vc_put_keep m f g x m' : mm_vc_put m f g x = Some m' → mm_b m' = mm_b m ∧ mm_v m' = mm_v m.
Proof. unfold mm_vc_put. destruct (cc_put _ _ _ _ _); [|done]. by intros [= <-]. Qed.
Lemma vite_put_keep m f g h x m' : mm_vite_put m f g h x = Some m' → mm_b m' = mm_b m ∧ mm_v m' = mm_v m.
Proof. unfold mm_vite_put. destruct (cc_put _ _ _ _ _); [|done]. by intros [= <-]. Qed.
Lemma cmp_keep o n : ∀ m f g m' r, mm_cmp_f o n m f g = Some (m', r) → mm_v m' = mm_v m.
Proof.
  induction n as [|n IH]; intros m f g m' r; [done|]. cbn [mm_cmp_f].
  destruct (mm_bc_get m o f g) as [[x|]|]; cbn [mbind option_bind]; [by intros [= <- <-]| |done].
  destruct (_ !! f) as [fn|]; cbn [mbind option_bind]; [|done]. destruct (_ !! g) as [gn|]; cbn [mbind option_bind]; [|done].
  intros Heq. match type of Heq with mbind _ ?x = _ => destruct x as [[m1 r1]|] eqn:E end; [|done]. cbn [mbind option_bind] in Heq.
  destruct (mm_bc_put m1 o f g r1) as [m2|] eqn:Ep; [|done]. cbn [mbind option_bind] in Heq. injection Heq as <- <-.
  apply bc_put_keep in Ep as [_ ->]. destruct (cop_arm o fn gn) as [x|]; [by injection E as <- <-|].
  destruct (expand _ _ _ _ _ _ _) as [[h ps]|]; [|done]. cbn [mbind option_bind] in E.
  destruct (mapst _ m ps) as [[m3 ns]|] eqn:Em; [|done]. cbn [mbind option_bind] in E. destruct (mdd_create_node (mm_b m3) h ns) as [b y].
  injection E as <- <-. cbn. eapply (mapst_keep mm_v) in Em; [done|]. intros s p s' r' Hs. by eapply IH.
Qed.
Lemma vif_keep n : ∀ m f g m' r, mm_vif_f n m f g = Some (m', r) → mm_b m' = mm_b m.
Proof.
  induction n as [|n IH]; intros m f g m' r; [done|]. cbn [mm_vif_f].
  destruct (mm_vc_get m f g) as [[x|]|]; cbn [mbind option_bind]; [by intros [= <- <-]| |done].
  destruct (_ !! f) as [fn|]; cbn [mbind option_bind]; [|done]. destruct (_ !! g) as [gn|]; cbn [mbind option_bind]; [|done].
  intros Heq. match type of Heq with mbind _ ?x = _ => destruct x as [[m1 r1]|] eqn:E end; [|done]. cbn [mbind option_bind] in Heq.
  destruct (mm_vc_put m1 f g r1) as [m2|] eqn:Ep; [|done]. cbn [mbind option_bind] in Heq. injection Heq as <- <-.
  apply vc_put_keep in Ep as [-> _]. destruct (vif_arm g fn gn) as [x|]; [by injection E as <- <-|].
  destruct (expand _ _ _ _ _ _ _) as [[h ps]|]; [|done]. cbn [mbind option_bind] in E.
  destruct (mapst _ m ps) as [[m3 ns]|] eqn:Em; [|done]. cbn [mbind option_bind] in E. destruct (mt_create_node (mm_v m3) h ns) as [b y].
  injection E as <- <-. cbn. eapply (mapst_keep mm_b) in Em; [done|]. intros s p s' r' Hs. by eapply IH.
Qed.
Lemma vite_keep n : ∀ m f g h m' r, mm_vite_f n m f g h = Some (m', r) → mm_b m' = mm_b m.
Proof.
  induction n as [|n IH]; intros m f g h m' r; [done|]. cbn [mm_vite_f].
  destruct (_ !! f) as [fn|]; cbn [mbind option_bind]; [|done]. destruct fn as [[]|hf cs]; try (by intros [= <- <-]).
  destruct (g =? h); [by intros [= <- <-]|]. destruct (mm_vite_get m f g h) as [[x|]|]; cbn [mbind option_bind]; [by intros [= <- <-]| |done].
  destruct (hdr_level _ _) as [t0|]; cbn [mbind option_bind]; [|done].
  destruct (ite_top_step _ _ _) as [t1|]; cbn [mbind option_bind]; [|done]. destruct (ite_top_step _ _ _) as [t2|]; cbn [mbind option_bind]; [|done].
  destruct (vite_top_header _ _ _ _ _) as [[hid k]|]; cbn [mbind option_bind]; [|done].
  destruct (ite_cofactor _ f _ _) as [fc|]; cbn [mbind option_bind]; [|done]. destruct (ite_cofactor _ g _ _) as [gc|]; cbn [mbind option_bind]; [|done].
  destruct (ite_cofactor _ h _ _) as [hc|]; cbn [mbind option_bind]; [|done]. destruct (ite_triples _ _ _ _) as [ts|]; cbn [mbind option_bind]; [|done].
  destruct (mapst _ m ts) as [[m3 ns]|] eqn:Em; [|done]. cbn [mbind option_bind]. destruct (mt_create_node (mm_v m3) hid ns) as [b y].
  destruct (mm_vite_put _ f g h y) as [m2|] eqn:Ep; [|done]. cbn [mbind option_bind]. intros [= <- <-].
  apply vite_put_keep in Ep as [-> _]. cbn. eapply (mapst_keep mm_b) in Em; [done|]. intros s p s' r' Hs. by eapply IH.
Qed.

Definition btres m (x : option (mm * nat)) : Prop := ∀ m' r, x = Some (m', r) → tidy (bar m) (bar m') r.
Definition vtres m (x : option (mm * nat)) : Prop := ∀ m' r, x = Some (m', r) → tidy (var m) (var m') r.
Lemma btres_const m r : btres m (Some (m, r)).
Proof. intros m' r' [= <- <-]. apply tidy_refl. Qed.
Lemma vtres_const m r : vtres m (Some (m, r)).
Proof. intros m' r' [= <- <-]. apply tidy_refl. Qed.

Lemma mmrec_b_tidy {A} m h hd (ps : list A) (F : mm → A → option (mm * nat)) m1 ns b r :
  mmwf I m → hs m !! h = Some hd → length ps = h_edges hd →
  (∀ i p m', ps !! i = Some p → mmstep I m m' →
     (∃ m'' r dr, F m' p = Some (m'', r) ∧ mmstep I m' m'' ∧ repr (bar m'') dr r ∧ rank dr ≤ h_level hd) ∧ btres m' (F m' p)) →
  mapst F m ps = Some (m1, ns) → mdd_create_node (mm_b m1) h ns = (b, r) → tidy (bar m) (d_ar b) r.
Proof.
  intros Hw Hh Hlen HF E Heq.
  pose proof (mapst_idx (mmstep I) (λ m, bar m) (λ _ _, False) F ps m (h_level hd) (λ _ _, True) (mmstep_trans I) (mmstep_refl2 I) (mmstep_refl I m Hw)) as Hm.
  rewrite E in Hm. destruct Hm as (Hst & Hlns & Hns).
  { by intros x y (_ & ? & _). }
  { intros i p s' Hi Hs'. destruct (HF i p s' Hi Hs') as [(m'' & r' & dr & -> & ? & ? & ?) _]. split; [done|]. by exists dr. }
  pose proof Hst as (Hw1 & He1 & _ & Hh1).
  assert (Hc : chain Rn (bar m) ns (bar m1)).
  { apply (mapst_chain (mmstep I) (λ m, bar m) F (mmstep_trans I) (mmstep_refl2 I) ps m m1 ns); [by apply mmstep_refl| |done].
    intros i p s1 Hi Hs1 s2 r2 E2. destruct (HF i p s1 Hi Hs1) as [(m'' & r' & dr & E' & St & Hr & _) Ht]. specialize (Ht _ _ E2).
    rewrite E' in E2. injection E2 as -> ->. sp; try done; try apply St. by eapply repr_live. }
  pose proof (nchain_create _ ns (bar m1) h hd Hc) as Hcr. unfold mdd_create_node in Heq.
  assert (hs m1 !! h = Some hd) as Hh' by by rewrite Hh1. pose proof (mw_good _ (mmw_b I _ Hw1)) as Hg1.
  specialize (Hcr (mg_wf _ Hg1) (mg_hc _ Hg1) Hh' ltac:(congruence) Hns).
  destruct (all_same ns) as [x|]; [injection Heq as <- <-; done|].
  destruct (ar_hashcons (bar m1) h ns) as [a' id]. injection Heq as <- <-. by apply Hcr.
Qed.
Lemma mmrec_v_tidy {A} m h hd (ps : list A) (F : mm → A → option (mm * nat)) m1 ns v r :
  mmwf I m → hs m !! h = Some hd → length ps = h_edges hd →
  (∀ i p m', ps !! i = Some p → mmstep I m m' →
     (∃ m'' r dr, F m' p = Some (m'', r) ∧ mmstep I m' m'' ∧ repr (var m'') dr r ∧ rank dr ≤ h_level hd) ∧ vtres m' (F m' p)) →
  mapst F m ps = Some (m1, ns) → mt_create_node (mm_v m1) h ns = (v, r) → tidy (var m) (t_ar v) r.
Proof.
  intros Hw Hh Hlen HF E Heq.
  pose proof (mapst_idx (mmstep I) (λ m, var m) (λ _ _, False) F ps m (h_level hd) (λ _ _, True) (mmstep_trans I) (mmstep_refl2 I) (mmstep_refl I m Hw)) as Hm.
  rewrite E in Hm. destruct Hm as (Hst & Hlns & Hns).
  { by intros x y (_ & _ & ? & _). }
  { intros i p s' Hi Hs'. destruct (HF i p s' Hi Hs') as [(m'' & r' & dr & -> & ? & ? & ?) _]. split; [done|]. by exists dr. }
  pose proof Hst as (Hw1 & _ & He1 & Hh1).
  assert (Hc : chain Rn (var m) ns (var m1)).
  { apply (mapst_chain (mmstep I) (λ m, var m) F (mmstep_trans I) (mmstep_refl2 I) ps m m1 ns); [by apply mmstep_refl| |done].
    intros i p s1 Hi Hs1 s2 r2 E2. destruct (HF i p s1 Hi Hs1) as [(m'' & r' & dr & E' & St & Hr & _) Ht]. specialize (Ht _ _ E2).
    rewrite E' in E2. injection E2 as -> ->. sp; try done; try apply St. by eapply repr_live. }
  pose proof (nchain_create _ ns (var m1) h hd Hc) as Hcr. unfold mt_create_node in Heq.
  assert (ar_headers (var m1) !! h = Some hd) as Hh' by by rewrite (mmw_h I _ Hw1), Hh1. pose proof (tw_good I _ (mmw_v I _ Hw1)) as Hg1.
  specialize (Hcr (tg_wf _ _ Hg1) (tg_hc _ _ Hg1) Hh' ltac:(congruence) Hns).
  destruct (all_same ns) as [x|]; [injection Heq as <- <-; done|].
  destruct (ar_hashcons (var m1) h ns) as [a' id]. injection Heq as <- <-. by apply Hcr.
Qed.

Lemma cmp_tidy o : ∀ n m f g df dg, mmwf I m → repr (var m) df f → repr (var m) dg g →
  rank df `max` rank dg < n → btres m (mm_cmp_f o n m f g).
Proof.
  induction n as [|n IH]; intros m f g df dg Hw Hf Hg Hn; [lia|]. cbn [mm_cmp_f].
  destruct (bc_get I m o f g df dg Hw Hf Hg) as (hit & -> & Hhit). cbn [mbind option_bind].
  destruct hit as [x|]; [apply btres_const|].
  destruct (live_lookup _ _ (repr_live _ _ _ Hf)) as [fn Hfn]. destruct (live_lookup _ _ (repr_live _ _ _ Hg)) as [gn Hgn].
  rewrite Hfn, Hgn. cbn [mbind option_bind].
  assert (Hfin : ∀ y, btres m y → btres m ('(m, result) ← y; m ← mm_bc_put m o f g result; Some (m, result))).
  { intros y Hy m' r Heq. destruct y as [[m1 r1]|]; [|done]. cbn [mbind option_bind] in Heq.
    destruct (mm_bc_put m1 o f g r1) as [m2|] eqn:Ep; [|done]. cbn [mbind option_bind] in Heq. injection Heq as <- <-.
    apply bc_put_keep in Ep as [-> _]. exact (Hy _ _ eq_refl). }
  apply Hfin. clear Hfin.
  pose proof (node_kind _ _ _ _ Hf Hfn) as Kf. pose proof (node_kind _ _ _ _ Hg Hgn) as Kg.
  destruct (cop_arm o fn gn) as [x|] eqn:Harm; [apply btres_const|].
  assert (Hpos : 0 < rank df `max` rank dg).
  { destruct df as [[|zf]|hdf dsf], dg as [[|zg]|hdg dsg]; subst; cbn in Harm; try done; cbn [rank]; lia. }
  pose proof (tw_good _ _ (mmw_v _ _ Hw)) as Hgv.
  destruct (expand_spec Rn Rn true (var m) (var m) f g df dg fn gn)
    as (h & hd & ps & -> & Hh & Hmax & Hlen & Hps); try done; try apply Hgv.
  cbn [mbind option_bind]. rewrite (mmw_h _ _ Hw) in Hh.
  intros m' r Heq. destruct (mapst _ m ps) as [[m1 ns]|] eqn:E; [|done]. cbn [mbind option_bind] in Heq.
  destruct (mdd_create_node (mm_b m1) h ns) as [b y] eqn:Ec. injection Heq as <- <-. cbn.
  eapply (mmrec_b_tidy m h hd ps); try done.
  intros i p m' Hi (Hw' & Eb & Ev & Hh'). destruct (Hps i p Hi) as (Hr1 & Hk1 & Hr2 & Hk2).
  assert (repr (var m') (cof df (h_level hd) i) p.1 ∧ repr (var m') (cof dg (h_level hd) i) p.2) as [R1 R2].
  { split; by eapply repr_mono. }
  split.
  - destruct (cmp_spec I o n m' p.1 p.2 _ _ Hw' R1 R2) as (m'' & r & dr & -> & Hst & Hr & Hk & _); [lia|].
    exists m'', r, dr. sp; try done. lia.
  - eapply IH; [done|exact R1|exact R2|lia].
Qed.
Lemma vif_tidy : ∀ n m f g df dg, mmwf I m → repr (bar m) df f → repr (var m) dg g →
  rank df `max` rank dg < n → vtres m (mm_vif_f n m f g).
Proof.
  induction n as [|n IH]; intros m f g df dg Hw Hf Hg Hn; [lia|]. cbn [mm_vif_f].
  destruct (vc_get I m f g df dg Hw Hf Hg) as (hit & -> & Hhit). cbn [mbind option_bind].
  destruct hit as [x|]; [apply vtres_const|].
  destruct (live_lookup _ _ (repr_live _ _ _ Hf)) as [fn Hfn]. destruct (live_lookup _ _ (repr_live _ _ _ Hg)) as [gn Hgn].
  rewrite Hfn, Hgn. cbn [mbind option_bind].
  assert (Hfin : ∀ y, vtres m y → vtres m ('(m, result) ← y; m ← mm_vc_put m f g result; Some (m, result))).
  { intros y Hy m' r Heq. destruct y as [[m1 r1]|]; [|done]. cbn [mbind option_bind] in Heq.
    destruct (mm_vc_put m1 f g r1) as [m2|] eqn:Ep; [|done]. cbn [mbind option_bind] in Heq. injection Heq as <- <-.
    apply vc_put_keep in Ep as [_ ->]. exact (Hy _ _ eq_refl). }
  apply Hfin. clear Hfin.
  pose proof (node_kind _ _ _ _ Hf Hfn) as Kf. pose proof (node_kind _ _ _ _ Hg Hgn) as Kg.
  destruct (vif_arm g fn gn) as [x|] eqn:Harm; [apply vtres_const|].
  assert (Hpos : 0 < rank df `max` rank dg).
  { destruct df as [[| |]|hdf dsf]; [| | |cbn [rank]; lia]; subst; destruct dg as [[|zg]|hdg dsg]; subst; try done; cbn [rank]; lia. }
  pose proof (mw_good _ (mmw_b _ _ Hw)) as Hgd. pose proof (tw_good _ _ (mmw_v _ _ Hw)) as Hgv.
  destruct (expand_spec Rn Rn true (bar m) (var m) f g df dg fn gn)
    as (h & hd & ps & -> & Hh & Hmax & Hlen & Hps); try done; try apply Hgv; try apply Hgd.
  { by rewrite (mmw_h _ _ Hw). }
  cbn [mbind option_bind].
  intros m' r Heq. destruct (mapst _ m ps) as [[m1 ns]|] eqn:E; [|done]. cbn [mbind option_bind] in Heq.
  destruct (mt_create_node (mm_v m1) h ns) as [b y] eqn:Ec. injection Heq as <- <-. cbn.
  eapply (mmrec_v_tidy m h hd ps); try done.
  intros i p m' Hi (Hw' & Eb & Ev & Hh'). destruct (Hps i p Hi) as (Hr1 & Hk1 & Hr2 & Hk2).
  assert (repr (bar m') (cof df (h_level hd) i) p.1 ∧ repr (var m') (cof dg (h_level hd) i) p.2) as [R1 R2].
  { split; (eapply repr_mono; [|done]); done. }
  split.
  - destruct (vif_spec I n m' p.1 p.2 _ _ Hw' R1 R2) as (m'' & r & dr & -> & Hst & Hr & Hk & _); [lia|].
    exists m'', r, dr. sp; try done. lia.
  - eapply IH; [done|exact R1|exact R2|lia].
Qed.
Lemma vite_tidy n : ∀ m f g h df dg dh, mmwf I m → repr (bar m) df f → repr (var m) dg g → repr (var m) dh h →
  rank df `max` rank dg `max` rank dh < n → vtres m (mm_vite_f n m f g h).
Proof.
  induction n as [|n IH]; intros m f g h df dg dh Hw Hf Hg Hh Hn; [lia|]. cbn [mm_vite_f].
  pose proof (mw_good _ (mmw_b _ _ Hw)) as Hgd. pose proof (tw_good _ _ (mmw_v _ _ Hw)) as Hgv.
  destruct df as [t|hd ds].
  { pose proof Hf as [_ Ht]%repr_leaf. rewrite Ht. cbn [mbind option_bind]. destruct t; apply vtres_const. }
  pose proof Hf as [Hl (hf & cs & Hnd & Hhd & Hcs)]%repr_br.
  rewrite Hnd. cbn [mbind option_bind].
  destruct (Nat.eqb_spec g h) as [->|Hne]; [apply vtres_const|].
  destruct (vite_get I m f g h _ _ _ Hw Hf Hg Hh) as (hit & -> & Hhit). cbn [mbind option_bind].
  destruct hit as [v|]; [apply vtres_const|].
  rewrite (a_hdr_level _ _ _ Hhd). cbn [mbind option_bind].
  rewrite (top_step_spec _ _ _ _ Hg). cbn [mbind option_bind].
  rewrite (top_step_spec _ _ _ _ Hh). cbn [mbind option_bind].
  set (top := (h_level hd `max` Nat.pred (rank dg)) `max` Nat.pred (rank dh)).
  set (df := Br hd ds) in *.
  assert (Hrf : rank df = S (h_level hd)) by done.
  assert (Hmax : rank df `max` rank dg `max` rank dh = S top) by (subst top; lia).
  assert (rank df ≤ S top ∧ rank dg ≤ S top ∧ rank dh ≤ S top) as (Kf & Kg & Kh) by lia.
  destruct (vite_top_header_spec I m f g h df dg dh top) as (hid & thd & -> & Hth & Htl); try done.
  { lia. }
  cbn [mbind option_bind]. pose proof (elem_of_list_lookup_2 _ _ _ Hth) as Hin.
  assert (Hinv : thd ∈ ar_headers (var m)) by by rewrite (mmw_h _ _ Hw).
  destruct (cofactor_spec Rn (bar m) df f top thd) as (fc & -> & Lf & Cf); try done; try apply Hgd.
  destruct (cofactor_spec Rn (var m) dg g top thd) as (gc & -> & Lg & Cg); try done; try apply Hgv.
  destruct (cofactor_spec Rn (var m) dh h top thd) as (hc & -> & Lh & Ch); try done; try apply Hgv.
  cbn [mbind option_bind].
  destruct (triples_spec (h_edges thd) fc gc hc) as (ts & -> & Lt & Ct); try done.
  cbn [mbind option_bind]. clearbody top. subst top.
  intros m' r Heq. destruct (mapst _ m ts) as [[m1 ns]|] eqn:E; [|done]. cbn [mbind option_bind] in Heq.
  destruct (mt_create_node (mm_v m1) hid ns) as [v y] eqn:Ec. cbn [mbind option_bind] in Heq.
  destruct (mm_vite_put (mm_with_v m1 v) f g h y) as [m2|] eqn:Ep; [|done]. cbn [mbind option_bind] in Heq. injection Heq as <- <-.
  apply vite_put_keep in Ep as [_ ->]. cbn. eapply (mmrec_v_tidy m hid thd ts); try done.
  intros i [[x z] w] m' Hi (Hw' & Eb & Ev & Hh'). destruct (Ct _ _ Hi) as (Hx & Hz & Hv). cbn [fst snd] in *.
  destruct (Cf _ _ Hx), (Cg _ _ Hz), (Ch _ _ Hv).
  assert (repr (bar m') (cof df (h_level thd) i) x ∧ repr (var m') (cof dg (h_level thd) i) z ∧ repr (var m') (cof dh (h_level thd) i) w) as (R1 & R2 & R3).
  { sp; (eapply repr_mono; [|done]); done. }
  split.
  - destruct (vite_spec I n m' x z w _ _ _ Hw' R1 R2 R3) as (m'' & r & dr & -> & Hst & Hr & Hk & _); [lia|].
    exists m'', r, dr. sp; try done. lia.
  - eapply IH; [done|exact R1|exact R2|exact R3|lia].
Qed.
End mm.
