(** The exact behaviour of the BDD operations, undetermined values included, as a relation on trees; no trace of the computed tables.
    Same course as BddProofs.v with this relation in place of the pointwise one. *)
From Verif Require Import Prelude ComputeCache ComputeCacheProofs Arena Trees ArenaProofs Bdd BddProofs.

Global Instance bop_eq_dec : EqDecision bop.
Proof. solve_decision. Defined.
Notation tree := (dd tv).
Definition isbr (d : tree) : Prop := match d with Br _ _ => True | Leaf _ => False end.

(** results that need no recursion *)
Definition arm2 (o : bop) (df dg : tree) : option tree :=
  match o with
  | OpAnd => match df, dg with
    | Leaf TOne, d | d, Leaf TOne => Some d
    | Leaf TZero, _ | _, Leaf TZero => Some (Leaf TZero)
    | Leaf TUndet, _ | _, Leaf TUndet => Some (Leaf TUndet)
    | _, _ => None end
  | OpOr => match df, dg with
    | Leaf TZero, d | d, Leaf TZero => Some d
    | Leaf TOne, _ | _, Leaf TOne => Some (Leaf TOne)
    | Leaf TUndet, _ | _, Leaf TUndet => Some (Leaf TUndet)
    | _, _ => None end
  | OpXOr => match df, dg with
    | Leaf a, Leaf b => Some (Leaf (kxor a b))
    | Leaf TZero, d | d, Leaf TZero => Some d
    | Leaf TUndet, _ | _, Leaf TUndet => Some (Leaf TUndet)
    | _, _ => None end
  | OpNot => match df with Leaf t => Some (Leaf (knot t)) | Br _ _ => None end
  end.
(** result for two equal operands *)
Definition same2 (o : bop) (d : tree) : option tree :=
  match o with
  | OpAnd | OpOr => Some d
  | OpXOr => Some (match d with Leaf TUndet => Leaf TUndet | _ => Leaf TZero end)
  | OpNot => None
  end.
Definition mk2 (hd : header) (dlo dhi dr : tree) : Prop :=
  (dlo = dhi ∧ dr = dlo) ∨ (dlo ≠ dhi ∧ dr = Br hd [dlo; dhi]).
(** [hd] is the header of one of the trees, and none is higher *)
Definition topof (hd : header) (ds : list tree) : Prop :=
  (∃ cs, Br hd cs ∈ ds) ∧ Forall (λ d, rank d ≤ S (h_level hd)) ds.

Inductive X : bop → tree → tree → tree → Prop :=
  | X_same o d dr : same2 o d = Some dr → X o d d dr
  | X_arm o df dg dr : (o = OpNot → dg = Leaf TZero) → (o ≠ OpNot → df ≠ dg) → arm2 o df dg = Some dr → X o df dg dr
  | X_one_l dg dr : isbr dg → X OpNot dg (Leaf TZero) dr → X OpXOr (Leaf TOne) dg dr
  | X_one_r df dr : isbr df → X OpNot df (Leaf TZero) dr → X OpXOr df (Leaf TOne) dr
  | X_br o df dg hd dlo dhi dr :
      isbr df → (if decide (o = OpNot) then dg = Leaf TZero else isbr dg ∧ df ≠ dg) → topof hd [df; dg] →
      X o (cof df (h_level hd) 0) (cof dg (h_level hd) 0) dlo → X o (cof df (h_level hd) 1) (cof dg (h_level hd) 1) dhi →
      mk2 hd dlo dhi dr → X o df dg dr.

Inductive X3 : tree → tree → tree → tree → Prop :=
  | X3_one dg dh : X3 (Leaf TOne) dg dh dg
  | X3_zero dg dh : X3 (Leaf TZero) dg dh dh
  | X3_undet dg dh : X3 (Leaf TUndet) dg dh (Leaf TUndet)
  | X3_same df d : isbr df → X3 df d d d
  | X3_br df dg dh hd dlo dhi dr : isbr df → dg ≠ dh → topof hd [df; dg; dh] →
      X3 (cof df (h_level hd) 0) (cof dg (h_level hd) 0) (cof dh (h_level hd) 0) dlo →
      X3 (cof df (h_level hd) 1) (cof dg (h_level hd) 1) (cof dh (h_level hd) 1) dhi →
      mk2 hd dlo dhi dr → X3 df dg dh dr.


Lemma arm2_sym o df dg : o ≠ OpNot → df ≠ dg → arm2 o df dg = arm2 o dg df.
Proof. destruct o; [| | |done]; intros _ Hne; destruct df as [[]|], dg as [[]|]; try done; by destruct Hne. Qed.
Lemma X_sym o df dg dr : X o df dg dr → o ≠ OpNot → X o dg df dr.
Proof.
  induction 1 as [o d dr Hs|o df dg dr Hn Hd Ha|dg dr Hb HX _|df dr Hb HX _|o df dg hd dlo dhi dr Hb Hc Ht H0 IH0 H1 IH1 Hm]; intros Hno.
  - by apply X_same.
  - apply X_arm; [done| |]; [intros _ ->; by apply Hd|]. rewrite <- arm2_sym; auto.
  - by apply X_one_r.
  - by apply X_one_l.
  - rewrite decide_False in Hc by done. destruct Hc as [Hb' Hne].
    eapply (X_br o dg df hd dlo dhi); try done; [| |by apply IH0|by apply IH1].
    + rewrite decide_False by done. split; [done|]. by intros ->.
    + destruct Ht as [[cs Hin] Hall]. rewrite !Forall_cons in Hall. split; [exists cs; set_solver|].
      rewrite !Forall_cons. tauto.
Qed.

(** ** Invariant *)
Definition xcentry (a : arena tv) (k : N * N * N) (v : N) : Prop :=
  ∃ o df dg dr, k.1.1 = bop_code o ∧ repr a df (N.to_nat k.1.2) ∧ repr a dg (N.to_nat k.2) ∧ repr a dr (N.to_nat v) ∧
    rank dr ≤ rank df `max` rank dg ∧ X o df dg dr.
Definition xientry (a : arena tv) (k : N * N * N) (v : N) : Prop :=
  ∃ df dg dh dr, repr a df (N.to_nat k.1.1) ∧ repr a dg (N.to_nat k.1.2) ∧ repr a dh (N.to_nat k.2) ∧
    repr a dr (N.to_nat v) ∧
    rank dr ≤ rank df `max` rank dg `max` rank dh ∧ X3 df dg dh dr.
Record xwf (m : bdd) : Prop := {
  xw_good : good (b_ar m);
  xw_c : cwf (b_cache m);
  xw_i : cwf (b_ite m);
  xw_cok : ∀ k v, cfind (b_cache m) k = Some v → xcentry (b_ar m) k v;
  xw_iok : ∀ k v, cfind (b_ite m) k = Some v → xientry (b_ar m) k v;
}.

Definition xstep (m m' : bdd) : Prop :=
  xwf m' ∧ ext (b_ar m) (b_ar m') ∧ ar_headers (b_ar m') = ar_headers (b_ar m).

Lemma xstep_refl m : xwf m → xstep m m.
Proof. intros. split; [done|]. split; [apply ext_refl|done]. Qed.
Lemma xstep_trans m1 m2 m3 : xstep m1 m2 → xstep m2 m3 → xstep m1 m3.
Proof.
  intros (_ & H1 & H2) (? & H3 & H4). split; [done|]. split; [by eapply ext_trans|congruence].
Qed.

Lemma xcentry_mono a a' k v : ext a a' → xcentry a k v → xcentry a' k v.
Proof.
  intros He (o & df & dg & dr & Hc & Hf & Hg & Hr & Hk & Hp). exists o, df, dg, dr.
  sp; try done; by eapply repr_mono.
Qed.
Lemma xientry_mono a a' k v : ext a a' → xientry a k v → xientry a' k v.
Proof.
  intros He (df & dg & dh & dr & Hf & Hg & Hh & Hr & Hk & Hp). exists df, dg, dh, dr.
  sp; try done; by eapply repr_mono.
Qed.

(** ** Manager steps *)
Lemma xwith_ar_step m a : xwf m → good a → ext (b_ar m) a → ar_headers a = ar_headers (b_ar m) →
  xstep m (with_ar m a).
Proof.
  intros Hw Hg He Hh. split; [|done]. destruct Hw as [? ? ? Hc Hi]. constructor; try done; cbn.
  - intros k v Hk. eapply xcentry_mono; eauto.
  - intros k v Hk. eapply xientry_mono; eauto.
Qed.

Lemma xcreate_node_spec m h hd lo hi dlo dhi : xwf m → ar_headers (b_ar m) !! h = Some hd →
  repr (b_ar m) dlo lo → repr (b_ar m) dhi hi → rank dlo ≤ h_level hd → rank dhi ≤ h_level hd →
  ∃ m' r dr, bdd_create_node m h lo hi = (m', r) ∧ xstep m m' ∧ repr (b_ar m') dr r ∧
    mk2 hd dlo dhi dr.
Proof.
  intros Hw Hh Hlo Hhi Hr0 Hr1. unfold bdd_create_node.
  pose proof (xw_good m Hw) as Hg. pose proof (gd_wf _ Hg) as Hwf.
  destruct (Nat.eqb_spec lo hi) as [->|Hne].
  { exists m, hi, dhi. sp; try done.
    rewrite (repr_fun _ _ _ _ Hlo Hhi). by left. }
  destruct (hashcons_spec Rb (b_ar m) h hd [lo; hi]) as (a' & r & Heq & Hwf' & Hext & Hhd & Hl & Hn & _);
    try done.
  { symmetry. by apply (gd_edges _ Hg h). }
  { intros [c Hc]. rewrite !Forall_cons in Hc. destruct Hc as (-> & -> & _). done. }
  { rewrite !Forall_cons. sp; try constructor; try by eapply repr_live.
    - by eapply repr_rank_below.
    - by eapply repr_rank_below. }
  rewrite Heq. exists (with_ar m a'), r, (Br hd [dlo; dhi]). split; [done|].
  split; [|split].
  - apply xwith_ar_step; try done. by eapply good_mono.
  - cbn [with_ar b_ar]. apply repr_br. split; [done|]. exists h, [lo; hi]. split; [done|].
    split; [by rewrite Hhd|]. (constructor; [by eapply repr_mono|]). (constructor; [by eapply repr_mono|]). constructor.
  - right. split; [|done]. intros ->. apply Hne. exact (repr_inj Rb _ _ _ _ Hwf Hlo Hhi).
Qed.

(** ** Caches *)
Lemma xcache_get_eq m o f g : xwf m → bdd_cache_get m o f g =
  Some (option_map N.to_nat (cfind (b_cache m) (bop_code o, N.of_nat f, N.of_nat g))).
Proof.
  intros Hw. unfold bdd_cache_get.
  pose proof (cc_get_total (b_cache m) (bop_code o, N.of_nat f, N.of_nat g)
    (cwf_shape _ (xw_c _ Hw))) as H. cbn in H. rewrite H. done.
Qed.
Lemma xite_get_eq m f g h : xwf m → bdd_ite_get m f g h =
  Some (option_map N.to_nat (cfind (b_ite m) (N.of_nat f, N.of_nat g, N.of_nat h))).
Proof.
  intros Hw. unfold bdd_ite_get.
  pose proof (cc_get_total (b_ite m) (N.of_nat f, N.of_nat g, N.of_nat h)
    (cwf_shape _ (xw_i _ Hw))) as H. cbn in H. rewrite H. done.
Qed.

Lemma xcache_hit m o f g df dg v : xwf m → repr (b_ar m) df f → repr (b_ar m) dg g →
  cfind (b_cache m) (bop_code o, N.of_nat f, N.of_nat g) = Some v →
  ∃ dr, repr (b_ar m) dr (N.to_nat v) ∧ rank dr ≤ rank df `max` rank dg ∧
    X o df dg dr.
Proof.
  intros Hw Hf Hg Hv. destruct (xw_cok _ Hw _ _ Hv) as (o' & df' & dg' & dr & Ho & Hf' & Hg' & Hr & Hk & Hp).
  cbn in *. assert (o' = o) as -> by (by destruct o, o'). rewrite Nat2N.id in *. rewrite (repr_fun _ _ _ _ Hf Hf'), (repr_fun _ _ _ _ Hg Hg').
  by exists dr.
Qed.
Lemma xite_hit m f g h df dg dh v : xwf m →
  repr (b_ar m) df f → repr (b_ar m) dg g → repr (b_ar m) dh h →
  cfind (b_ite m) (N.of_nat f, N.of_nat g, N.of_nat h) = Some v →
  ∃ dr, repr (b_ar m) dr (N.to_nat v) ∧ rank dr ≤ rank df `max` rank dg `max` rank dh ∧
    X3 df dg dh dr.
Proof.
  intros Hw Hf Hg Hh Hv.
  destruct (xw_iok _ Hw _ _ Hv) as (df' & dg' & dh' & dr & Hf' & Hg' & Hh' & Hr & Hk & Hp).
  cbn in *. rewrite !Nat2N.id in *.
  rewrite (repr_fun _ _ _ _ Hf Hf'), (repr_fun _ _ _ _ Hg Hg'), (repr_fun _ _ _ _ Hh Hh').
  by exists dr.
Qed.

Lemma xcache_put_spec m o f g r df dg dr : xwf m →
  repr (b_ar m) df f → repr (b_ar m) dg g → repr (b_ar m) dr r →
  rank dr ≤ rank df `max` rank dg → X o df dg dr →
  ∃ m', bdd_cache_put m o f g r = Some m' ∧ xstep m m' ∧ b_ar m' = b_ar m.
Proof.
  intros Hw Hf Hg Hr Hk Hp. unfold bdd_cache_put.
  destruct (put_spec (b_cache m) (bop_code o, N.of_nat f, N.of_nat g) (N.of_nat r) (xw_c _ Hw))
    as (c' & Heq & Hwf & _ & Hfind). cbn in Heq. rewrite Heq. cbn [mbind option_bind].
  eexists. split; [done|]. split; [|done]. split; [|by split; [apply ext_refl|]].
  destruct Hw. constructor; try done; cbn. intros k v Hv.
  destruct (Hfind k v Hv) as [[-> ->]|[_ Hold]]; [|auto].
  exists o, df, dg, dr. cbn. rewrite !Nat2N.id. done.
Qed.
Lemma xite_put_spec m f g h r df dg dh dr : xwf m →
  repr (b_ar m) df f → repr (b_ar m) dg g → repr (b_ar m) dh h → repr (b_ar m) dr r →
  rank dr ≤ rank df `max` rank dg `max` rank dh → X3 df dg dh dr →
  ∃ m', bdd_ite_put m f g h r = Some m' ∧ xstep m m' ∧ b_ar m' = b_ar m.
Proof.
  intros Hw Hf Hg Hh Hr Hk Hp. unfold bdd_ite_put.
  destruct (put_spec (b_ite m) (N.of_nat f, N.of_nat g, N.of_nat h) (N.of_nat r) (xw_i _ Hw))
    as (c' & Heq & Hwf & _ & Hfind). cbn in Heq. rewrite Heq. cbn [mbind option_bind].
  eexists. split; [done|]. split; [|done]. split; [|by split; [apply ext_refl|]].
  destruct Hw. constructor; try done; cbn. intros k v Hv.
  destruct (Hfind k v Hv) as [[-> ->]|[_ Hold]]; [|auto].
  exists df, dg, dh, dr. cbn. rewrite !Nat2N.id. done.
Qed.

Definition xopres (o : bop) m df dg (x : option (bdd * nat)) : Prop :=
  ∃ m' r dr, x = Some (m', r) ∧ xstep m m' ∧ repr (b_ar m') dr r ∧ rank dr ≤ rank df `max` rank dg ∧ X o df dg dr.

(** store the result and return *)
Lemma xfinish o m f g df dg (x : option (bdd * nat)) :
  xwf m → repr (b_ar m) df f → repr (b_ar m) dg g → xopres o m df dg x →
  xopres o m df dg ('(m, result) ← x; m ← bdd_cache_put m o f g result; Some (m, result)).
Proof.
  intros Hw0 Hf Hg (m' & r & dr & -> & Hst' & Hr & Hk & Hp). cbn [mbind option_bind].
  destruct (xcache_put_spec m' o f g r df dg dr) as (m'' & -> & Hst3 & Ha); try done.
  { apply Hst'. }
  { eapply repr_mono; [apply Hst'|done]. }
  { eapply repr_mono; [apply Hst'|done]. }
  cbn [mbind option_bind]. exists m'', r, dr. rewrite Ha. sp; try done. by eapply xstep_trans.
Qed.

Lemma xopres_const o m df dg r dr : xwf m → repr (b_ar m) dr r →
  rank dr ≤ rank df `max` rank dg → X o df dg dr → xopres o m df dg (Some (m, r)).
Proof. intros. exists m, r, dr. sp; try done. Qed.

(** two recursive calls, then create_node *)
Lemma xrecurse2 o m h hd df dg (x0 : option (bdd * nat)) (x1 : bdd → option (bdd * nat)) :
  xwf m → ar_headers (b_ar m) !! h = Some hd → okdd E2 df → okdd E2 dg →
  isbr df → (if decide (o = OpNot) then dg = Leaf TZero else isbr dg ∧ df ≠ dg) → topof hd [df; dg] →
  xopres o m (cof df (h_level hd) 0) (cof dg (h_level hd) 0) x0 →
  (∀ m1, xstep m m1 → xopres o m1 (cof df (h_level hd) 1) (cof dg (h_level hd) 1) (x1 m1)) →
  xopres o m df dg ('(m, low) ← x0; '(m, high) ← x1 m; Some (bdd_create_node m h low high)).
Proof.
  intros Hw Hh Hof Hog Hb Hcond Htop (m1 & lo & dlo & -> & Hst1 & Hlo & Hk0 & P0) H1.
  cbn [mbind option_bind].
  destruct (H1 _ Hst1) as (m2 & hi & dhi & -> & Hst2 & Hhi & Hk1 & P1). cbn [mbind option_bind].
  pose proof Htop as [[cs Hin] Hall]. rewrite !Forall_cons in Hall. destruct Hall as (Hrf & Hrg & _).
  assert (Hmax : rank df `max` rank dg = S (h_level hd)).
  { rewrite !elem_of_cons, elem_of_nil in Hin. destruct Hin as [<-|[<-|[]]]; cbn [rank] in *; lia. }
  pose proof (cof_rank E2 df (h_level hd)) as Cf. pose proof (cof_rank E2 dg (h_level hd)) as Cg.
  assert (0 < E2 (h_level hd)) by (unfold E2; lia). assert (1 < E2 (h_level hd)) by (unfold E2; lia).
  pose proof (Cf 0). pose proof (Cf 1). pose proof (Cg 0). pose proof (Cg 1).
  destruct (xcreate_node_spec m2 h hd lo hi dlo dhi) as (m3 & r & dr & Heq & Hst3 & Hr & Hmk); try done.
  { apply Hst2. }
  { pose proof Hst1 as (_ & _ & Hd1). pose proof Hst2 as (_ & _ & Hd2). congruence. }
  { eapply repr_mono; [apply Hst2|done]. }
  { etransitivity; [exact Hk0|]. apply Nat.max_lub; auto. }
  { etransitivity; [exact Hk1|]. apply Nat.max_lub; auto. }
  assert (rank dlo ≤ h_level hd).
  { etransitivity; [exact Hk0|]. apply Nat.max_lub; auto. }
  rewrite Heq. exists m3, r, dr. sp; try done.
  - eapply xstep_trans; [exact Hst1|]. by eapply xstep_trans.
  - rewrite Hmax. destruct Hmk as [[_ ->]|[_ ->]]; cbn [rank]; lia.
  - by eapply X_br.
Qed.

(** ** not *)
Lemma xnot_spec n : ∀ m f df, xwf m → repr (b_ar m) df f → rank df < n →
  xopres OpNot m df (Leaf TZero) (bdd_not_f n m f).
Proof.
  induction n as [|n IH]; intros m f df Hw Hf Hn; [lia|]. cbn [bdd_not_f].
  pose proof (xw_good _ Hw) as Hg.
  rewrite xcache_get_eq by done. cbn [mbind option_bind].
  destruct (cfind _ _) as [v|] eqn:Hc; cbn [option_map].
  { destruct (xcache_hit m OpNot f 0 df (Leaf TZero) v) as (dr & Hr & Hk & Hp); try done.
    { apply (gd_zero _ Hg). }
    by eapply xopres_const. }
  destruct df as [t|hd ds].
  - pose proof Hf as [Hl Ht]%repr_leaf. rewrite Ht. cbn [mbind option_bind].
    eapply (xfinish OpNot m); [done|done|apply (gd_zero _ Hg)|].
    destruct t; (eapply xopres_const; [done|by apply Hg|done|by apply X_arm]).
  - destruct (repr_node2 _ _ _ _ Hg Hf) as (h & lo & hi & dlo & dhi & -> & Hnd & Hh & Hlo & Hhi & Hr0 & Hr1).
    rewrite Hnd. cbn [mbind option_bind edges2]. cbn [rank] in Hn.
    eapply (xfinish OpNot m); [done|done|apply (gd_zero _ Hg)|].
    eapply (xrecurse2 OpNot m h hd); try done.
    + by eapply good_ok.
    + split; [exists [dlo; dhi]; set_solver|]. rewrite !Forall_cons, Forall_nil. cbn [rank]. sp; try done; lia.
    + rewrite cof_same. cbn. apply IH; [done|done|lia].
    + intros m1 Hst1. rewrite cof_same. cbn.
      apply IH; [apply Hst1|eapply repr_mono; [apply Hst1|done]|lia].
Qed.

(** ** binary operations *)
Lemma xswap_ops o m f g df dg : xwf m → o ≠ OpNot → f ≠ g →
  repr (b_ar m) df f → repr (b_ar m) dg g →
  ∃ f' g' df' dg', (if g <? f then (g, f) else (f, g)) = (f', g') ∧
    repr (b_ar m) df' f' ∧ repr (b_ar m) dg' g' ∧ df' ≠ dg' ∧
    rank df' `max` rank dg' = rank df `max` rank dg ∧
    (∀ x, xopres o m df' dg' x → xopres o m df dg x).
Proof.
  intros Hw Hno Hne Hf Hg.
  assert (Hd : df ≠ dg).
  { intros ->. apply Hne. exact (repr_inj Rb _ _ _ _ (gd_wf _ (xw_good _ Hw)) Hf Hg). }
  destruct (g <? f).
  - exists g, f, dg, df. sp; try done; [lia|].
    intros x (m' & r & dr & -> & Hst & Hr & Hk & Hp). exists m', r, dr. sp; try done; [lia|].
    by apply X_sym.
  - exists f, g, df, dg. sp; try done.
Qed.

Ltac split_top := split; [eexists; first [apply elem_of_list_here|apply elem_of_list_further, elem_of_list_here]|rewrite !Forall_cons, Forall_nil; cbn [rank]; sp; try done; lia].

(** the non-terminal/non-terminal arms, shared shape of and/or/xor *)
Lemma xnt_arms o (rec : bdd → nat → nat → option (bdd * nat)) n m f g hdf dsf hdg dsg
    hf f0 f1 hg g0 g1 df0 df1 dg0 dg1 :
  xwf m → o ≠ OpNot → Br hdf dsf ≠ Br hdg dsg →
  (∀ m f g df dg, xwf m → repr (b_ar m) df f → repr (b_ar m) dg g →
     rank df `max` rank dg < n → xopres o m df dg (rec m f g)) →
  dsf = [df0; df1] → dsg = [dg0; dg1] →
  repr (b_ar m) (Br hdf dsf) f → repr (b_ar m) (Br hdg dsg) g →
  ar_headers (b_ar m) !! hf = Some hdf → ar_headers (b_ar m) !! hg = Some hdg →
  repr (b_ar m) df0 f0 → repr (b_ar m) df1 f1 → repr (b_ar m) dg0 g0 → repr (b_ar m) dg1 g1 →
  rank df0 ≤ h_level hdf → rank df1 ≤ h_level hdf → rank dg0 ≤ h_level hdg → rank dg1 ≤ h_level hdg →
  rank (Br hdf dsf) `max` rank (Br hdg dsg) < S n →
  xopres o m (Br hdf dsf) (Br hdg dsg)
   (if h_level hdg <? h_level hdf then
      '(m, low) ← rec m f0 g; '(m, high) ← rec m f1 g; Some (bdd_create_node m hf low high)
    else if h_level hdf <? h_level hdg then
      '(m, low) ← rec m f g0; '(m, high) ← rec m f g1; Some (bdd_create_node m hg low high)
    else
      '(m, low) ← rec m f0 g0; '(m, high) ← rec m f1 g1; Some (bdd_create_node m hf low high)).
Proof.
  intros Hw Hno Hne IH -> -> Hf Hg Hhf Hhg Hf0 Hf1 Hg0 Hg1 Rf0 Rf1 Rg0 Rg1 Hn.
  pose proof (xw_good _ Hw) as Hgd.
  pose proof (good_ok _ _ _ Hgd Hf) as Hof. pose proof (good_ok _ _ _ Hgd Hg) as Hog.
  change (rank (Br hdf [df0; df1])) with (S (h_level hdf)) in *.
  change (rank (Br hdg [dg0; dg1])) with (S (h_level hdg)) in *.
  destruct (Nat.ltb_spec (h_level hdg) (h_level hdf)) as [Hlt|Hge].
  - eapply (xrecurse2 o m hf hdf (Br hdf [df0; df1]) (Br hdg [dg0; dg1])
      (rec m f0 g) (λ m, rec m f1 g)); try done; [rewrite decide_False by done; done|by split_top|..].
    + rewrite cof_same, cof_low by (cbn [rank]; lia). cbn [lookup list_lookup from_option]; unfold id.
      apply IH; try done. cbn [rank]; lia.
    + intros m1 (Hw1 & He1 & _). rewrite cof_same, cof_low by (cbn [rank]; lia).
      cbn [lookup list_lookup from_option]; unfold id.
      apply IH; try done; try (by eapply repr_mono). cbn [rank]; lia.
  - destruct (Nat.ltb_spec (h_level hdf) (h_level hdg)) as [Hlt|Hge'].
    + eapply (xrecurse2 o m hg hdg (Br hdf [df0; df1]) (Br hdg [dg0; dg1])
        (rec m f g0) (λ m, rec m f g1)); try done; [rewrite decide_False by done; done|by split_top|..].
      * rewrite cof_same, cof_low by (cbn [rank]; lia). cbn [lookup list_lookup from_option]; unfold id.
        apply IH; try done. cbn [rank]; lia.
      * intros m1 (Hw1 & He1 & _). rewrite cof_same, cof_low by (cbn [rank]; lia).
        cbn [lookup list_lookup from_option]; unfold id.
        apply IH; try done; try (by eapply repr_mono). cbn [rank]; lia.
    + assert (Hll : h_level hdf = h_level hdg) by lia.
      eapply (xrecurse2 o m hf hdf (Br hdf [df0; df1]) (Br hdg [dg0; dg1])
        (rec m f0 g0) (λ m, rec m f1 g1)); try done; [rewrite decide_False by done; done|by split_top|..].
      * rewrite cof_same. rewrite Hll, cof_same. cbn [lookup list_lookup from_option]; unfold id.
        apply IH; try done. cbn [rank]; lia.
      * intros m1 (Hw1 & He1 & _). rewrite cof_same. rewrite Hll, cof_same.
        cbn [lookup list_lookup from_option]; unfold id.
        apply IH; try done; try (by eapply repr_mono). cbn [rank]; lia.
Qed.

(** close a terminal arm: result is [r] representing [dr] *)
Ltac arm dr :=
  eapply (xopres_const _ _ _ _ _ dr);
  [done | first [done | by apply (gd_zero _) | by apply (gd_one _) | by apply (gd_undet _)]
  | cbn [rank]; lia
  | by apply X_arm ].

Lemma xand_spec n : ∀ m f g df dg, xwf m → repr (b_ar m) df f → repr (b_ar m) dg g →
  rank df `max` rank dg < n → xopres OpAnd m df dg (bdd_and_f n m f g).
Proof.
  induction n as [|n IH]; intros m f g df dg Hw Hf Hg Hn; [lia|]. cbn [bdd_and_f].
  destruct (Nat.eqb_spec f g) as [->|Hne].
  { rewrite (repr_fun _ _ _ _ Hf Hg). eapply xopres_const; [done|done|lia|].
    by apply X_same. }
  destruct (xswap_ops OpAnd m f g df dg Hw ltac:(done) Hne Hf Hg) as (f' & g' & df' & dg' & -> & Hf' & Hg' & Hnd & Hmx & Hback).
  apply Hback. clear Hback. rewrite <- Hmx in Hn. clear Hmx Hne Hf Hg f g df dg. rename Hnd into Hne.
  pose proof (xw_good _ Hw) as Hgd.
  rewrite xcache_get_eq by done. cbn [mbind option_bind].
  destruct (cfind _ _) as [v|] eqn:Hc; cbn [option_map].
  { destruct (xcache_hit m OpAnd f' g' df' dg' v) as (dr & Hr & Hk & Hp); try done.
    by eapply xopres_const. }
  destruct (live_lookup _ _ (repr_live _ _ _ Hf')) as [fn Hfn].
  destruct (live_lookup _ _ (repr_live _ _ _ Hg')) as [gn Hgn].
  rewrite Hfn, Hgn. cbn [mbind option_bind].
  eapply (xfinish OpAnd m); [done|done|done|].
  destruct df' as [tf|hdf dsf].
  - pose proof Hf' as [_ Ht]%repr_leaf. rewrite Hfn in Ht. injection Ht as ->.
    destruct dg' as [tg|hdg dsg].
    + pose proof Hg' as [_ Ht]%repr_leaf. rewrite Hgn in Ht. injection Ht as ->.
      destruct tf, tg; first [arm (Leaf TZero : dd tv) | arm (Leaf TOne : dd tv) | arm (Leaf TUndet : dd tv)].
    + destruct (repr_node2 _ _ _ _ Hgd Hg') as (h & lo & hi & dlo & dhi & -> & Hnd & _).
      rewrite Hgn in Hnd. injection Hnd as ->.
      destruct tf; first [arm (Leaf TZero : dd tv) | arm (Leaf TUndet : dd tv) | arm (Br hdg [dlo; dhi])].
  - destruct (repr_node2 _ _ _ _ Hgd Hf') as (h & lo & hi & dlo & dhi & -> & Hnd & Hh & Hlo & Hhi & Hr0 & Hr1).
    rewrite Hfn in Hnd. injection Hnd as ->.
    destruct dg' as [tg|hdg dsg].
    + pose proof Hg' as [_ Ht]%repr_leaf. rewrite Hgn in Ht. injection Ht as ->.
      destruct tg; first [arm (Leaf TZero : dd tv) | arm (Leaf TUndet : dd tv) | arm (Br hdf [dlo; dhi])].
    + destruct (repr_node2 _ _ _ _ Hgd Hg') as
        (h' & lo' & hi' & dlo' & dhi' & -> & Hnd & Hh' & Hlo' & Hhi' & Hr0' & Hr1').
      rewrite Hgn in Hnd. injection Hnd as ->.
      rewrite (hdr_level_eq _ _ _ Hh), (hdr_level_eq _ _ _ Hh'). cbn [mbind option_bind edges2].
      eapply xnt_arms; done.
Qed.

Lemma x_or_spec n : ∀ m f g df dg, xwf m → repr (b_ar m) df f → repr (b_ar m) dg g →
  rank df `max` rank dg < n → xopres OpOr m df dg (bdd_or_f n m f g).
Proof.
  induction n as [|n IH]; intros m f g df dg Hw Hf Hg Hn; [lia|]. cbn [bdd_or_f].
  destruct (Nat.eqb_spec f g) as [->|Hne].
  { rewrite (repr_fun _ _ _ _ Hf Hg). eapply xopres_const; [done|done|lia|].
    by apply X_same. }
  destruct (xswap_ops OpOr m f g df dg Hw ltac:(done) Hne Hf Hg) as (f' & g' & df' & dg' & -> & Hf' & Hg' & Hnd & Hmx & Hback).
  apply Hback. clear Hback. rewrite <- Hmx in Hn. clear Hmx Hne Hf Hg f g df dg. rename Hnd into Hne.
  pose proof (xw_good _ Hw) as Hgd.
  rewrite xcache_get_eq by done. cbn [mbind option_bind].
  destruct (cfind _ _) as [v|] eqn:Hc; cbn [option_map].
  { destruct (xcache_hit m OpOr f' g' df' dg' v) as (dr & Hr & Hk & Hp); try done.
    by eapply xopres_const. }
  destruct (live_lookup _ _ (repr_live _ _ _ Hf')) as [fn Hfn].
  destruct (live_lookup _ _ (repr_live _ _ _ Hg')) as [gn Hgn].
  rewrite Hfn, Hgn. cbn [mbind option_bind].
  eapply (xfinish OpOr m); [done|done|done|].
  destruct df' as [tf|hdf dsf].
  - pose proof Hf' as [_ Ht]%repr_leaf. rewrite Hfn in Ht. injection Ht as ->.
    destruct dg' as [tg|hdg dsg].
    + pose proof Hg' as [_ Ht]%repr_leaf. rewrite Hgn in Ht. injection Ht as ->.
      destruct tf, tg; first [arm (Leaf TZero : dd tv) | arm (Leaf TOne : dd tv) | arm (Leaf TUndet : dd tv)].
    + destruct (repr_node2 _ _ _ _ Hgd Hg') as (h & lo & hi & dlo & dhi & -> & Hnd & _).
      rewrite Hgn in Hnd. injection Hnd as ->.
      destruct tf; first [arm (Leaf TOne : dd tv) | arm (Leaf TUndet : dd tv) | arm (Br hdg [dlo; dhi])].
  - destruct (repr_node2 _ _ _ _ Hgd Hf') as (h & lo & hi & dlo & dhi & -> & Hnd & Hh & Hlo & Hhi & Hr0 & Hr1).
    rewrite Hfn in Hnd. injection Hnd as ->.
    destruct dg' as [tg|hdg dsg].
    + pose proof Hg' as [_ Ht]%repr_leaf. rewrite Hgn in Ht. injection Ht as ->.
      destruct tg; first [arm (Leaf TOne : dd tv) | arm (Leaf TUndet : dd tv) | arm (Br hdf [dlo; dhi])].
    + destruct (repr_node2 _ _ _ _ Hgd Hg') as
        (h' & lo' & hi' & dlo' & dhi' & -> & Hnd & Hh' & Hlo' & Hhi' & Hr0' & Hr1').
      rewrite Hgn in Hnd. injection Hnd as ->.
      rewrite (hdr_level_eq _ _ _ Hh), (hdr_level_eq _ _ _ Hh'). cbn [mbind option_bind edges2].
      eapply xnt_arms; done.
Qed.

Lemma xnot_leaf t dg dr : X OpNot (Leaf t) dg dr → dr = Leaf (knot t).
Proof. inversion 1 as [? ? ? Hs|? ? ? ? _ _ Ha| | |? ? ? ? ? ? ? Hb]; subst; [done|by injection Ha as <-|done]. Qed.
Lemma xxor_one_l m dg x : Leaf TOne ≠ dg → xopres OpNot m dg (Leaf TZero) x → xopres OpXOr m (Leaf TOne) dg x.
Proof.
  intros Hne (m' & r & dr & -> & Hst & Hr & Hk & Hp). exists m', r, dr. sp; try done; [cbn [rank] in *; lia|].
  destruct dg as [t|]; [|by apply X_one_l]. apply xnot_leaf in Hp as ->. by apply X_arm; [| |destruct t].
Qed.
Lemma xxor_one_r m df x : df ≠ Leaf TOne → xopres OpNot m df (Leaf TZero) x → xopres OpXOr m df (Leaf TOne) x.
Proof.
  intros Hne (m' & r & dr & -> & Hst & Hr & Hk & Hp). exists m', r, dr. sp; try done.
  destruct df as [t|]; [|by apply X_one_r]. apply xnot_leaf in Hp as ->. by apply X_arm; [| |destruct t].
Qed.

Lemma xxor_spec n : ∀ m f g df dg, xwf m → repr (b_ar m) df f → repr (b_ar m) dg g →
  rank df `max` rank dg < n → xopres OpXOr m df dg (bdd_xor_f n m f g).
Proof.
  induction n as [|n IH]; intros m f g df dg Hw Hf Hg Hn; [lia|]. cbn [bdd_xor_f].
  destruct (Nat.eqb_spec f g) as [->|Hne].
  { rewrite (repr_fun _ _ _ _ Hf Hg). pose proof (xw_good _ Hw) as Hgd.
    destruct (Nat.eqb_spec g bdd_undet) as [->|Hgu].
    - rewrite (repr_fun _ _ _ _ Hg (gd_undet _ Hgd)).
      eapply xopres_const; [done|apply (gd_undet _ Hgd)|cbn; lia|]. by apply X_same.
    - eapply xopres_const; [done|apply (gd_zero _ Hgd)|cbn; lia|]. apply X_same. cbn [same2].
      destruct dg as [[]|]; try done. exfalso.
      match goal with H : g ≠ bdd_undet |- _ => apply H end. exact (repr_inj Rb _ _ _ _ (gd_wf _ Hgd) Hg (gd_undet _ Hgd)). }
  destruct (xswap_ops OpXOr m f g df dg Hw ltac:(done) Hne Hf Hg) as (f' & g' & df' & dg' & -> & Hf' & Hg' & Hnd & Hmx & Hback).
  apply Hback. clear Hback. rewrite <- Hmx in Hn. clear Hmx Hne Hf Hg f g df dg. rename Hnd into Hne.
  pose proof (xw_good _ Hw) as Hgd.
  rewrite xcache_get_eq by done. cbn [mbind option_bind].
  destruct (cfind _ _) as [v|] eqn:Hc; cbn [option_map].
  { destruct (xcache_hit m OpXOr f' g' df' dg' v) as (dr & Hr & Hk & Hp); try done.
    by eapply xopres_const. }
  destruct (live_lookup _ _ (repr_live _ _ _ Hf')) as [fn Hfn].
  destruct (live_lookup _ _ (repr_live _ _ _ Hg')) as [gn Hgn].
  rewrite Hfn, Hgn. cbn [mbind option_bind].
  eapply (xfinish OpXOr m); [done|done|done|].
  destruct df' as [tf|hdf dsf].
  - pose proof Hf' as [_ Ht]%repr_leaf. rewrite Hfn in Ht. injection Ht as ->.
    destruct dg' as [tg|hdg dsg].
    + pose proof Hg' as [_ Ht]%repr_leaf. rewrite Hgn in Ht. injection Ht as ->.
      destruct tf, tg; try (eapply xxor_one_l; [done|apply xnot_spec; [done|done|cbn [rank] in *; lia]]);
        try (eapply xxor_one_r; [done|apply xnot_spec; [done|done|cbn [rank] in *; lia]]);
        first [arm (Leaf TZero : dd tv) | arm (Leaf TOne : dd tv) | arm (Leaf TUndet : dd tv)].
    + destruct (repr_node2 _ _ _ _ Hgd Hg') as (h & lo & hi & dlo & dhi & -> & Hnd & _).
      rewrite Hgn in Hnd. injection Hnd as ->.
      destruct tf; try (eapply xxor_one_l; [done|apply xnot_spec; [done|done|cbn [rank] in *; lia]]);
        first [arm (Leaf TZero : dd tv) | arm (Leaf TUndet : dd tv) | arm (Br hdg [dlo; dhi])].
  - destruct (repr_node2 _ _ _ _ Hgd Hf') as (h & lo & hi & dlo & dhi & -> & Hnd & Hh & Hlo & Hhi & Hr0 & Hr1).
    rewrite Hfn in Hnd. injection Hnd as ->.
    destruct dg' as [tg|hdg dsg].
    + pose proof Hg' as [_ Ht]%repr_leaf. rewrite Hgn in Ht. injection Ht as ->.
      destruct tg; try (eapply xxor_one_r; [done|apply xnot_spec; [done|done|cbn [rank] in *; lia]]);
        first [arm (Leaf TZero : dd tv) | arm (Leaf TUndet : dd tv) | arm (Br hdf [dlo; dhi])].
    + destruct (repr_node2 _ _ _ _ Hgd Hg') as
        (h' & lo' & hi' & dlo' & dhi' & -> & Hnd & Hh' & Hlo' & Hhi' & Hr0' & Hr1').
      rewrite Hgn in Hnd. injection Hnd as ->.
      rewrite (hdr_level_eq _ _ _ Hh), (hdr_level_eq _ _ _ Hh'). cbn [mbind option_bind edges2].
      eapply xnt_arms; done.
Qed.

Definition xires m df dg dh (o : option (bdd * nat)) : Prop :=
  ∃ m' r dr, o = Some (m', r) ∧ xstep m m' ∧ repr (b_ar m') dr r ∧
    rank dr ≤ rank df `max` rank dg `max` rank dh ∧ X3 df dg dh dr.

Lemma xwf_clear m : xwf m → bwf (bdd_clear_cache m).
Proof.
  intros [Hg Hc Hi _ _]. destruct (clear_spec _ Hc) as [Hc' Hcf]. destruct (clear_spec _ Hi) as [Hi' Hif].
  constructor; try done; cbn.
  - intros k v Hv. by rewrite Hcf in Hv.
  - intros k v Hv. by rewrite Hif in Hv.
Qed.
Lemma xcofactor_eq m d id top : xwf m → repr (b_ar m) d id → rank d ≤ S top →
  ∃ c0 c1, bdd_cofactor m id top = Some (c0, c1) ∧ repr (b_ar m) (cof d top 0) c0 ∧
    repr (b_ar m) (cof d top 1) c1.
Proof. intros Hw. exact (cofactor_eq _ d id top (xwf_clear _ Hw)). Qed.
Lemma xtop_step_eq m d id top : xwf m → repr (b_ar m) d id →
  bdd_top_step m top id = Some (top `max` Nat.pred (rank d)).
Proof. intros Hw. exact (top_step_eq _ d id top (xwf_clear _ Hw)). Qed.
Lemma xtop_header_eq m xs ds top : xwf m → Forall2 (repr (b_ar m)) ds xs →
  (∃ d, d ∈ ds ∧ rank d = S top) →
  ∃ h hd, bdd_top_header m xs top = Some h ∧ ar_headers (b_ar m) !! h = Some hd ∧ h_level hd = top ∧ ∃ cs, Br hd cs ∈ ds.
Proof.
  intros Hw. induction 1 as [|d x ds xs Hr Hf IH]; intros (d' & Hin & Hk).
  { by apply elem_of_nil in Hin. }
  assert (Hup : d' ∈ ds → ∃ h hd, bdd_top_header m xs top = Some h ∧ ar_headers (b_ar m) !! h = Some hd ∧ h_level hd = top ∧
    ∃ cs, Br hd cs ∈ d :: ds).
  { intros Hin'. destruct IH as (h & hd & ? & ? & ? & cs & ?); [by exists d'|]. exists h, hd. sp; try done. exists cs. by constructor. }
  cbn [bdd_top_header]. rewrite (node_level_eq _ _ _ (xw_good _ Hw) Hr). cbn [mbind option_bind].
  destruct d as [t|hd cs].
  - rewrite decide_False by done. apply Hup. apply elem_of_cons in Hin as [->|Hin]; [done|]. done.
  - apply repr_br in Hr as [_ (h & ids & Hn & Hh & _)].
    destruct (decide (h_level hd = top)) as [<-|Hne].
    + rewrite decide_True by done. rewrite Hn. cbn. exists h, hd. sp; try done. exists cs. constructor.
    + rewrite decide_False by congruence. apply Hup. apply elem_of_cons in Hin as [->|Hin]; [|done].
      cbn in Hk. lia.
Qed.

Lemma xite_spec n : ∀ m f g h df dg dh, xwf m →
  repr (b_ar m) df f → repr (b_ar m) dg g → repr (b_ar m) dh h →
  rank df `max` rank dg `max` rank dh < n → xires m df dg dh (bdd_ite_f n m f g h).
Proof.
  induction n as [|n IH]; intros m f g h df dg dh Hw Hf Hg Hh Hn; [lia|]. cbn [bdd_ite_f].
  pose proof (xw_good _ Hw) as Hgd.
  destruct df as [t|hd ds].
  { pose proof Hf as [_ Ht]%repr_leaf. rewrite Ht. cbn [mbind option_bind].
    destruct t; (eexists m, _, _; split; [done|]; split; [by apply xstep_refl|]); sp; try done;
      try (apply (gd_undet _ Hgd)); cbn [rank]; try lia; constructor. }
  destruct (repr_node2 _ _ _ _ Hgd Hf) as (hf & lo & hi & dlo & dhi & -> & Hnd & Hhd & Hlo & Hhi & Hr0 & Hr1).
  rewrite Hnd. cbn [mbind option_bind].
  destruct (Nat.eqb_spec g h) as [->|Hne].
  { rewrite (repr_fun _ _ _ _ Hg Hh). exists m, h, dh. sp; try done; [lia|]. by apply X3_same. }
  rewrite xite_get_eq by done. cbn [mbind option_bind].
  destruct (cfind _ _) as [v|] eqn:Hc; cbn [option_map].
  { destruct (xite_hit m f g h _ _ _ v Hw Hf Hg Hh Hc) as (dr & Hr & Hk & Hp).
    exists m, (N.to_nat v), dr. sp; try done. }
  rewrite (hdr_level_eq _ _ _ Hhd). cbn [mbind option_bind].
  rewrite (xtop_step_eq _ _ _ _ Hw Hg). cbn [mbind option_bind].
  rewrite (xtop_step_eq _ _ _ _ Hw Hh). cbn [mbind option_bind].
  set (top := (h_level hd `max` Nat.pred (rank dg)) `max` Nat.pred (rank dh)).
  set (df := Br hd [dlo; dhi]) in *.
  assert (Hrf : rank df = S (h_level hd)) by done. rewrite Hrf in Hn.
  assert (Hmax : rank df `max` rank dg `max` rank dh = S top) by (subst top; lia).
  assert (rank df ≤ S top ∧ rank dg ≤ S top ∧ rank dh ≤ S top) as (Kf & Kg & Kh) by lia.
  destruct (xcofactor_eq m df f top Hw Hf Kf) as (f0 & f1 & -> & Hf0 & Hf1).
  destruct (xcofactor_eq m dg g top Hw Hg Kg) as (g0 & g1 & -> & Hg0 & Hg1).
  destruct (xcofactor_eq m dh h top Hw Hh Kh) as (h0 & h1 & -> & Hh0 & Hh1).
  cbn [mbind option_bind].
  destruct (xtop_header_eq m [f; g; h] [df; dg; dh] top) as (hid & thd & -> & Hth & Htl & Htin); try done.
  { repeat (apply Forall2_cons; split; [done|]). done. }
  { destruct (decide (rank df = S top)); [exists df; split; [set_solver|done]|].
    destruct (decide (rank dg = S top)); [exists dg; split; [set_solver|done]|].
    exists dh; split; [set_solver|lia]. }
  cbn [mbind option_bind].
  pose proof (good_ok _ _ _ Hgd Hf) as Of. pose proof (good_ok _ _ _ Hgd Hg) as Og.
  pose proof (good_ok _ _ _ Hgd Hh) as Oh.
  assert (0 < E2 top) as I0 by (unfold E2; lia). assert (1 < E2 top) as I1 by (unfold E2; lia).
  pose proof (cof_rank E2 df top 0 Of I0 Kf). pose proof (cof_rank E2 df top 1 Of I1 Kf).
  pose proof (cof_rank E2 dg top 0 Og I0 Kg). pose proof (cof_rank E2 dg top 1 Og I1 Kg).
  pose proof (cof_rank E2 dh top 0 Oh I0 Kh). pose proof (cof_rank E2 dh top 1 Oh I1 Kh).
  destruct (IH m f0 g0 h0 _ _ _ Hw Hf0 Hg0 Hh0) as (m1 & l & dl & -> & Hst1 & Hl & Hkl & Pl).
  { lia. }
  cbn [mbind option_bind]. pose proof Hst1 as (Hw1 & He1 & Hd1).
  destruct (IH m1 f1 g1 h1 (cof df top 1) (cof dg top 1) (cof dh top 1)) as (m2 & r & dr & -> & Hst2 & Hr & Hkr & Pr);
    try done; try (by eapply repr_mono).
  { lia. }
  cbn [mbind option_bind]. pose proof Hst2 as (Hw2 & He2 & Hd2).
  subst top. rewrite <- Htl in *.
  destruct (xcreate_node_spec m2 hid thd l r dl dr) as (m3 & x & dx & -> & Hst3 & Hx & Hmk); try done.
  { congruence. }
  { by eapply repr_mono. }
  { lia. }
  { lia. }
  assert (Hkx : rank dx ≤ S (h_level thd)) by (destruct Hmk as [[_ ->]|[_ ->]]; cbn [rank]; lia).
  assert (Px : X3 df dg dh dx).
  { eapply X3_br; [done| |split; [exact Htin|]|exact Pl|exact Pr|exact Hmk].
    - intros ->. apply Hne. exact (repr_inj Rb _ _ _ _ (gd_wf _ Hgd) Hg Hh).
    - rewrite !Forall_cons, Forall_nil. done. }
  pose proof Hst3 as (Hw3 & He3 & Hd3).
  assert (He03 : ext (b_ar m) (b_ar m3)) by (eapply ext_trans; [done|by eapply ext_trans]).
  destruct (xite_put_spec m3 f g h x df dg dh dx) as (m4 & -> & Hst4 & Ha4); try done;
    try (by eapply repr_mono).
  { lia. }
  cbn [mbind option_bind]. exists m4, x, dx. rewrite Ha4. sp; try done; [|lia].
  eapply xstep_trans; [exact Hst1|]. eapply xstep_trans; [exact Hst2|]. by eapply xstep_trans.
Qed.

Lemma xbdd_not_ok m f df : xwf m → repr (b_ar m) df f → xopres OpNot m df (Leaf TZero) (bdd_not m f).
Proof. intros Hw Hf. apply xnot_spec; try done. eapply fuel_enough; [apply Hw|done]. Qed.
Lemma xbdd_and_ok m f g df dg : xwf m → repr (b_ar m) df f → repr (b_ar m) dg g →
  xopres OpAnd m df dg (bdd_and m f g).
Proof.
  intros Hw Hf Hg. pose proof (fuel_enough _ _ _ (xw_good _ Hw) Hf).
  pose proof (fuel_enough _ _ _ (xw_good _ Hw) Hg). apply xand_spec; try done. lia.
Qed.
Lemma xbdd_or_ok m f g df dg : xwf m → repr (b_ar m) df f → repr (b_ar m) dg g →
  xopres OpOr m df dg (bdd_or m f g).
Proof.
  intros Hw Hf Hg. pose proof (fuel_enough _ _ _ (xw_good _ Hw) Hf).
  pose proof (fuel_enough _ _ _ (xw_good _ Hw) Hg). apply x_or_spec; try done. lia.
Qed.
Lemma xbdd_xor_ok m f g df dg : xwf m → repr (b_ar m) df f → repr (b_ar m) dg g →
  xopres OpXOr m df dg (bdd_xor m f g).
Proof.
  intros Hw Hf Hg. pose proof (fuel_enough _ _ _ (xw_good _ Hw) Hf).
  pose proof (fuel_enough _ _ _ (xw_good _ Hw) Hg). apply xxor_spec; try done. lia.
Qed.
Lemma xbdd_ite_ok m f g h df dg dh : xwf m →
  repr (b_ar m) df f → repr (b_ar m) dg g → repr (b_ar m) dh h → xires m df dg dh (bdd_ite m f g h).
Proof.
  intros Hw Hf Hg Hh. pose proof (fuel_enough _ _ _ (xw_good _ Hw) Hf).
  pose proof (fuel_enough _ _ _ (xw_good _ Hw) Hg). pose proof (fuel_enough _ _ _ (xw_good _ Hw) Hh).
  apply xite_spec; try done. lia.
Qed.

Lemma xnew_ok : xwf bdd_new.
Proof.
  assert (Hl : ∀ i, live (b_ar bdd_new) i ↔ i < 3).
  { intros i. unfold live. cbn. split; [by intros [? _]|]. split; [done|apply not_elem_of_nil]. }
  constructor; cbn.
  - constructor; cbn.
    + constructor; cbn.
      * intros h hd H. by rewrite lookup_nil in H.
      * constructor.
      * intros id H. by apply elem_of_nil in H.
      * intros id h cs H. apply Hl in H. destruct id as [|[|[|]]]; cbn; intros; [done..|lia].
      * intros h cs id. rewrite lookup_empty. split; [done|]. intros [H Hn].
        apply Hl in H. destruct id as [|[|[|]]]; cbn in *; [done..|lia].
      * intros i j t Hi Hj Hni Hnj. apply Hl in Hi, Hj.
        destruct i as [|[|[|]]], j as [|[|[|]]]; cbn in *; try lia; congruence.
    + split; [apply Hl; unfold bdd_zero; lia|done].
    + split; [apply Hl; unfold bdd_one; lia|done].
    + split; [apply Hl; unfold bdd_undet; lia|done].
    + intros h hd H. by rewrite lookup_nil in H.
  - apply cc_new_wf.
  - apply cc_new_wf.
  - intros k v Hv. by rewrite cc_new_find in Hv.
  - intros k v Hv. by rewrite cc_new_find in Hv.
Qed.

Lemma xcreate_header_ok m level label m' h : xwf m → bdd_create_header m level label = (m', h) →
  xwf m' ∧ ext (b_ar m) (b_ar m') ∧ h = length (ar_headers (b_ar m)) ∧
  ar_headers (b_ar m') = ar_headers (b_ar m) ++ [Header h level label 2] ∧
  ar_nodes (b_ar m') = ar_nodes (b_ar m) ∧ (∀ i, live (b_ar m') i ↔ live (b_ar m) i).
Proof.
  intros Hw. unfold bdd_create_header. destruct (ar_create_header _ _ _ _) as [a h0] eqn:Ha.
  intros [= <- <-]. cbn [with_ar b_ar].
  destruct (create_header_spec _ _ _ _ _ _ _ (gd_wf _ (xw_good _ Hw)) Ha) as (Hwf & He & Hh & -> & Hns & Hl).
  sp; try done. destruct Hw as [[_ ? ? ? Hed] Hc Hi Hco Hio]. constructor; try done; cbn.
  - constructor; try done; try by eapply repr_mono.
    intros h hd. rewrite Hh. intros [H|[_ H]]%lookup_app_Some; [by eapply Hed|].
    destruct (_ - _) as [|k]; [|done]. cbn in H. by injection H as <-.
  - intros k v Hk. eapply xcentry_mono; eauto.
  - intros k v Hk. eapply xientry_mono; eauto.
Qed.

Lemma xclear_cache_ok m : xwf m → xwf (bdd_clear_cache m).
Proof.
  intros [Hg Hc Hi Hco Hio]. destruct (clear_spec _ Hc) as [Hc' Hcf]. destruct (clear_spec _ Hi) as [Hi' Hif].
  constructor; try done; cbn.
  - intros k v Hv. by rewrite Hcf in Hv.
  - intros k v Hv. by rewrite Hif in Hv.
Qed.

Lemma xgc_ok m roots : xwf m → (∀ r, r ∈ roots → live (b_ar m) r) →
  ∃ m' n, bdd_gc m roots = Some (m', n) ∧ xwf m' ∧
    ar_headers (b_ar m') = ar_headers (b_ar m) ∧ ar_nodes (b_ar m') = ar_nodes (b_ar m) ∧
    (∀ id, live (b_ar m') id ↔ id ∈ [bdd_zero; bdd_one; bdd_undet] ∨ reach (b_ar m) roots id) ∧
    (∀ id, live (b_ar m') id → live (b_ar m) id) ∧
    n = length (ar_free (b_ar m')).
Proof.
  intros Hw Hroots. pose proof (xw_good _ Hw) as Hg. unfold bdd_gc.
  destruct (gc_spec Rb (b_ar m) [bdd_zero; bdd_one; bdd_undet] roots)
    as (a' & lv & -> & Hwf & Hhd & Hns & Hlen & Hl & Hsub & Hm); try done.
  { apply Hg. }
  { intros b. rewrite !elem_of_cons, elem_of_nil.
    destruct Hg as [_ [??] [??] [??] _]. intros [->|[->|[->|[]]]]; eauto. }
  cbn [mbind option_bind].
  assert (Hlt : ∀ d i, repr (b_ar m) d i → i < length lv).
  { intros d i Hd. rewrite Hlen. by apply repr_live in Hd as [? _]. }
  destruct (retain_live_spec lv (b_cache m) (xw_c _ Hw)) as (c' & -> & Hcw & Hcf).
  { intros k v Hv. destruct (xw_cok _ Hw _ _ Hv) as (o & df & dg & dr & _ & Hf & Hg' & Hr & _).
    unfold words2. rewrite !Forall_cons, Forall_nil. sp; eauto. }
  cbn [mbind option_bind].
  destruct (retain_live3_spec lv (b_ite m) (xw_i _ Hw)) as (i' & -> & Hiw & Hif).
  { intros k v Hv. destruct (xw_iok _ Hw _ _ Hv) as (df & dg & dh & dr & Hf & Hg' & Hh & Hr & _).
    unfold words3. rewrite !Forall_cons, Forall_nil. sp; eauto. }
  cbn [mbind option_bind]. eexists _, _. split; [done|]. cbn [b_ar].
  assert (Hrg : ∀ d i, marked lv i → repr (b_ar m) d i → repr a' d i).
  { intros d i Hi Hd. eapply repr_gc; try done. by apply Hm. }
  sp; try done. constructor; try done; cbn.
  - destruct Hg as [? Hz Ho Hu He]. constructor; try done.
    + apply Hrg; [|done]. apply Hm, Hl. left. set_solver.
    + apply Hrg; [|done]. apply Hm, Hl. left. set_solver.
    + apply Hrg; [|done]. apply Hm, Hl. left. set_solver.
    + by rewrite Hhd.
  - intros k v Hv. apply Hcf in Hv as [Hv Hal]. unfold words2 in Hal. rewrite !Forall_cons in Hal.
    destruct Hal as (A1 & A2 & A3 & _).
    destruct (xw_cok _ Hw _ _ Hv) as (o & df & dg & dr & Ho & Hf & Hg' & Hr & Hk & Hp).
    exists o, df, dg, dr. sp; try done; by apply Hrg.
  - intros k v Hv. apply Hif in Hv as [Hv Hal]. unfold words3 in Hal. rewrite !Forall_cons in Hal.
    destruct Hal as (A0 & A1 & A2 & A3 & _).
    destruct (xw_iok _ Hw _ _ Hv) as (df & dg & dh & dr & Hf & Hg' & Hh & Hr & Hk & Hp).
    exists df, dg, dh, dr. sp; try done; by apply Hrg.
Qed.
