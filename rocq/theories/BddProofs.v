(** Correctness of the BDD operations (internal lemmas, stated on trees). *)
From Verif Require Import Prelude ComputeCache ComputeCacheProofs Arena Trees ArenaProofs Bdd.

Definition E2 : nat → nat := λ _, 2.
Definition ev (ρ : nat → nat) (d : dd tv) : tv := default TUndet (eval ρ d).
Definition Rb (cs : list nat) : Prop := ¬ ∃ c, Forall (eq c) cs.

(** ** Pointwise meaning of the operations on terminals *)
Definition kand (a b : tv) : tv :=
  match a, b with TZero, _ | _, TZero => TZero | TOne, TOne => TOne | _, _ => TUndet end.
Definition kor (a b : tv) : tv :=
  match a, b with TOne, _ | _, TOne => TOne | TZero, TZero => TZero | _, _ => TUndet end.
Definition knot (a : tv) : tv :=
  match a with TZero => TOne | TOne => TZero | TUndet => TUndet end.
Definition kxor (a b : tv) : tv :=
  match a, b with TUndet, _ | _, TUndet => TUndet | TZero, x => x | TOne, x => knot x end.

Definition Rand (a b r : tv) : Prop := r = kand a b ∨ (r = TUndet ∧ (a = TUndet ∨ b = TUndet)).
Definition Ror (a b r : tv) : Prop := r = kor a b ∨ (r = TUndet ∧ (a = TUndet ∨ b = TUndet)).
Definition Rxor (a b r : tv) : Prop := a ≠ TUndet → b ≠ TUndet → r = kxor a b.
Definition Rnot (a b r : tv) : Prop := r = knot a.
Definition Rite (a b c r : tv) : Prop :=
  match a with TOne => r = b | TZero => r = c | TUndet => r = TUndet ∨ (r = b ∧ b = c) end.

Definition P2 (Rel : tv → tv → tv → Prop) (df dg dr : dd tv) : Prop :=
  ∀ ρ, vok E2 ρ → Rel (ev ρ df) (ev ρ dg) (ev ρ dr).
Definition P3 (Rel : tv → tv → tv → tv → Prop) (df dg dh dr : dd tv) : Prop :=
  ∀ ρ, vok E2 ρ → Rel (ev ρ df) (ev ρ dg) (ev ρ dh) (ev ρ dr).

Definition oprel (k : N) (a b r : tv) : Prop :=
  if (k =? 0)%N then Rand a b r else if (k =? 1)%N then Ror a b r
  else if (k =? 2)%N then Rxor a b r else if (k =? 3)%N then Rnot a b r else False.

(** ** Invariant *)
Record good (a : arena tv) : Prop := {
  gd_wf : awf Rb a;
  gd_zero : repr a (Leaf TZero) bdd_zero;
  gd_one : repr a (Leaf TOne) bdd_one;
  gd_undet : repr a (Leaf TUndet) bdd_undet;
  gd_edges : ∀ h hd, ar_headers a !! h = Some hd → h_edges hd = E2 (h_level hd);
}.

Definition centry (a : arena tv) (k : N * N * N) (v : N) : Prop :=
  ∃ df dg dr, repr a df (N.to_nat k.1.2) ∧ repr a dg (N.to_nat k.2) ∧ repr a dr (N.to_nat v) ∧
    rank dr ≤ rank df `max` rank dg ∧ P2 (oprel k.1.1) df dg dr.

Definition ientry (a : arena tv) (k : N * N * N) (v : N) : Prop :=
  ∃ df dg dh dr, repr a df (N.to_nat k.1.1) ∧ repr a dg (N.to_nat k.1.2) ∧ repr a dh (N.to_nat k.2) ∧
    repr a dr (N.to_nat v) ∧
    rank dr ≤ rank df `max` rank dg `max` rank dh ∧ P3 Rite df dg dh dr.

Record bwf (m : bdd) : Prop := {
  bw_good : good (b_ar m);
  bw_c : cwf (b_cache m);
  bw_i : cwf (b_ite m);
  bw_cok : ∀ k v, cfind (b_cache m) k = Some v → centry (b_ar m) k v;
  bw_iok : ∀ k v, cfind (b_ite m) k = Some v → ientry (b_ar m) k v;
}.

Definition step (m m' : bdd) : Prop :=
  bwf m' ∧ ext (b_ar m) (b_ar m') ∧ ar_headers (b_ar m') = ar_headers (b_ar m).

Lemma step_refl m : bwf m → step m m.
Proof. intros. split; [done|]. split; [apply ext_refl|done]. Qed.
Lemma step_trans m1 m2 m3 : step m1 m2 → step m2 m3 → step m1 m3.
Proof.
  intros (_ & H1 & H2) (? & H3 & H4). split; [done|]. split; [by eapply ext_trans|congruence].
Qed.

Lemma good_ok a d id : good a → repr a d id → okdd E2 d.
Proof. intros [Hwf _ _ _ He]. by eapply repr_ok. Qed.

Lemma centry_mono a a' k v : ext a a' → centry a k v → centry a' k v.
Proof.
  intros He (df & dg & dr & Hf & Hg & Hr & Hk & Hp). exists df, dg, dr.
  sp; try done; by eapply repr_mono.
Qed.
Lemma ientry_mono a a' k v : ext a a' → ientry a k v → ientry a' k v.
Proof.
  intros He (df & dg & dh & dr & Hf & Hg & Hh & Hr & Hk & Hp). exists df, dg, dh, dr.
  sp; try done; by eapply repr_mono.
Qed.

Lemma vok_2 ρ l : vok E2 ρ → ρ l = 0 ∨ ρ l = 1.
Proof. intros H. specialize (H l). unfold E2 in H. lia. Qed.

Lemma ev_cof ρ d l : okdd E2 d → vok E2 ρ → ev ρ (cof d l (ρ l)) = ev ρ d.
Proof. intros. unfold ev. by erewrite eval_cof. Qed.

Lemma ev_br2 ρ hd d0 d1 : vok E2 ρ →
  ev ρ (Br hd [d0; d1]) = ev ρ (if ρ (h_level hd) =? 0 then d0 else d1).
Proof.
  intros Hv. unfold ev. rewrite eval_br.
  destruct (vok_2 ρ (h_level hd) Hv) as [-> | ->]; done.
Qed.

Lemma repr_node2 a hd ds id : good a → repr a (Br hd ds) id →
  ∃ h lo hi dlo dhi, ds = [dlo; dhi] ∧ ar_nodes a !! id = Some (NT h [lo; hi]) ∧
    ar_headers a !! h = Some hd ∧ repr a dlo lo ∧ repr a dhi hi ∧
    rank dlo ≤ h_level hd ∧ rank dhi ≤ h_level hd.
Proof.
  intros Hg Hr. pose proof (good_ok _ _ _ Hg Hr) as [Hl Hcs]%okdd_br.
  apply repr_br in Hr as [_ (h & cs & Hn & Hh & Hf)].
  destruct ds as [|dlo [|dhi [|]]]; try done.
  inversion Hf as [|? lo ? cs1 Hlo Hf1]; subst. inversion Hf1 as [|? hi ? cs2 Hhi Hf2]; subst.
  inversion Hf2; subst. rewrite !Forall_cons in Hcs.
  exists h, lo, hi, dlo, dhi. sp; try done; tauto.
Qed.

(** ** Manager steps *)
Lemma with_ar_step m a : bwf m → good a → ext (b_ar m) a → ar_headers a = ar_headers (b_ar m) →
  step m (with_ar m a).
Proof.
  intros Hw Hg He Hh. split; [|done]. destruct Hw as [? ? ? Hc Hi]. constructor; try done; cbn.
  - intros k v Hk. eapply centry_mono; eauto.
  - intros k v Hk. eapply ientry_mono; eauto.
Qed.

Lemma good_mono a a' : good a → awf Rb a' → ext a a' → ar_headers a' = ar_headers a → good a'.
Proof.
  intros [? ? ? ? He] Hwf Hext Hh. constructor; try done; try by eapply repr_mono.
  by rewrite Hh.
Qed.

Lemma create_node_spec m h hd lo hi dlo dhi : bwf m → ar_headers (b_ar m) !! h = Some hd →
  repr (b_ar m) dlo lo → repr (b_ar m) dhi hi → rank dlo ≤ h_level hd → rank dhi ≤ h_level hd →
  ∃ m' r dr, bdd_create_node m h lo hi = (m', r) ∧ step m m' ∧ repr (b_ar m') dr r ∧
    ((dlo = dhi ∧ dr = dlo) ∨ (dlo ≠ dhi ∧ dr = Br hd [dlo; dhi])).
Proof.
  intros Hw Hh Hlo Hhi Hr0 Hr1. unfold bdd_create_node.
  pose proof (bw_good m Hw) as Hg. pose proof (gd_wf _ Hg) as Hwf.
  destruct (Nat.eqb_spec lo hi) as [->|Hne].
  { exists m, hi, dhi. sp; try done.
    rewrite (repr_fun _ _ _ _ Hlo Hhi). by left. }
  destruct (hashcons_spec Rb (b_ar m) h hd [lo; hi]) as (a' & r & Heq & Hwf' & Hext & Hhd & Hl & Hn & _);
    try done.
  { symmetry. by apply (gd_edges _ Hg h). }
  { intros [c Hc]. rewrite !Forall_cons in Hc. destruct Hc as (-> & -> & _). done. }
  { rewrite !Forall_cons. sp; try constructor; try by eapply repr_live.
    - by eapply repr_rank_below.
    - by eapply repr_rank_below. }
  rewrite Heq. exists (with_ar m a'), r, (Br hd [dlo; dhi]). split; [done|].
  split; [|split].
  - apply with_ar_step; try done. by eapply good_mono.
  - cbn [with_ar b_ar]. apply repr_br. split; [done|]. exists h, [lo; hi]. split; [done|].
    split; [by rewrite Hhd|]. (constructor; [by eapply repr_mono|]). (constructor; [by eapply repr_mono|]). constructor.
  - right. split; [|done]. intros ->. apply Hne. exact (repr_inj Rb _ _ _ _ Hwf Hlo Hhi).
Qed.

(** semantic form *)
Lemma create_node_sem m h hd lo hi dlo dhi : bwf m → ar_headers (b_ar m) !! h = Some hd →
  repr (b_ar m) dlo lo → repr (b_ar m) dhi hi → rank dlo ≤ h_level hd → rank dhi ≤ h_level hd →
  ∃ m' r dr, bdd_create_node m h lo hi = (m', r) ∧ step m m' ∧ repr (b_ar m') dr r ∧
    rank dr ≤ S (h_level hd) ∧
    ∀ ρ, vok E2 ρ → ev ρ dr = ev ρ (if ρ (h_level hd) =? 0 then dlo else dhi).
Proof.
  intros Hw Hh Hlo Hhi Hr0 Hr1.
  destruct (create_node_spec m h hd lo hi dlo dhi) as (m' & r & dr & Heq & Hst & Hr & Hd); try done.
  exists m', r, dr. sp; try done.
  - destruct Hd as [[-> ->]|[_ ->]]; cbn; lia.
  - intros ρ Hv. destruct Hd as [[-> ->]|[_ ->]]; [by destruct (_ =? _)|]. by apply ev_br2.
Qed.

Lemma shannon2 Rel m h hd lo hi df dg dlo dhi : bwf m → ar_headers (b_ar m) !! h = Some hd →
  okdd E2 df → okdd E2 dg →
  repr (b_ar m) dlo lo → repr (b_ar m) dhi hi → rank dlo ≤ h_level hd → rank dhi ≤ h_level hd →
  P2 Rel (cof df (h_level hd) 0) (cof dg (h_level hd) 0) dlo →
  P2 Rel (cof df (h_level hd) 1) (cof dg (h_level hd) 1) dhi →
  ∃ m' r dr, bdd_create_node m h lo hi = (m', r) ∧ step m m' ∧ repr (b_ar m') dr r ∧
    rank dr ≤ S (h_level hd) ∧ P2 Rel df dg dr.
Proof.
  intros Hw Hh Hof Hog Hlo Hhi Hr0 Hr1 P0 P1.
  destruct (create_node_sem m h hd lo hi dlo dhi) as (m' & r & dr & Heq & Hst & Hr & Hrk & Hev); try done.
  exists m', r, dr. sp; try done. intros ρ Hv. rewrite Hev by done.
  rewrite <- (ev_cof ρ df (h_level hd)), <- (ev_cof ρ dg (h_level hd)) by done.
  destruct (vok_2 ρ (h_level hd) Hv) as [Hz|Hz]; rewrite Hz; cbn [Nat.eqb]; auto.
Qed.

Lemma shannon3 Rel m h hd lo hi df dg dh dlo dhi : bwf m → ar_headers (b_ar m) !! h = Some hd →
  okdd E2 df → okdd E2 dg → okdd E2 dh →
  repr (b_ar m) dlo lo → repr (b_ar m) dhi hi → rank dlo ≤ h_level hd → rank dhi ≤ h_level hd →
  P3 Rel (cof df (h_level hd) 0) (cof dg (h_level hd) 0) (cof dh (h_level hd) 0) dlo →
  P3 Rel (cof df (h_level hd) 1) (cof dg (h_level hd) 1) (cof dh (h_level hd) 1) dhi →
  ∃ m' r dr, bdd_create_node m h lo hi = (m', r) ∧ step m m' ∧ repr (b_ar m') dr r ∧
    rank dr ≤ S (h_level hd) ∧ P3 Rel df dg dh dr.
Proof.
  intros Hw Hh Hof Hog Hoh Hlo Hhi Hr0 Hr1 P0 P1.
  destruct (create_node_sem m h hd lo hi dlo dhi) as (m' & r & dr & Heq & Hst & Hr & Hrk & Hev); try done.
  exists m', r, dr. sp; try done. intros ρ Hv. rewrite Hev by done.
  rewrite <- (ev_cof ρ df (h_level hd)), <- (ev_cof ρ dg (h_level hd)),
    <- (ev_cof ρ dh (h_level hd)) by done.
  destruct (vok_2 ρ (h_level hd) Hv) as [Hz|Hz]; rewrite Hz; cbn [Nat.eqb]; auto.
Qed.

(** ** Caches *)
Lemma cache_get_eq m o f g : bwf m → bdd_cache_get m o f g =
  Some (option_map N.to_nat (cfind (b_cache m) (bop_code o, N.of_nat f, N.of_nat g))).
Proof.
  intros Hw. unfold bdd_cache_get.
  pose proof (cc_get_total (b_cache m) (bop_code o, N.of_nat f, N.of_nat g)
    (cwf_shape _ (bw_c _ Hw))) as H. cbn in H. rewrite H. done.
Qed.
Lemma ite_get_eq m f g h : bwf m → bdd_ite_get m f g h =
  Some (option_map N.to_nat (cfind (b_ite m) (N.of_nat f, N.of_nat g, N.of_nat h))).
Proof.
  intros Hw. unfold bdd_ite_get.
  pose proof (cc_get_total (b_ite m) (N.of_nat f, N.of_nat g, N.of_nat h)
    (cwf_shape _ (bw_i _ Hw))) as H. cbn in H. rewrite H. done.
Qed.

Lemma cache_hit m o f g df dg v : bwf m → repr (b_ar m) df f → repr (b_ar m) dg g →
  cfind (b_cache m) (bop_code o, N.of_nat f, N.of_nat g) = Some v →
  ∃ dr, repr (b_ar m) dr (N.to_nat v) ∧ rank dr ≤ rank df `max` rank dg ∧
    P2 (oprel (bop_code o)) df dg dr.
Proof.
  intros Hw Hf Hg Hv. destruct (bw_cok _ Hw _ _ Hv) as (df' & dg' & dr & Hf' & Hg' & Hr & Hk & Hp).
  cbn in *. rewrite Nat2N.id in *. rewrite (repr_fun _ _ _ _ Hf Hf'), (repr_fun _ _ _ _ Hg Hg').
  by exists dr.
Qed.
Lemma ite_hit m f g h df dg dh v : bwf m →
  repr (b_ar m) df f → repr (b_ar m) dg g → repr (b_ar m) dh h →
  cfind (b_ite m) (N.of_nat f, N.of_nat g, N.of_nat h) = Some v →
  ∃ dr, repr (b_ar m) dr (N.to_nat v) ∧ rank dr ≤ rank df `max` rank dg `max` rank dh ∧
    P3 Rite df dg dh dr.
Proof.
  intros Hw Hf Hg Hh Hv.
  destruct (bw_iok _ Hw _ _ Hv) as (df' & dg' & dh' & dr & Hf' & Hg' & Hh' & Hr & Hk & Hp).
  cbn in *. rewrite !Nat2N.id in *.
  rewrite (repr_fun _ _ _ _ Hf Hf'), (repr_fun _ _ _ _ Hg Hg'), (repr_fun _ _ _ _ Hh Hh').
  by exists dr.
Qed.

Lemma cache_put_spec m o f g r df dg dr : bwf m →
  repr (b_ar m) df f → repr (b_ar m) dg g → repr (b_ar m) dr r →
  rank dr ≤ rank df `max` rank dg → P2 (oprel (bop_code o)) df dg dr →
  ∃ m', bdd_cache_put m o f g r = Some m' ∧ step m m' ∧ b_ar m' = b_ar m.
Proof.
  intros Hw Hf Hg Hr Hk Hp. unfold bdd_cache_put.
  destruct (put_spec (b_cache m) (bop_code o, N.of_nat f, N.of_nat g) (N.of_nat r) (bw_c _ Hw))
    as (c' & Heq & Hwf & _ & Hfind). cbn in Heq. rewrite Heq. cbn [mbind option_bind].
  eexists. split; [done|]. split; [|done]. split; [|by split; [apply ext_refl|]].
  destruct Hw. constructor; try done; cbn. intros k v Hv.
  destruct (Hfind k v Hv) as [[-> ->]|[_ Hold]]; [|auto].
  exists df, dg, dr. cbn. rewrite !Nat2N.id. done.
Qed.
Lemma ite_put_spec m f g h r df dg dh dr : bwf m →
  repr (b_ar m) df f → repr (b_ar m) dg g → repr (b_ar m) dh h → repr (b_ar m) dr r →
  rank dr ≤ rank df `max` rank dg `max` rank dh → P3 Rite df dg dh dr →
  ∃ m', bdd_ite_put m f g h r = Some m' ∧ step m m' ∧ b_ar m' = b_ar m.
Proof.
  intros Hw Hf Hg Hh Hr Hk Hp. unfold bdd_ite_put.
  destruct (put_spec (b_ite m) (N.of_nat f, N.of_nat g, N.of_nat h) (N.of_nat r) (bw_i _ Hw))
    as (c' & Heq & Hwf & _ & Hfind). cbn in Heq. rewrite Heq. cbn [mbind option_bind].
  eexists. split; [done|]. split; [|done]. split; [|by split; [apply ext_refl|]].
  destruct Hw. constructor; try done; cbn. intros k v Hv.
  destruct (Hfind k v Hv) as [[-> ->]|[_ Hold]]; [|auto].
  exists df, dg, dh, dr. cbn. rewrite !Nat2N.id. done.
Qed.

(** ** Postcondition of an operation *)
Definition opres (Rel : tv → tv → tv → Prop) m df dg (o : option (bdd * nat)) : Prop :=
  ∃ m' r dr, o = Some (m', r) ∧ step m m' ∧ repr (b_ar m') dr r ∧
    rank dr ≤ rank df `max` rank dg ∧ P2 Rel df dg dr.

(** store the result and return *)
Lemma finish (Rel : tv → tv → tv → Prop) o m0 m f g df dg (x : option (bdd * nat)) :
  bwf m0 → step m0 m → repr (b_ar m0) df f → repr (b_ar m0) dg g →
  (∀ a b r, Rel a b r → oprel (bop_code o) a b r) →
  opres Rel m df dg x →
  opres Rel m0 df dg ('(m, result) ← x; m ← bdd_cache_put m o f g result; Some (m, result)).
Proof.
  intros Hw0 Hst Hf Hg Hrel (m' & r & dr & -> & Hst' & Hr & Hk & Hp). cbn [mbind option_bind].
  pose proof (step_trans _ _ _ Hst Hst') as Hst2.
  destruct (cache_put_spec m' o f g r df dg dr) as (m'' & -> & Hst3 & Ha); try done.
  { apply Hst2. }
  { eapply repr_mono; [apply Hst2|done]. }
  { eapply repr_mono; [apply Hst2|done]. }
  { intros ρ Hv. apply Hrel. by apply Hp. }
  cbn [mbind option_bind]. exists m'', r, dr. rewrite Ha. sp; try done. by eapply step_trans.
Qed.

Lemma opres_const Rel m df dg r dr : bwf m → repr (b_ar m) dr r →
  rank dr ≤ rank df `max` rank dg → P2 Rel df dg dr → opres Rel m df dg (Some (m, r)).
Proof. intros. exists m, r, dr. sp; done. Qed.

Lemma opres_const_st Rel m0 m df dg r dr : step m0 m → repr (b_ar m) dr r →
  rank dr ≤ rank df `max` rank dg → P2 Rel df dg dr → opres Rel m0 df dg (Some (m, r)).
Proof. intros. exists m, r, dr. sp; try done. Qed.

(** two recursive calls, then create_node *)
Lemma recurse2 Rel m h hd df dg (x0 : option (bdd * nat)) (x1 : bdd → option (bdd * nat)) :
  bwf m → ar_headers (b_ar m) !! h = Some hd → okdd E2 df → okdd E2 dg →
  rank df ≤ S (h_level hd) → rank dg ≤ S (h_level hd) →
  rank df `max` rank dg = S (h_level hd) →
  opres Rel m (cof df (h_level hd) 0) (cof dg (h_level hd) 0) x0 →
  (∀ m1, step m m1 → opres Rel m1 (cof df (h_level hd) 1) (cof dg (h_level hd) 1) (x1 m1)) →
  opres Rel m df dg ('(m, low) ← x0; '(m, high) ← x1 m; Some (bdd_create_node m h low high)).
Proof.
  intros Hw Hh Hof Hog Hrf Hrg Hmax (m1 & lo & dlo & -> & Hst1 & Hlo & Hk0 & P0) H1.
  cbn [mbind option_bind].
  destruct (H1 _ Hst1) as (m2 & hi & dhi & -> & Hst2 & Hhi & Hk1 & P1). cbn [mbind option_bind].
  pose proof (cof_rank E2 df (h_level hd)) as Cf. pose proof (cof_rank E2 dg (h_level hd)) as Cg.
  assert (0 < E2 (h_level hd)) by (unfold E2; lia). assert (1 < E2 (h_level hd)) by (unfold E2; lia).
  pose proof (Cf 0). pose proof (Cf 1). pose proof (Cg 0). pose proof (Cg 1).
  destruct (shannon2 Rel m2 h hd lo hi df dg dlo dhi) as (m3 & r & dr & Heq & Hst3 & Hr & Hrk & Hp); try done.
  { apply Hst2. }
  { pose proof Hst1 as (_ & _ & Hd1). pose proof Hst2 as (_ & _ & Hd2). congruence. }
  { eapply repr_mono; [apply Hst2|done]. }
  { etransitivity; [exact Hk0|]. apply Nat.max_lub; auto. }
  { etransitivity; [exact Hk1|]. apply Nat.max_lub; auto. }
  rewrite Heq. exists m3, r, dr. sp; try done; [|lia].
  eapply step_trans; [exact Hst1|]. by eapply step_trans.
Qed.

(** ** not *)
Lemma not_spec n : ∀ m f df, bwf m → repr (b_ar m) df f → rank df < n →
  opres Rnot m df (Leaf TZero) (bdd_not_f n m f).
Proof.
  induction n as [|n IH]; intros m f df Hw Hf Hn; [lia|]. cbn [bdd_not_f].
  pose proof (bw_good _ Hw) as Hg.
  rewrite cache_get_eq by done. cbn [mbind option_bind].
  destruct (cfind _ _) as [v|] eqn:Hc; cbn [option_map].
  { destruct (cache_hit m OpNot f 0 df (Leaf TZero) v) as (dr & Hr & Hk & Hp); try done.
    { apply (gd_zero _ Hg). }
    by eapply opres_const. }
  destruct df as [t|hd ds].
  - pose proof Hf as [Hl Ht]%repr_leaf. rewrite Ht. cbn [mbind option_bind].
    eapply (finish Rnot OpNot m m); [done|by apply step_refl|done|apply (gd_zero _ Hg)|done|].
    destruct t; (eapply opres_const; [done|by apply Hg|done|done]).
  - destruct (repr_node2 _ _ _ _ Hg Hf) as (h & lo & hi & dlo & dhi & -> & Hnd & Hh & Hlo & Hhi & Hr0 & Hr1).
    rewrite Hnd. cbn [mbind option_bind edges2]. cbn [rank] in Hn.
    eapply (finish Rnot OpNot m m); [done|by apply step_refl|done|apply (gd_zero _ Hg)|done|].
    assert (Hdec : decide (h_level hd = h_level hd) = left eq_refl).
    { destruct (decide (h_level hd = h_level hd)); [|done]. f_equal. apply proof_irrel. }
    eapply (recurse2 Rnot m h hd); try done.
    + by eapply good_ok.
    + cbn; lia.
    + cbn [cof]. rewrite Hdec. cbn. apply IH; [done|done|lia].
    + intros m1 Hst1. cbn [cof]. rewrite Hdec. cbn.
      apply IH; [apply Hst1|eapply repr_mono; [apply Hst1|done]|lia].
Qed.

(** ** binary operations *)
Definition symrel (Rel : tv → tv → tv → Prop) : Prop := ∀ a b r, Rel a b r → Rel b a r.

Lemma swap_ops Rel m f g df dg : symrel Rel →
  repr (b_ar m) df f → repr (b_ar m) dg g →
  ∃ f' g' df' dg', (if g <? f then (g, f) else (f, g)) = (f', g') ∧
    repr (b_ar m) df' f' ∧ repr (b_ar m) dg' g' ∧
    rank df' `max` rank dg' = rank df `max` rank dg ∧
    (∀ x, opres Rel m df' dg' x → opres Rel m df dg x).
Proof.
  intros Hs Hf Hg. destruct (g <? f).
  - exists g, f, dg, df. sp; try done; [lia|].
    intros x (m' & r & dr & -> & Hst & Hr & Hk & Hp). exists m', r, dr. sp; try done; [lia|].
    intros ρ Hv. apply Hs. by apply Hp.
  - exists f, g, df, dg. sp; try done.
Qed.

Lemma hdr_level_eq (a : arena tv) h hd : ar_headers a !! h = Some hd → hdr_level a h = Some (h_level hd).
Proof. unfold hdr_level. by intros ->. Qed.

Lemma cof_same hd (ds : list (dd tv)) i : cof (Br hd ds) (h_level hd) i = default (Br hd ds) (ds !! i).
Proof. cbn [cof]. by rewrite decide_True. Qed.

(** the non-terminal/non-terminal arms, shared shape of and/or/xor *)
Lemma nt_arms Rel (rec : bdd → nat → nat → option (bdd * nat)) n m f g hdf dsf hdg dsg
    hf f0 f1 hg g0 g1 df0 df1 dg0 dg1 :
  bwf m →
  (∀ m f g df dg, bwf m → repr (b_ar m) df f → repr (b_ar m) dg g →
     rank df `max` rank dg < n → opres Rel m df dg (rec m f g)) →
  dsf = [df0; df1] → dsg = [dg0; dg1] →
  repr (b_ar m) (Br hdf dsf) f → repr (b_ar m) (Br hdg dsg) g →
  ar_headers (b_ar m) !! hf = Some hdf → ar_headers (b_ar m) !! hg = Some hdg →
  repr (b_ar m) df0 f0 → repr (b_ar m) df1 f1 → repr (b_ar m) dg0 g0 → repr (b_ar m) dg1 g1 →
  rank df0 ≤ h_level hdf → rank df1 ≤ h_level hdf → rank dg0 ≤ h_level hdg → rank dg1 ≤ h_level hdg →
  rank (Br hdf dsf) `max` rank (Br hdg dsg) < S n →
  opres Rel m (Br hdf dsf) (Br hdg dsg)
   (if h_level hdg <? h_level hdf then
      '(m, low) ← rec m f0 g; '(m, high) ← rec m f1 g; Some (bdd_create_node m hf low high)
    else if h_level hdf <? h_level hdg then
      '(m, low) ← rec m f g0; '(m, high) ← rec m f g1; Some (bdd_create_node m hg low high)
    else
      '(m, low) ← rec m f0 g0; '(m, high) ← rec m f1 g1; Some (bdd_create_node m hf low high)).
Proof.
  intros Hw IH -> -> Hf Hg Hhf Hhg Hf0 Hf1 Hg0 Hg1 Rf0 Rf1 Rg0 Rg1 Hn.
  pose proof (bw_good _ Hw) as Hgd.
  pose proof (good_ok _ _ _ Hgd Hf) as Hof. pose proof (good_ok _ _ _ Hgd Hg) as Hog.
  change (rank (Br hdf [df0; df1])) with (S (h_level hdf)) in *.
  change (rank (Br hdg [dg0; dg1])) with (S (h_level hdg)) in *.
  destruct (Nat.ltb_spec (h_level hdg) (h_level hdf)) as [Hlt|Hge].
  - eapply (recurse2 Rel m hf hdf (Br hdf [df0; df1]) (Br hdg [dg0; dg1])
      (rec m f0 g) (λ m, rec m f1 g)); try done; try (cbn [rank]; lia).
    + rewrite cof_same, cof_low by (cbn [rank]; lia). cbn [lookup list_lookup from_option]; unfold id.
      apply IH; try done. cbn [rank]; lia.
    + intros m1 (Hw1 & He1 & _). rewrite cof_same, cof_low by (cbn [rank]; lia).
      cbn [lookup list_lookup from_option]; unfold id.
      apply IH; try done; try (by eapply repr_mono). cbn [rank]; lia.
  - destruct (Nat.ltb_spec (h_level hdf) (h_level hdg)) as [Hlt|Hge'].
    + eapply (recurse2 Rel m hg hdg (Br hdf [df0; df1]) (Br hdg [dg0; dg1])
        (rec m f g0) (λ m, rec m f g1)); try done; try (cbn [rank]; lia).
      * rewrite cof_same, cof_low by (cbn [rank]; lia). cbn [lookup list_lookup from_option]; unfold id.
        apply IH; try done. cbn [rank]; lia.
      * intros m1 (Hw1 & He1 & _). rewrite cof_same, cof_low by (cbn [rank]; lia).
        cbn [lookup list_lookup from_option]; unfold id.
        apply IH; try done; try (by eapply repr_mono). cbn [rank]; lia.
    + assert (Hll : h_level hdf = h_level hdg) by lia.
      eapply (recurse2 Rel m hf hdf (Br hdf [df0; df1]) (Br hdg [dg0; dg1])
        (rec m f0 g0) (λ m, rec m f1 g1)); try done; try (cbn [rank]; lia).
      * rewrite cof_same. rewrite Hll, cof_same. cbn [lookup list_lookup from_option]; unfold id.
        apply IH; try done. cbn [rank]; lia.
      * intros m1 (Hw1 & He1 & _). rewrite cof_same. rewrite Hll, cof_same.
        cbn [lookup list_lookup from_option]; unfold id.
        apply IH; try done; try (by eapply repr_mono). cbn [rank]; lia.
Qed.

Lemma ev_leaf ρ t : ev ρ (Leaf t) = t.
Proof. done. Qed.

Lemma sym_and : symrel Rand.
Proof. intros [] [] r; unfold Rand; cbn; tauto. Qed.
Lemma sym_or : symrel Ror.
Proof. intros [] [] r; unfold Ror; cbn; tauto. Qed.
Lemma sym_xor : symrel Rxor.
Proof. intros [] [] r; unfold Rxor; cbn; tauto. Qed.

(** close a terminal arm: result is [r] representing [dr] *)
Ltac arm dr :=
  eapply (opres_const _ _ _ _ _ dr);
  [done | first [done | by apply (gd_zero _) | by apply (gd_one _) | by apply (gd_undet _)]
  | cbn [rank]; lia
  | intros ρ Hv; rewrite ?ev_leaf; unfold Rand, Ror, Rxor; 
    repeat match goal with |- context [ev ρ ?d] => destruct (ev ρ d) end; cbn; intuition congruence ].

Lemma and_spec n : ∀ m f g df dg, bwf m → repr (b_ar m) df f → repr (b_ar m) dg g →
  rank df `max` rank dg < n → opres Rand m df dg (bdd_and_f n m f g).
Proof.
  induction n as [|n IH]; intros m f g df dg Hw Hf Hg Hn; [lia|]. cbn [bdd_and_f].
  destruct (Nat.eqb_spec f g) as [->|Hne].
  { rewrite (repr_fun _ _ _ _ Hf Hg). eapply opres_const; [done|done|lia|].
    intros ρ Hv. unfold Rand. destruct (ev ρ dg); cbn; tauto. }
  destruct (swap_ops Rand m f g df dg sym_and Hf Hg) as (f' & g' & df' & dg' & -> & Hf' & Hg' & Hmx & Hback).
  apply Hback. clear Hback. rewrite <- Hmx in Hn. clear Hmx Hne Hf Hg f g df dg.
  pose proof (bw_good _ Hw) as Hgd.
  rewrite cache_get_eq by done. cbn [mbind option_bind].
  destruct (cfind _ _) as [v|] eqn:Hc; cbn [option_map].
  { destruct (cache_hit m OpAnd f' g' df' dg' v) as (dr & Hr & Hk & Hp); try done.
    by eapply opres_const. }
  destruct (live_lookup _ _ (repr_live _ _ _ Hf')) as [fn Hfn].
  destruct (live_lookup _ _ (repr_live _ _ _ Hg')) as [gn Hgn].
  rewrite Hfn, Hgn. cbn [mbind option_bind].
  eapply (finish Rand OpAnd m m); [done|by apply step_refl|done|done|done|].
  destruct df' as [tf|hdf dsf].
  - pose proof Hf' as [_ Ht]%repr_leaf. rewrite Hfn in Ht. injection Ht as ->.
    destruct dg' as [tg|hdg dsg].
    + pose proof Hg' as [_ Ht]%repr_leaf. rewrite Hgn in Ht. injection Ht as ->.
      destruct tf, tg; first [arm (Leaf TZero : dd tv) | arm (Leaf TOne : dd tv) | arm (Leaf TUndet : dd tv)].
    + destruct (repr_node2 _ _ _ _ Hgd Hg') as (h & lo & hi & dlo & dhi & -> & Hnd & _).
      rewrite Hgn in Hnd. injection Hnd as ->.
      destruct tf; first [arm (Leaf TZero : dd tv) | arm (Leaf TUndet : dd tv) | arm (Br hdg [dlo; dhi])].
  - destruct (repr_node2 _ _ _ _ Hgd Hf') as (h & lo & hi & dlo & dhi & -> & Hnd & Hh & Hlo & Hhi & Hr0 & Hr1).
    rewrite Hfn in Hnd. injection Hnd as ->.
    destruct dg' as [tg|hdg dsg].
    + pose proof Hg' as [_ Ht]%repr_leaf. rewrite Hgn in Ht. injection Ht as ->.
      destruct tg; first [arm (Leaf TZero : dd tv) | arm (Leaf TUndet : dd tv) | arm (Br hdf [dlo; dhi])].
    + destruct (repr_node2 _ _ _ _ Hgd Hg') as
        (h' & lo' & hi' & dlo' & dhi' & -> & Hnd & Hh' & Hlo' & Hhi' & Hr0' & Hr1').
      rewrite Hgn in Hnd. injection Hnd as ->.
      rewrite (hdr_level_eq _ _ _ Hh), (hdr_level_eq _ _ _ Hh'). cbn [mbind option_bind edges2].
      eapply nt_arms; done.
Qed.

Lemma or_spec n : ∀ m f g df dg, bwf m → repr (b_ar m) df f → repr (b_ar m) dg g →
  rank df `max` rank dg < n → opres Ror m df dg (bdd_or_f n m f g).
Proof.
  induction n as [|n IH]; intros m f g df dg Hw Hf Hg Hn; [lia|]. cbn [bdd_or_f].
  destruct (Nat.eqb_spec f g) as [->|Hne].
  { rewrite (repr_fun _ _ _ _ Hf Hg). eapply opres_const; [done|done|lia|].
    intros ρ Hv. unfold Ror. destruct (ev ρ dg); cbn; tauto. }
  destruct (swap_ops Ror m f g df dg sym_or Hf Hg) as (f' & g' & df' & dg' & -> & Hf' & Hg' & Hmx & Hback).
  apply Hback. clear Hback. rewrite <- Hmx in Hn. clear Hmx Hne Hf Hg f g df dg.
  pose proof (bw_good _ Hw) as Hgd.
  rewrite cache_get_eq by done. cbn [mbind option_bind].
  destruct (cfind _ _) as [v|] eqn:Hc; cbn [option_map].
  { destruct (cache_hit m OpOr f' g' df' dg' v) as (dr & Hr & Hk & Hp); try done.
    by eapply opres_const. }
  destruct (live_lookup _ _ (repr_live _ _ _ Hf')) as [fn Hfn].
  destruct (live_lookup _ _ (repr_live _ _ _ Hg')) as [gn Hgn].
  rewrite Hfn, Hgn. cbn [mbind option_bind].
  eapply (finish Ror OpOr m m); [done|by apply step_refl|done|done|done|].
  destruct df' as [tf|hdf dsf].
  - pose proof Hf' as [_ Ht]%repr_leaf. rewrite Hfn in Ht. injection Ht as ->.
    destruct dg' as [tg|hdg dsg].
    + pose proof Hg' as [_ Ht]%repr_leaf. rewrite Hgn in Ht. injection Ht as ->.
      destruct tf, tg; first [arm (Leaf TZero : dd tv) | arm (Leaf TOne : dd tv) | arm (Leaf TUndet : dd tv)].
    + destruct (repr_node2 _ _ _ _ Hgd Hg') as (h & lo & hi & dlo & dhi & -> & Hnd & _).
      rewrite Hgn in Hnd. injection Hnd as ->.
      destruct tf; first [arm (Leaf TOne : dd tv) | arm (Leaf TUndet : dd tv) | arm (Br hdg [dlo; dhi])].
  - destruct (repr_node2 _ _ _ _ Hgd Hf') as (h & lo & hi & dlo & dhi & -> & Hnd & Hh & Hlo & Hhi & Hr0 & Hr1).
    rewrite Hfn in Hnd. injection Hnd as ->.
    destruct dg' as [tg|hdg dsg].
    + pose proof Hg' as [_ Ht]%repr_leaf. rewrite Hgn in Ht. injection Ht as ->.
      destruct tg; first [arm (Leaf TOne : dd tv) | arm (Leaf TUndet : dd tv) | arm (Br hdf [dlo; dhi])].
    + destruct (repr_node2 _ _ _ _ Hgd Hg') as
        (h' & lo' & hi' & dlo' & dhi' & -> & Hnd & Hh' & Hlo' & Hhi' & Hr0' & Hr1').
      rewrite Hgn in Hnd. injection Hnd as ->.
      rewrite (hdr_level_eq _ _ _ Hh), (hdr_level_eq _ _ _ Hh'). cbn [mbind option_bind edges2].
      eapply nt_arms; done.
Qed.

Lemma xor_one_l m dg x : opres Rnot m dg (Leaf TZero) x → opres Rxor m (Leaf TOne) dg x.
Proof.
  intros (m' & r & dr & -> & Hst & Hr & Hk & Hp). exists m', r, dr. sp; try done; [cbn [rank] in *; lia|].
  intros ρ Hv. rewrite (Hp ρ Hv), ev_leaf. unfold Rxor. by destruct (ev ρ dg).
Qed.
Lemma xor_one_r m df x : opres Rnot m df (Leaf TZero) x → opres Rxor m df (Leaf TOne) x.
Proof.
  intros (m' & r & dr & -> & Hst & Hr & Hk & Hp). exists m', r, dr. sp; try done.
  intros ρ Hv. rewrite (Hp ρ Hv), ev_leaf. unfold Rxor. by destruct (ev ρ df).
Qed.

Lemma xor_spec n : ∀ m f g df dg, bwf m → repr (b_ar m) df f → repr (b_ar m) dg g →
  rank df `max` rank dg < n → opres Rxor m df dg (bdd_xor_f n m f g).
Proof.
  induction n as [|n IH]; intros m f g df dg Hw Hf Hg Hn; [lia|]. cbn [bdd_xor_f].
  destruct (Nat.eqb_spec f g) as [->|Hne].
  { rewrite (repr_fun _ _ _ _ Hf Hg). pose proof (bw_good _ Hw) as Hgd.
    destruct (Nat.eqb_spec g bdd_undet) as [->|_].
    - rewrite (repr_fun _ _ _ _ Hg (gd_undet _ Hgd)).
      eapply opres_const; [done|apply (gd_undet _ Hgd)|cbn; lia|]. intros ρ Hv. done.
    - eapply opres_const; [done|apply (gd_zero _ Hgd)|cbn; lia|].
      intros ρ Hv. unfold Rxor. rewrite ev_leaf. by destruct (ev ρ dg). }
  destruct (swap_ops Rxor m f g df dg sym_xor Hf Hg) as (f' & g' & df' & dg' & -> & Hf' & Hg' & Hmx & Hback).
  apply Hback. clear Hback. rewrite <- Hmx in Hn. clear Hmx Hne Hf Hg f g df dg.
  pose proof (bw_good _ Hw) as Hgd.
  rewrite cache_get_eq by done. cbn [mbind option_bind].
  destruct (cfind _ _) as [v|] eqn:Hc; cbn [option_map].
  { destruct (cache_hit m OpXOr f' g' df' dg' v) as (dr & Hr & Hk & Hp); try done.
    by eapply opres_const. }
  destruct (live_lookup _ _ (repr_live _ _ _ Hf')) as [fn Hfn].
  destruct (live_lookup _ _ (repr_live _ _ _ Hg')) as [gn Hgn].
  rewrite Hfn, Hgn. cbn [mbind option_bind].
  eapply (finish Rxor OpXOr m m); [done|by apply step_refl|done|done|done|].
  destruct df' as [tf|hdf dsf].
  - pose proof Hf' as [_ Ht]%repr_leaf. rewrite Hfn in Ht. injection Ht as ->.
    destruct dg' as [tg|hdg dsg].
    + pose proof Hg' as [_ Ht]%repr_leaf. rewrite Hgn in Ht. injection Ht as ->.
      destruct tf, tg; try (eapply xor_one_l; [apply not_spec; [done|done|cbn [rank] in *; lia]]);
        try (eapply xor_one_r; [apply not_spec; [done|done|cbn [rank] in *; lia]]);
        first [arm (Leaf TZero : dd tv) | arm (Leaf TOne : dd tv) | arm (Leaf TUndet : dd tv)].
    + destruct (repr_node2 _ _ _ _ Hgd Hg') as (h & lo & hi & dlo & dhi & -> & Hnd & _).
      rewrite Hgn in Hnd. injection Hnd as ->.
      destruct tf; try (eapply xor_one_l; [apply not_spec; [done|done|cbn [rank] in *; lia]]);
        first [arm (Leaf TZero : dd tv) | arm (Leaf TUndet : dd tv) | arm (Br hdg [dlo; dhi])].
  - destruct (repr_node2 _ _ _ _ Hgd Hf') as (h & lo & hi & dlo & dhi & -> & Hnd & Hh & Hlo & Hhi & Hr0 & Hr1).
    rewrite Hfn in Hnd. injection Hnd as ->.
    destruct dg' as [tg|hdg dsg].
    + pose proof Hg' as [_ Ht]%repr_leaf. rewrite Hgn in Ht. injection Ht as ->.
      destruct tg; try (eapply xor_one_r; [apply not_spec; [done|done|cbn [rank] in *; lia]]);
        first [arm (Leaf TZero : dd tv) | arm (Leaf TUndet : dd tv) | arm (Br hdf [dlo; dhi])].
    + destruct (repr_node2 _ _ _ _ Hgd Hg') as
        (h' & lo' & hi' & dlo' & dhi' & -> & Hnd & Hh' & Hlo' & Hhi' & Hr0' & Hr1').
      rewrite Hgn in Hnd. injection Hnd as ->.
      rewrite (hdr_level_eq _ _ _ Hh), (hdr_level_eq _ _ _ Hh'). cbn [mbind option_bind edges2].
      eapply nt_arms; done.
Qed.

(** ** ite *)
Definition ires m df dg dh (o : option (bdd * nat)) : Prop :=
  ∃ m' r dr, o = Some (m', r) ∧ step m m' ∧ repr (b_ar m') dr r ∧
    rank dr ≤ rank df `max` rank dg `max` rank dh ∧ P3 Rite df dg dh dr.

Lemma node_level_eq a d id : good a → repr a d id →
  ar_node_level a id = Some (match d with Leaf _ => None | Br hd _ => Some (h_level hd) end).
Proof.
  intros Hg Hr. unfold ar_node_level. destruct d as [t|hd ds].
  - apply repr_leaf in Hr as [_ ->]. done.
  - apply repr_br in Hr as [_ (h & cs & -> & Hh & _)]. by rewrite Hh.
Qed.

Lemma top_step_eq m d id top : bwf m → repr (b_ar m) d id →
  bdd_top_step m top id = Some (top `max` Nat.pred (rank d)).
Proof.
  intros Hw Hr. unfold bdd_top_step. rewrite (node_level_eq _ _ _ (bw_good _ Hw) Hr). cbn [mbind option_bind].
  destruct d as [t|hd ds]; cbn [rank Nat.pred]; f_equal; [lia|].
  destruct (Nat.ltb_spec top (h_level hd)); lia.
Qed.

Lemma cofactor_eq m d id top : bwf m → repr (b_ar m) d id → rank d ≤ S top →
  ∃ c0 c1, bdd_cofactor m id top = Some (c0, c1) ∧ repr (b_ar m) (cof d top 0) c0 ∧
    repr (b_ar m) (cof d top 1) c1.
Proof.
  intros Hw Hr Hk. unfold bdd_cofactor. rewrite (node_level_eq _ _ _ (bw_good _ Hw) Hr).
  cbn [mbind option_bind]. destruct d as [t|hd ds].
  - rewrite decide_False by done. by exists id, id.
  - destruct (repr_node2 _ _ _ _ (bw_good _ Hw) Hr) as (h & lo & hi & dlo & dhi & -> & Hnd & Hh & Hlo & Hhi & _).
    destruct (decide (h_level hd = top)) as [<-|Hne].
    + rewrite decide_True by done. rewrite Hnd. cbn [mbind option_bind edges2].
      exists lo, hi. rewrite !cof_same. done.
    + rewrite decide_False by congruence. exists id, id. cbn [rank] in Hk.
      rewrite !cof_low by (cbn [rank]; lia). done.
Qed.

Lemma top_header_eq m xs ds top : bwf m → Forall2 (repr (b_ar m)) ds xs →
  (∃ d, d ∈ ds ∧ rank d = S top) →
  ∃ h hd, bdd_top_header m xs top = Some h ∧ ar_headers (b_ar m) !! h = Some hd ∧ h_level hd = top.
Proof.
  intros Hw. induction 1 as [|d x ds xs Hr Hf IH]; intros (d' & Hin & Hk).
  { by apply elem_of_nil in Hin. }
  cbn [bdd_top_header]. rewrite (node_level_eq _ _ _ (bw_good _ Hw) Hr). cbn [mbind option_bind].
  destruct d as [t|hd cs].
  - rewrite decide_False by done. apply IH. apply elem_of_cons in Hin as [->|Hin]; [done|]. by exists d'.
  - apply repr_br in Hr as [_ (h & ids & Hn & Hh & _)].
    destruct (decide (h_level hd = top)) as [<-|Hne].
    + rewrite decide_True by done. rewrite Hn. cbn. by exists h, hd.
    + rewrite decide_False by congruence. apply IH. apply elem_of_cons in Hin as [->|Hin].
      * cbn in Hk. lia.
      * by exists d'.
Qed.

Lemma ite_spec n : ∀ m f g h df dg dh, bwf m →
  repr (b_ar m) df f → repr (b_ar m) dg g → repr (b_ar m) dh h →
  rank df `max` rank dg `max` rank dh < n → ires m df dg dh (bdd_ite_f n m f g h).
Proof.
  induction n as [|n IH]; intros m f g h df dg dh Hw Hf Hg Hh Hn; [lia|]. cbn [bdd_ite_f].
  pose proof (bw_good _ Hw) as Hgd.
  destruct df as [t|hd ds].
  { pose proof Hf as [_ Ht]%repr_leaf. rewrite Ht. cbn [mbind option_bind].
    destruct t; (eexists m, _, _; split; [done|]; split; [by apply step_refl|]); sp; try done;
      try (apply (gd_undet _ Hgd)); cbn [rank]; try lia.
    - intros ρ Hv. by left. }
  destruct (repr_node2 _ _ _ _ Hgd Hf) as (hf & lo & hi & dlo & dhi & -> & Hnd & Hhd & Hlo & Hhi & Hr0 & Hr1).
  rewrite Hnd. cbn [mbind option_bind].
  destruct (Nat.eqb_spec g h) as [->|Hne].
  { rewrite (repr_fun _ _ _ _ Hg Hh). exists m, h, dh. sp; try done; [lia|].
    intros ρ Hv. unfold Rite. destruct (ev ρ (Br _ _)); auto. }
  rewrite ite_get_eq by done. cbn [mbind option_bind].
  destruct (cfind _ _) as [v|] eqn:Hc; cbn [option_map].
  { destruct (ite_hit m f g h _ _ _ v Hw Hf Hg Hh Hc) as (dr & Hr & Hk & Hp).
    exists m, (N.to_nat v), dr. sp; try done. }
  rewrite (hdr_level_eq _ _ _ Hhd). cbn [mbind option_bind].
  rewrite (top_step_eq _ _ _ _ Hw Hg). cbn [mbind option_bind].
  rewrite (top_step_eq _ _ _ _ Hw Hh). cbn [mbind option_bind].
  set (top := (h_level hd `max` Nat.pred (rank dg)) `max` Nat.pred (rank dh)).
  set (df := Br hd [dlo; dhi]) in *.
  assert (Hrf : rank df = S (h_level hd)) by done. rewrite Hrf in Hn.
  assert (Hmax : rank df `max` rank dg `max` rank dh = S top) by (subst top; lia).
  assert (rank df ≤ S top ∧ rank dg ≤ S top ∧ rank dh ≤ S top) as (Kf & Kg & Kh) by lia.
  destruct (cofactor_eq m df f top Hw Hf Kf) as (f0 & f1 & -> & Hf0 & Hf1).
  destruct (cofactor_eq m dg g top Hw Hg Kg) as (g0 & g1 & -> & Hg0 & Hg1).
  destruct (cofactor_eq m dh h top Hw Hh Kh) as (h0 & h1 & -> & Hh0 & Hh1).
  cbn [mbind option_bind].
  destruct (top_header_eq m [f; g; h] [df; dg; dh] top) as (hid & thd & -> & Hth & Htl); try done.
  { repeat (apply Forall2_cons; split; [done|]). done. }
  { destruct (decide (rank df = S top)); [exists df; split; [set_solver|done]|].
    destruct (decide (rank dg = S top)); [exists dg; split; [set_solver|done]|].
    exists dh; split; [set_solver|lia]. }
  cbn [mbind option_bind].
  pose proof (good_ok _ _ _ Hgd Hf) as Of. pose proof (good_ok _ _ _ Hgd Hg) as Og.
  pose proof (good_ok _ _ _ Hgd Hh) as Oh.
  assert (0 < E2 top) as I0 by (unfold E2; lia). assert (1 < E2 top) as I1 by (unfold E2; lia).
  pose proof (cof_rank E2 df top 0 Of I0 Kf). pose proof (cof_rank E2 df top 1 Of I1 Kf).
  pose proof (cof_rank E2 dg top 0 Og I0 Kg). pose proof (cof_rank E2 dg top 1 Og I1 Kg).
  pose proof (cof_rank E2 dh top 0 Oh I0 Kh). pose proof (cof_rank E2 dh top 1 Oh I1 Kh).
  destruct (IH m f0 g0 h0 _ _ _ Hw Hf0 Hg0 Hh0) as (m1 & l & dl & -> & Hst1 & Hl & Hkl & Pl).
  { lia. }
  cbn [mbind option_bind]. pose proof Hst1 as (Hw1 & He1 & Hd1).
  destruct (IH m1 f1 g1 h1 (cof df top 1) (cof dg top 1) (cof dh top 1)) as (m2 & r & dr & -> & Hst2 & Hr & Hkr & Pr);
    try done; try (by eapply repr_mono).
  { lia. }
  cbn [mbind option_bind]. pose proof Hst2 as (Hw2 & He2 & Hd2).
  subst top. rewrite <- Htl in *.
  destruct (shannon3 Rite m2 hid thd l r df dg dh dl dr) as (m3 & x & dx & -> & Hst3 & Hx & Hkx & Px); try done.
  { congruence. }
  { by eapply repr_mono. }
  { lia. }
  { lia. }
  pose proof Hst3 as (Hw3 & He3 & Hd3).
  assert (He03 : ext (b_ar m) (b_ar m3)) by (eapply ext_trans; [done|by eapply ext_trans]).
  destruct (ite_put_spec m3 f g h x df dg dh dx) as (m4 & -> & Hst4 & Ha4); try done;
    try (by eapply repr_mono).
  { lia. }
  cbn [mbind option_bind]. exists m4, x, dx. rewrite Ha4. sp; try done; [|lia].
  eapply step_trans; [exact Hst1|]. eapply step_trans; [exact Hst2|]. by eapply step_trans.
Qed.

(** ** API fuel *)
Lemma fuel_enough a d id : good a → repr a d id → rank d < ar_fuel a.
Proof.
  intros Hg Hr. unfold ar_fuel. destruct d as [t|hd ds]; [cbn; lia|].
  apply repr_br in Hr as [_ (h & cs & _ & Hh & _)]. cbn [rank].
  apply elem_of_list_lookup_2 in Hh.
  assert (∀ l, hd ∈ l → S (h_level hd) ≤ max_list_with (λ hd, S (h_level hd)) l) as Hmx.
  { induction l as [|x l IH]; [by intros ?%elem_of_nil|]. intros [->|Hin]%elem_of_cons; cbn; [lia|].
    specialize (IH Hin). lia. }
  specialize (Hmx _ Hh). lia.
Qed.

Lemma bdd_not_ok m f df : bwf m → repr (b_ar m) df f → opres Rnot m df (Leaf TZero) (bdd_not m f).
Proof. intros Hw Hf. apply not_spec; try done. eapply fuel_enough; [apply Hw|done]. Qed.
Lemma bdd_and_ok m f g df dg : bwf m → repr (b_ar m) df f → repr (b_ar m) dg g →
  opres Rand m df dg (bdd_and m f g).
Proof.
  intros Hw Hf Hg. pose proof (fuel_enough _ _ _ (bw_good _ Hw) Hf).
  pose proof (fuel_enough _ _ _ (bw_good _ Hw) Hg). apply and_spec; try done. lia.
Qed.
Lemma bdd_or_ok m f g df dg : bwf m → repr (b_ar m) df f → repr (b_ar m) dg g →
  opres Ror m df dg (bdd_or m f g).
Proof.
  intros Hw Hf Hg. pose proof (fuel_enough _ _ _ (bw_good _ Hw) Hf).
  pose proof (fuel_enough _ _ _ (bw_good _ Hw) Hg). apply or_spec; try done. lia.
Qed.
Lemma bdd_xor_ok m f g df dg : bwf m → repr (b_ar m) df f → repr (b_ar m) dg g →
  opres Rxor m df dg (bdd_xor m f g).
Proof.
  intros Hw Hf Hg. pose proof (fuel_enough _ _ _ (bw_good _ Hw) Hf).
  pose proof (fuel_enough _ _ _ (bw_good _ Hw) Hg). apply xor_spec; try done. lia.
Qed.
Lemma bdd_ite_ok m f g h df dg dh : bwf m →
  repr (b_ar m) df f → repr (b_ar m) dg g → repr (b_ar m) dh h → ires m df dg dh (bdd_ite m f g h).
Proof.
  intros Hw Hf Hg Hh. pose proof (fuel_enough _ _ _ (bw_good _ Hw) Hf).
  pose proof (fuel_enough _ _ _ (bw_good _ Hw) Hg). pose proof (fuel_enough _ _ _ (bw_good _ Hw) Hh).
  apply ite_spec; try done. lia.
Qed.

(** ** new, create_header, gc, clear_cache *)
Lemma new_ok : bwf bdd_new.
Proof.
  assert (Hl : ∀ i, live (b_ar bdd_new) i ↔ i < 3).
  { intros i. unfold live. cbn. split; [by intros [? _]|]. split; [done|apply not_elem_of_nil]. }
  constructor; cbn.
  - constructor; cbn.
    + constructor; cbn.
      * intros h hd H. by rewrite lookup_nil in H.
      * constructor.
      * intros id H. by apply elem_of_nil in H.
      * intros id h cs H. apply Hl in H. destruct id as [|[|[|]]]; cbn; intros; [done..|lia].
      * intros h cs id. rewrite lookup_empty. split; [done|]. intros [H Hn].
        apply Hl in H. destruct id as [|[|[|]]]; cbn in *; [done..|lia].
      * intros i j t Hi Hj Hni Hnj. apply Hl in Hi, Hj.
        destruct i as [|[|[|]]], j as [|[|[|]]]; cbn in *; try lia; congruence.
    + split; [apply Hl; unfold bdd_zero; lia|done].
    + split; [apply Hl; unfold bdd_one; lia|done].
    + split; [apply Hl; unfold bdd_undet; lia|done].
    + intros h hd H. by rewrite lookup_nil in H.
  - apply cc_new_wf.
  - apply cc_new_wf.
  - intros k v Hv. by rewrite cc_new_find in Hv.
  - intros k v Hv. by rewrite cc_new_find in Hv.
Qed.

Lemma create_header_ok m level label m' h : bwf m → bdd_create_header m level label = (m', h) →
  bwf m' ∧ ext (b_ar m) (b_ar m') ∧ h = length (ar_headers (b_ar m)) ∧
  ar_headers (b_ar m') = ar_headers (b_ar m) ++ [Header h level label 2] ∧
  ar_nodes (b_ar m') = ar_nodes (b_ar m) ∧ (∀ i, live (b_ar m') i ↔ live (b_ar m) i).
Proof.
  intros Hw. unfold bdd_create_header. destruct (ar_create_header _ _ _ _) as [a h0] eqn:Ha.
  intros [= <- <-]. cbn [with_ar b_ar].
  destruct (create_header_spec _ _ _ _ _ _ _ (gd_wf _ (bw_good _ Hw)) Ha) as (Hwf & He & Hh & -> & Hns & Hl).
  sp; try done. destruct Hw as [[_ ? ? ? Hed] Hc Hi Hco Hio]. constructor; try done; cbn.
  - constructor; try done; try by eapply repr_mono.
    intros h hd. rewrite Hh. intros [H|[_ H]]%lookup_app_Some; [by eapply Hed|].
    destruct (_ - _) as [|k]; [|done]. cbn in H. by injection H as <-.
  - intros k v Hk. eapply centry_mono; eauto.
  - intros k v Hk. eapply ientry_mono; eauto.
Qed.

Lemma clear_cache_ok m : bwf m → bwf (bdd_clear_cache m).
Proof.
  intros [Hg Hc Hi Hco Hio]. destruct (clear_spec _ Hc) as [Hc' Hcf]. destruct (clear_spec _ Hi) as [Hi' Hif].
  constructor; try done; cbn.
  - intros k v Hv. by rewrite Hcf in Hv.
  - intros k v Hv. by rewrite Hif in Hv.
Qed.

Lemma gc_ok m roots : bwf m → (∀ r, r ∈ roots → live (b_ar m) r) →
  ∃ m' n, bdd_gc m roots = Some (m', n) ∧ bwf m' ∧
    ar_headers (b_ar m') = ar_headers (b_ar m) ∧ ar_nodes (b_ar m') = ar_nodes (b_ar m) ∧
    (∀ id, live (b_ar m') id ↔ id ∈ [bdd_zero; bdd_one; bdd_undet] ∨ reach (b_ar m) roots id) ∧
    (∀ id, live (b_ar m') id → live (b_ar m) id) ∧
    n = length (ar_free (b_ar m')).
Proof.
  intros Hw Hroots. pose proof (bw_good _ Hw) as Hg. unfold bdd_gc.
  destruct (gc_spec Rb (b_ar m) [bdd_zero; bdd_one; bdd_undet] roots)
    as (a' & lv & -> & Hwf & Hhd & Hns & Hlen & Hl & Hsub & Hm); try done.
  { apply Hg. }
  { intros b. rewrite !elem_of_cons, elem_of_nil.
    destruct Hg as [_ [??] [??] [??] _]. intros [->|[->|[->|[]]]]; eauto. }
  cbn [mbind option_bind].
  assert (Hlt : ∀ d i, repr (b_ar m) d i → i < length lv).
  { intros d i Hd. rewrite Hlen. by apply repr_live in Hd as [? _]. }
  destruct (retain_live_spec lv (b_cache m) (bw_c _ Hw)) as (c' & -> & Hcw & Hcf).
  { intros k v Hv. destruct (bw_cok _ Hw _ _ Hv) as (df & dg & dr & Hf & Hg' & Hr & _).
    unfold words2. rewrite !Forall_cons, Forall_nil. sp; eauto. }
  cbn [mbind option_bind].
  destruct (retain_live3_spec lv (b_ite m) (bw_i _ Hw)) as (i' & -> & Hiw & Hif).
  { intros k v Hv. destruct (bw_iok _ Hw _ _ Hv) as (df & dg & dh & dr & Hf & Hg' & Hh & Hr & _).
    unfold words3. rewrite !Forall_cons, Forall_nil. sp; eauto. }
  cbn [mbind option_bind]. eexists _, _. split; [done|]. cbn [b_ar].
  assert (Hrg : ∀ d i, marked lv i → repr (b_ar m) d i → repr a' d i).
  { intros d i Hi Hd. eapply repr_gc; try done. by apply Hm. }
  sp; try done. constructor; try done; cbn.
  - destruct Hg as [? Hz Ho Hu He]. constructor; try done.
    + apply Hrg; [|done]. apply Hm, Hl. left. set_solver.
    + apply Hrg; [|done]. apply Hm, Hl. left. set_solver.
    + apply Hrg; [|done]. apply Hm, Hl. left. set_solver.
    + by rewrite Hhd.
  - intros k v Hv. apply Hcf in Hv as [Hv Hal]. unfold words2 in Hal. rewrite !Forall_cons in Hal.
    destruct Hal as (A1 & A2 & A3 & _).
    destruct (bw_cok _ Hw _ _ Hv) as (df & dg & dr & Hf & Hg' & Hr & Hk & Hp).
    exists df, dg, dr. sp; try done; by apply Hrg.
  - intros k v Hv. apply Hif in Hv as [Hv Hal]. unfold words3 in Hal. rewrite !Forall_cons in Hal.
    destruct Hal as (A0 & A1 & A2 & A3 & _).
    destruct (bw_iok _ Hw _ _ Hv) as (df & dg & dh & dr & Hf & Hg' & Hh & Hr & Hk & Hp).
    exists df, dg, dh, dr. sp; try done; by apply Hrg.
Qed.
