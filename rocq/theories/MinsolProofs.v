(** Correctness of [without] and [minsol] (internal lemmas, stated on trees). *)
From Verif Require Import Prelude ComputeCache ComputeCacheProofs Arena Trees ArenaProofs ArenaMore Bdd BddProofs SpecBdd
  SpecBss BddMain BssAlg Zdd ZddTrees MinsolTrees.

(** a step made of core calls only *)
Definition cstep (m m' : bdd) : Prop := step m m' ∧ (bss_reachable m → bss_reachable m').
Lemma cstep_refl m : bwf m → cstep m m.
Proof. intros. split; [by apply step_refl|done]. Qed.
Lemma cstep_trans m1 m2 m3 : cstep m1 m2 → cstep m2 m3 → cstep m1 m3.
Proof. intros [? ?] [? ?]. split; [by eapply step_trans|auto]. Qed.
Lemma cstep_wf m m' : cstep m m' → bwf m'.
Proof. intros [[? _] _]. done. Qed.
Lemma cstep_repr m m' d id : cstep m m' → repr (b_ar m) d id → repr (b_ar m') d id.
Proof. intros [[_ [? _]] _]. by apply repr_mono. Qed.
Lemma cstep_hdr m m' h hd : cstep m m' → ar_headers (b_ar m) !! h = Some hd → ar_headers (b_ar m') !! h = Some hd.
Proof. intros [[_ [_ ->]] _]. done. Qed.
Lemma cstep_distinct m m' : cstep m m' → bdd_levels_distinct m → bdd_levels_distinct m'.
Proof. unfold bdd_levels_distinct. intros [[_ [_ ->]] _]. done. Qed.

Lemma valid_of_repr m d id : repr (b_ar m) d id → bdd_valid m id.
Proof. intros H. by apply valid_live, (repr_live _ _ _ H). Qed.
Lemma below_of_rank m d id l : repr (b_ar m) d id → rank d ≤ l → bdd_below m id l.
Proof.
  intros Hr Hl. unfold bdd_below. rewrite (a_node_level _ _ _ Hr).
  destruct d; cbn in *; [done|lia].
Qed.

(** [create_node] on families with no common member: the zero-suppressed reading splits *)
Lemma fcreate m h hd lo hi dlo dhi : bwf m → ar_headers (b_ar m) !! h = Some hd →
  repr (b_ar m) dlo lo → repr (b_ar m) dhi hi → rank dlo ≤ h_level hd → rank dhi ≤ h_level hd →
  noU dlo → noU dhi → (∀ S, zmem S dlo → zmem S dhi → False) →
  ∃ m' r dr, bdd_create_node m h lo hi = (m', r) ∧ cstep m m' ∧ repr (b_ar m') dr r ∧
    rank dr ≤ S (h_level hd) ∧ noU dr ∧ zsplit (h_level hd) dr dlo dhi.
Proof.
  intros Hw Hh Hlo Hhi R0 R1 N0 N1 Hdis. pose proof (bw_good _ Hw) as Hg.
  destruct (create_node_spec m h hd lo hi dlo dhi Hw Hh Hlo Hhi R0 R1) as (m' & r & dr & Heq & Hst & Hr & Hd).
  pose proof (good_ok _ _ _ Hg Hlo) as O0. pose proof (good_ok _ _ _ Hg Hhi) as O1.
  exists m', r, dr. split; [done|]. split.
  { split; [done|]. intros Hre. eapply (br_core m (CNode h lo hi)); [done| |cbn; by rewrite Heq].
    cbn. rewrite Hh. sp; eauto using valid_of_repr, below_of_rank. }
  split; [done|]. destruct Hd as [[<- ->]|[_ ->]].
  - assert (dlo = Leaf TZero) as ->.
    { apply empty_zero; [done|by eapply repr_redd|done|]. intros S HS. by eapply Hdis. }
    sp; [cbn; lia|done|]. by apply zsplit_low.
  - sp; [done|by apply noU_br2|]. apply zsplit_br. eapply good_ok; [apply Hst|done].
Qed.

(** ** without *)
Definition wo (df dg dr : dd tv) : Prop :=
  noU dr ∧ rank dr ≤ rank df ∧ ∀ S, zmem S dr ↔ zmem S df ∧ ¬ sat S dg.
Definition wcache (m : bdd) (c : gmap (nat * nat) nat) : Prop :=
  ∀ f g r, c !! (f, g) = Some r →
    ∃ df dg dr, repr (b_ar m) df f ∧ repr (b_ar m) dg g ∧ repr (b_ar m) dr r ∧ wo df dg dr.
Definition wres (m : bdd) (df dg : dd tv) (x : option (bdd * gmap (nat * nat) nat * nat)) : Prop :=
  ∃ m' c' r dr, x = Some (m', c', r) ∧ cstep m m' ∧ wcache m' c' ∧ repr (b_ar m') dr r ∧ wo df dg dr.

Lemma wcache_mono m m' c : cstep m m' → wcache m c → wcache m' c.
Proof.
  intros St Hc f g r H. destruct (Hc _ _ _ H) as (df & dg & dr & ? & ? & ? & ?).
  exists df, dg, dr. sp; try done; by eapply cstep_repr.
Qed.

Lemma wconst m c df dg r dr : bwf m → wcache m c → repr (b_ar m) dr r → wo df dg dr →
  wres m df dg (Some (m, c, r)).
Proof. intros. exists m, c, r, dr. sp; try done. Qed.

Lemma wfinish m f g df dg x : repr (b_ar m) df f → repr (b_ar m) dg g → wres m df dg x →
  wres m df dg ('(m, c, r) ← x; Some (m, <[(f, g) := r]> c, r)).
Proof.
  intros Hf Hg (m' & c' & r & dr & -> & St & Hc & Hr & Hwo). cbn [mbind option_bind].
  exists m', (<[(f, g) := r]> c'), r, dr. sp; try done.
  intros f' g' r'. rewrite lookup_insert_Some. intros [[[= <- <-] <-]|[_ H]]; [|by apply Hc].
  exists df, dg, dr. sp; try done; by eapply cstep_repr.
Qed.

Lemma wo_weaken df dg dg' dr : (∀ S, zmem S df → sat S dg ↔ sat S dg') → wo df dg' dr → wo df dg dr.
Proof.
  intros H (? & ? & Hr). split; [done|]. split; [done|]. intros S. rewrite Hr.
  split; intros [Hz Hn]; (split; [done|]); by rewrite H in *.
Qed.

(** both halves *)
Lemma wjoin (m : bdd) (h : nat) (hd : header) (df0 df1 dg dg0 dg1 : dd tv) (x0 : option (bdd * gmap (nat * nat) nat * nat))
    (x1 : bdd → gmap (nat * nat) nat → option (bdd * gmap (nat * nat) nat * nat)) :
  ar_headers (b_ar m) !! h = Some hd → okdd E2 (Br hd [df0; df1]) →
  anti (Br hd [df0; df1]) →
  (∀ S, h_level hd ∉ S → sat S dg ↔ sat S dg0) →
  (∀ S, h_level hd ∉ S → sat ({[h_level hd]} ∪ S) dg ↔ sat S dg1) →
  wres m df0 dg0 x0 →
  (∀ m' c', cstep m m' → wcache m' c' → wres m' df1 dg1 (x1 m' c')) →
  wres m (Br hd [df0; df1]) dg
    ('(m, c, low) ← x0; '(m, c, high) ← x1 m c;
     let '(m, r) := bdd_create_node m h low high in Some (m, c, r)).
Proof.
  intros Hh Ho Ha S0 S1 (m1 & c1 & lo & dlo & -> & St1 & Hc1 & Hlo & (N0 & R0 & W0)) H1. cbn [mbind option_bind].
  destruct (H1 m1 c1 St1 Hc1) as (m2 & c2 & hi & dhi & -> & St2 & Hc2 & Hhi & (N1 & R1 & W1)). cbn [mbind option_bind].
  destruct (ok2 _ _ Ho) as (? & ? & [= <- <-] & Q0 & Q1 & O0 & O1).
  destruct (anti_br _ _ _ Ho Ha) as (_ & _ & Hdis).
  assert (St : cstep m m2) by (eapply cstep_trans; [exact St1|exact St2]).
  destruct (fcreate m2 h hd lo hi dlo dhi) as (m3 & r & dr & -> & St3 & Hr & Rr & Nr & Hs); try done.
  { by eapply cstep_wf. } { by eapply cstep_hdr; [exact St|]. } { by eapply cstep_repr; [exact St2|]. } { lia. } { lia. }
  { intros S [? _]%W0 [? _]%W1. eauto. }
  assert (St' : cstep m m3) by (eapply cstep_trans; [exact St|exact St3]).
  exists m3, c2, r, dr. sp; try done.
  { eapply wcache_mono; [exact St3|done]. }
  split; [done|]. split; [done|]. intros S. pose proof (zsplit_br _ _ _ Ho) as Hf.
  destruct (set_case (h_level hd) S) as [Hl|(S' & Hl & ->)].
  - rewrite (S0 _ Hl). unfold zmem. rewrite (zsplit_0 _ _ _ _ _ Hs), (zsplit_0 _ _ _ _ _ Hf) by done. apply W0.
  - rewrite (S1 _ Hl). unfold zmem. rewrite (zsplit_1 _ _ _ _ _ Hs), (zsplit_1 _ _ _ _ _ Hf) by done. apply W1.
Qed.

Lemma sat_leaf S t : sat S (Leaf t) ↔ t = TOne.
Proof. unfold sat. by rewrite ev_leaf. Qed.

Lemma without_spec n : ∀ m f g df dg c, bwf m → repr (b_ar m) df f → repr (b_ar m) dg g → wcache m c →
  noU df → noU dg → anti df → rank df + rank dg < n → wres m df dg (without_f n m f g c).
Proof.
  induction n as [|n IH]; intros m f g df dg c Hw Hf Hg Hc Nf Ng Ha Hn; [lia|]. cbn [without_f].
  pose proof (bw_good _ Hw) as Gm.
  pose proof (good_ok _ _ _ Gm Hf) as Of. pose proof (good_ok _ _ _ Gm Hg) as Og.
  destruct (c !! (f, g)) as [x|] eqn:Hhit.
  { destruct (Hc _ _ _ Hhit) as (df' & dg' & dr & Hf' & Hg' & Hr & Hwo).
    rewrite (repr_fun _ _ _ _ Hf Hf'), (repr_fun _ _ _ _ Hg Hg'). by eapply wconst. }
  assert (W0 : wo (Leaf TZero) dg (Leaf TZero)).
  { split; [done|]. split; [done|]. intros S. split; [intros H; by apply zmem_leaf0 in H|].
    intros [H _]. by apply zmem_leaf0 in H. }
  assert (Wz : wo df (Leaf TZero) df).
  { split; [done|]. split; [done|]. intros S. rewrite sat_leaf. naive_solver. }
  assert (Wo : wo df (Leaf TOne) (Leaf TZero)).
  { split; [done|]. split; [cbn; lia|]. intros S. rewrite sat_leaf. split; [intros H; by apply zmem_leaf0 in H|naive_solver]. }
  assert (Zz := gd_zero _ Gm).
  destruct df as [tf|hf dsf].
  { pose proof Hf as [_ Nf']%repr_leaf. rewrite Nf'. cbn [mbind option_bind].
    destruct dg as [tg|hg dsg].
    - pose proof Hg as [_ Ng']%repr_leaf. rewrite Ng'. cbn [mbind option_bind]. cbn in Nf, Ng.
      destruct tf; [| |done]; (destruct tg; [| |done]);
        (eapply (wfinish _ _ _ _ _ (Some _)); [done|done|]); eapply wconst; eauto.
    - destruct (repr_node2 _ _ _ _ Gm Hg) as (h & lo & hi & dlo & dhi & -> & Ng' & Hh & Hlo & Hhi & R0 & R1).
      rewrite Ng'. cbn [mbind option_bind]. cbn in Nf.
      destruct tf; [| |done].
      + eapply (wfinish _ _ _ _ _ (Some _)); [done|done|]. eapply wconst; eauto.
      + cbn [edges2 mbind option_bind]. eapply wfinish; [done|done|].
        apply noU_br2 in Ng as [N0 N1].
        destruct (IH m f lo (Leaf TOne) dlo c) as (m' & c' & r & dr & -> & St & Hc' & Hr & Hwo); try done.
        { cbn [rank] in *. lia. }
        exists m', c', r, dr. sp; try done. eapply wo_weaken; [|exact Hwo].
        intros S ->%zmem_leaf1. rewrite sat_br. rewrite decide_False by set_solver. done. }
  destruct (repr_node2 _ _ _ _ Gm Hf) as (h & lo & hi & dlo & dhi & -> & Nf' & Hh & Hlo & Hhi & R0 & R1).
  rewrite Nf'. cbn [mbind option_bind].
  destruct (ok2 _ _ Of) as (? & ? & [= <- <-] & _ & _ & O0 & O1).
  destruct dg as [tg|hg dsg].
  { pose proof Hg as [_ Ng']%repr_leaf. rewrite Ng'. cbn [mbind option_bind]. cbn in Ng.
    destruct tg; [| |done]; (eapply (wfinish _ _ _ _ _ (Some _)); [done|done|]); eapply wconst; eauto. }
  destruct (repr_node2 _ _ _ _ Gm Hg) as (h' & lo' & hi' & dlo' & dhi' & -> & Ng' & Hh' & Hlo' & Hhi' & R0' & R1').
  destruct (ok2 _ _ Og) as (? & ? & [= <- <-] & _ & _ & O0' & O1').
  rewrite Ng'. cbn [mbind option_bind edges2].
  rewrite (hdr_level_eq _ _ _ Hh), (hdr_level_eq _ _ _ Hh'). cbn [mbind option_bind].
  pose proof Nf as NNf. pose proof Ng as NNg. pose proof Ha as Hanti.
  apply noU_br2 in Nf as [N0 N1]. apply noU_br2 in Ng as [N0' N1'].
  destruct (anti_br _ _ _ Of Ha) as (A0 & A1 & _).
  eapply wfinish; [done|done|].
  destruct (Nat.eqb_spec f g) as [->|Hne].
  { eapply wconst; [done|done|done|]. rewrite (repr_fun _ _ _ _ Hg Hf).
    split; [done|]. split; [cbn; lia|]. intros S. split; [intros H; by apply zmem_leaf0 in H|].
    intros [Hz Hs]. destruct Hs. by apply zmem_sat. }
  cbn [rank] in Hn.
  destruct (Nat.ltb_spec (h_level hg) (h_level hf)) as [Hlt|Hge].
  { apply (wjoin m h hf dlo dhi _ (Br hg [dlo'; dhi']) (Br hg [dlo'; dhi']) (without_f n m lo g c)
      (λ m c, without_f n m hi g c)); try done.
    - intros S Hl. apply sat_add; [done|cbn; lia].
    - apply IH; try done. cbn [rank]. lia.
    - intros m' c' St Hc'. apply IH; try done; [by eapply cstep_wf|by eapply cstep_repr|by eapply cstep_repr|].
      cbn [rank]. lia. }
  destruct (Nat.ltb_spec (h_level hf) (h_level hg)) as [Hlt|Hge'].
  { destruct (IH m f lo' (Br hf [dlo; dhi]) dlo' c) as (m' & c' & r & dr & -> & St & Hc' & Hr & Hwo); try done.
    { cbn [rank]. lia. }
    exists m', c', r, dr. sp; try done. eapply wo_weaken; [|exact Hwo].
    intros S Hz. rewrite sat_br. rewrite decide_False; [done|]. intros Hl. unfold zmem in Hz.
    rewrite (zev_high _ _ (h_level hg)) in Hz; [done|done|done|cbn; lia]. }
  assert (Hll : h_level hf = h_level hg) by lia.
  apply (wjoin m h hf dlo dhi _ dlo' dhi' (without_f n m lo lo' c) (λ m c, without_f n m hi hi' c)); try done.
  - intros S Hl. by rewrite sat_br, decide_False by (by rewrite <- Hll).
  - intros S Hl. rewrite sat_br, decide_True by (rewrite <- Hll; set_solver). apply sat_add; [done|lia].
  - apply IH; try done. lia.
  - intros m' c' St Hc'. apply IH; try done; [by eapply cstep_wf|by eapply cstep_repr|by eapply cstep_repr|lia].
Qed.

(** ** minsol *)
Definition ms (df dr : dd tv) : Prop := noU dr ∧ rank dr ≤ rank df ∧ ∀ S, zmem S dr ↔ minset df S.
Definition mentry (m : bdd) (df : dd tv) (x : option nat) : Prop :=
  match x with
  | None => ¬ mono df
  | Some r => mono df ∧ ∃ dr, repr (b_ar m) dr r ∧ ms df dr
  end.
Definition mcache (m : bdd) (c : gmap nat (option nat)) : Prop :=
  ∀ f x, c !! f = Some x → ∃ df, repr (b_ar m) df f ∧ mentry m df x.
Definition mres (m : bdd) (df : dd tv)
    (y : option (bdd * gmap nat (option nat) * gmap (nat * nat) nat * option nat)) : Prop :=
  ∃ m' c1 c2 x, y = Some (m', c1, c2, x) ∧ cstep m m' ∧ mcache m' c1 ∧ wcache m' c2 ∧ mentry m' df x.

Lemma mentry_mono m m' df x : cstep m m' → mentry m df x → mentry m' df x.
Proof.
  intros St. destruct x; cbn; [|done]. intros [? (dr & ? & ?)]. split; [done|]. exists dr.
  split; [by eapply cstep_repr|done].
Qed.
Lemma mcache_mono m m' c : cstep m m' → mcache m c → mcache m' c.
Proof.
  intros St Hc f x H. destruct (Hc _ _ H) as (df & ? & ?). exists df.
  split; [by eapply cstep_repr|by eapply mentry_mono].
Qed.
Lemma mfinish m f df y : repr (b_ar m) df f → mres m df y →
  mres m df ('(m, c1, c2, x) ← y; Some (m, <[f := x]> c1, c2, x)).
Proof.
  intros Hf (m' & c1 & c2 & x & -> & St & Hc1 & Hc2 & Hx). cbn [mbind option_bind].
  exists m', (<[f := x]> c1), c2, x. sp; try done.
  intros f' x'. rewrite lookup_insert_Some. intros [[<- <-]|[_ H]]; [|by apply Hc1].
  exists df. split; [by eapply cstep_repr|done].
Qed.

(** the test [and(f0, f1) == f0] decides implication *)
Lemma and_test m f0 f1 d0 d1 : bwf m → bdd_levels_distinct m → repr (b_ar m) d0 f0 → repr (b_ar m) d1 f1 →
  noU d0 → noU d1 →
  ∃ m' r, bdd_and m f0 f1 = Some (m', r) ∧ cstep m m' ∧ (r = f0 ↔ ∀ S, sat S d0 → sat S d1).
Proof.
  intros Hw Hd H0 H1 N0 N1. pose proof (bw_good _ Hw) as Gm.
  pose proof (good_ok _ _ _ Gm H0) as O0. pose proof (good_ok _ _ _ Gm H1) as O1.
  destruct (bdd_and_ok m f0 f1 d0 d1 Hw H0 H1) as (m' & r & dr & Heq & Hst & Hr & _ & HP).
  assert (St : cstep m m').
  { split; [done|]. intros Hre. eapply (br_core m (CConn And f0 f1)); [done| |exact Heq].
    cbn. split; by eapply valid_of_repr. }
  exists m', r. split; [done|]. split; [done|].
  assert (H0' : repr (b_ar m') d0 f0) by by eapply cstep_repr.
  assert (Hev : ∀ ρ, vok E2 ρ → ev ρ dr = kand (ev ρ d0) (ev ρ d1)).
  { intros ρ Hv. destruct (HP ρ Hv) as [|[_ [E|E]]]; [done| |].
    - destruct (noU_ev ρ d0 O0 Hv N0); congruence.
    - destruct (noU_ev ρ d1 O1 Hv N1); congruence. }
  split.
  - intros ->. assert (dr = d0) as -> by by eapply repr_fun.
    intros S. unfold sat. specialize (Hev (asg (chi S)) (asg_ok _)). intros E. rewrite E in Hev.
    destruct (ev (asg (chi S)) d1); done.
  - intros Himp. assert (dr = d0) as ->; [|by eapply repr_inj; [apply (gd_wf _ (bw_good _ (proj1 Hst)))|done|done]].
    eapply (canon_tree m' dr d0); [apply Hst|by eapply cstep_distinct|done|done|].
    intros ρ Hv. rewrite (Hev ρ Hv).
    set (k := rank d0 `max` rank d1).
    pose proof (ev_set ρ d0 k O0 Hv ltac:(lia)) as E0. pose proof (ev_set ρ d1 k O1 Hv ltac:(lia)) as E1.
    specialize (Himp (list_to_set (filter (λ l, ρ l = 1) (seq 0 k)))). unfold sat in Himp.
    rewrite <- E0, <- E1 in Himp.
    destruct (noU_ev ρ d0 O0 Hv N0) as [E|E]; rewrite E in *; [by destruct (ev ρ d1)|].
    rewrite Himp by done. done.
Qed.

Lemma mono_leaf t : mono (Leaf t).
Proof. intros S S' _. by rewrite !sat_leaf. Qed.

Lemma minsol_spec n : ∀ m f df c1 c2, bwf m → bdd_levels_distinct m → repr (b_ar m) df f →
  mcache m c1 → wcache m c2 → noU df → rank df < n → mres m df (minsol_f n m f c1 c2).
Proof.
  induction n as [|n IH]; intros m f df c1 c2 Hw Hld Hf Hc1 Hc2 Nf Hn; [lia|]. cbn [minsol_f].
  pose proof (bw_good _ Hw) as Gm. pose proof (good_ok _ _ _ Gm Hf) as Of.
  destruct (c1 !! f) as [x|] eqn:Hhit.
  { destruct (Hc1 _ _ Hhit) as (df' & Hf' & Hx). rewrite (repr_fun _ _ _ _ Hf Hf').
    exists m, c1, c2, x. sp; try done. }
  destruct df as [t|hd ds].
  { pose proof Hf as [_ Nf']%repr_leaf. rewrite Nf'. cbn [mbind option_bind]. cbn in Nf.
    destruct t; [| |done].
    - eapply (mfinish _ _ _ (Some _)); [done|]. exists m, c1, c2, (Some bdd_zero). sp; try done.
      split; [apply mono_leaf|]. exists (Leaf TZero). split; [apply Gm|]. split; [done|]. split; [done|].
      intros S. unfold minset. rewrite sat_leaf. split; [intros H; by apply zmem_leaf0 in H|intros [H _]; done].
    - eapply (mfinish _ _ _ (Some _)); [done|]. exists m, c1, c2, (Some bdd_one). sp; try done.
      split; [apply mono_leaf|]. exists (Leaf TOne). split; [apply Gm|]. split; [done|]. split; [done|].
      intros S. unfold minset. rewrite zmem_leaf1. split.
      + intros ->. split; [by apply sat_leaf|]. intros S' HS'. set_solver.
      + intros [_ H]. destruct (decide (S = ∅)) as [|Hne]; [done|]. destruct (H ∅); [set_solver|by apply sat_leaf]. }
  destruct (repr_node2 _ _ _ _ Gm Hf) as (h & lo & hi & dlo & dhi & -> & Nf' & Hh & Hlo & Hhi & R0 & R1).
  rewrite Nf'. cbn [mbind option_bind edges2].
  destruct (ok2 _ _ Of) as (? & ? & [= <- <-] & _ & _ & O0 & O1).
  apply noU_br2 in Nf as [N0 N1]. cbn [rank] in Hn.
  apply mfinish; [done|].
  destruct (IH m lo dlo c1 c2) as (m1 & c11 & c21 & x0 & -> & St1 & Hc11 & Hc21 & X0); try done; [lia|].
  cbn [mbind option_bind]. destruct x0 as [low|].
  2:{ exists m1, c11, c21, None. sp; try done. intros Hm. apply X0. by apply mono_br in Hm as (? & _). }
  destruct X0 as [M0 (dl & Hl & Nl & Rl & Zl)].
  destruct (IH m1 hi dhi c11 c21) as (m2 & c12 & c22 & x1 & -> & St2 & Hc12 & Hc22 & X1); try done.
  { by eapply cstep_wf. } { by eapply cstep_distinct. } { by eapply cstep_repr. } { lia. }
  assert (St12 : cstep m m2) by (eapply cstep_trans; [exact St1|exact St2]).
  cbn [mbind option_bind]. destruct x1 as [hs|].
  2:{ exists m2, c12, c22, None. sp; try done. intros Hm. apply X1. by apply mono_br in Hm as (_ & ? & _). }
  destruct X1 as [M1 (dh & Hhs & Nh & Rh & Zh)].
  destruct (and_test m2 lo hi dlo dhi) as (m3 & r & -> & St3 & Htest); try done.
  { by eapply cstep_wf. } { by eapply cstep_distinct; [exact St12|]. }
  { by eapply cstep_repr; [exact St12|]. } { by eapply cstep_repr; [exact St12|]. }
  assert (St13 : cstep m m3) by (eapply cstep_trans; [exact St12|exact St3]).
  cbn [mbind option_bind]. destruct (Nat.eqb_spec r lo) as [->|Hne]; cbn [negb].
  2:{ exists m3, c12, c22, None. sp; [done|done|eapply mcache_mono; [exact St3|done]|eapply wcache_mono; [exact St3|done]|].
      intros Hm. apply Hne, Htest. by apply mono_br in Hm as (_ & _ & ?). }
  assert (H01 : ∀ S, sat S dlo → sat S dhi) by by apply Htest.
  assert (Hlo3 : repr (b_ar m3) dlo lo) by (eapply cstep_repr; [exact St13|done]).
  assert (Hhs3 : repr (b_ar m3) dh hs) by (eapply cstep_repr; [exact St3|done]).
  destruct (without_spec (2 * ar_fuel (b_ar m3)) m3 hs lo dh dlo c22)
    as (m4 & c24 & high & dw & -> & St4 & Hc24 & Hhigh & (Nw & Rw & Zw)); try done.
  { by eapply cstep_wf. } { eapply wcache_mono; [exact St3|done]. } { by eapply minset_anti. }
  { pose proof (a_fuel_enough _ _ _ Hlo3). pose proof (a_fuel_enough _ _ _ Hhs3). lia. }
  cbn [mbind option_bind].
  assert (St34 : cstep m m4) by (eapply cstep_trans; [exact St13|exact St4]).
  destruct (fcreate m4 h hd low high dl dw) as (m5 & r & dr & -> & St5 & Hr & Rr & Nr & Hs); try done.
  { by eapply cstep_wf. } { by eapply cstep_hdr; [exact St34|]. }
  { eapply cstep_repr; [exact St4|]. eapply cstep_repr; [exact St3|]. by eapply cstep_repr; [exact St2|]. }
  { lia. } { lia. }
  { intros S [Hsat _]%Zl [_ Hns]%Zw. done. }
  assert (St15 : cstep m m5) by (eapply cstep_trans; [exact St34|exact St5]).
  assert (St35 : cstep m2 m5) by (eapply cstep_trans; [exact St3|]; eapply cstep_trans; [exact St4|exact St5]).
  assert (Hmono : mono (Br hd [dlo; dhi])) by by apply mono_br.
  exists m5, c12, c24, (Some r). sp; [done|done|eapply mcache_mono; [exact St35|done]|eapply wcache_mono; [exact St5|done]|].
  split; [done|]. exists dr. split; [done|]. split; [done|]. split; [done|]. intros S.
  destruct (set_case (h_level hd) S) as [Hnl|(S' & Hnl & ->)].
  - rewrite minset_br0 by done. rewrite <- Zl. unfold zmem. by rewrite (zsplit_0 _ _ _ _ _ Hs).
  - rewrite minset_br1 by done. rewrite <- Zh, <- Zw. unfold zmem. by rewrite (zsplit_1 _ _ _ _ _ Hs).
Qed.

Lemma bdd_minsol_ok m f df : bwf m → bdd_levels_distinct m → repr (b_ar m) df f → noU df →
  ∃ m' x, bdd_minsol m f = Some (m', x) ∧ cstep m m' ∧ mentry m' df x.
Proof.
  intros Hw Hd Hf Nf. unfold bdd_minsol.
  destruct (minsol_spec (ar_fuel (b_ar m)) m f df ∅ ∅) as (m' & c1 & c2 & x & -> & St & _ & _ & Hx); try done.
  { by eapply a_fuel_enough. }
  by exists m', x.
Qed.
