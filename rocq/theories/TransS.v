(** Two runs of a client program of BssMgr that differ in housekeeping only stay in step. *)
From stdpp Require Import strings.
From Verif Require Import Prelude ComputeCache Arena Trees ArenaProofs ArenaMore Keeps Bdd BddProofs SpecBdd SpecBss BddMain BssAlg BssMeas BssMgr BssLook SpecBssMgr BssMgrProofs BssMgrMain BssLookProofs
  Zdd ZddTrees ZddProofs SpecZdd ZddMain ZddAlg MinsolTrees MinsolProofs ZddConv SpecMinsol MinsolMain ZddMgr ZddLook SpecZddMgr ZddMgrProofs BssJoint Iso SpecTrans SpecTransZ SpecTransS Trans ZddDet MinsolDet TransZ.

(** ** the conversion *)
Section conv.
Context (b1 b2 : bdd) (B1 : bwf b1) (B2 : bwf b2) (HB : ar_headers (b_ar b1) = ar_headers (b_ar b2)).
Definition conv (z1 z2 : zdd) (ds : dd tv) (r1 r2 : nat) : Prop := ∃ d, repr (z_ar z1) d r1 ∧ repr (z_ar z2) d r2 ∧ rank d ≤ rank ds.
Record inv (z1 z2 : zdd) (zh m1 m2 : gmap nat nat) : Prop := {
  c_1 : zx z1;
  c_2 : zx z2;
  c_h : ar_headers (z_ar z1) = ar_headers (z_ar z2);
  c_m : ∀ ds i j, repr (b_ar b1) ds i → repr (b_ar b2) ds j → osim (conv z1 z2 ds) (m1 !! i) (m2 !! j);
  c_zh : ∀ s h, zh !! s = Some h → ∃ hs hd, ar_headers (b_ar b1) !! s = Some hs ∧ ar_headers (z_ar z1) !! h = Some hd ∧ h_level hd = h_level hs;
}.
Lemma conv_ext z1 z2 z1' z2' ds r1 r2 : ext (z_ar z1) (z_ar z1') → ext (z_ar z2) (z_ar z2') → conv z1 z2 ds r1 r2 → conv z1' z2' ds r1 r2.
Proof. intros X1 X2 (d & ? & ? & ?). exists d. sp; [by eapply repr_mono|by eapply repr_mono|done]. Qed.
Lemma inv_ext z1 z2 zh m1 m2 z1' z2' : inv z1 z2 zh m1 m2 → zx z1' → zx z2' → ext (z_ar z1) (z_ar z1') → ext (z_ar z2) (z_ar z2') →
  ar_headers (z_ar z1') = ar_headers (z_ar z2') → inv z1' z2' zh m1 m2.
Proof.
  intros [A1 A2 A3 A4 A5] X1 X2 E1 E2 Hh. constructor; try done.
  - intros ds i j Hi Hj. destruct (A4 _ _ _ Hi Hj) as [r1 r2 Hr|]; constructor. by eapply conv_ext.
  - intros s h Hs. destruct (A5 _ _ Hs) as (hs & hd & ? & ? & ?). exists hs, hd. sp; [done| |done]. eapply prefix_lookup; [done|apply E1].
Qed.
Lemma inv_memo z1 z2 zh m1 m2 ds i j r1 r2 : inv z1 z2 zh m1 m2 → repr (b_ar b1) ds i → repr (b_ar b2) ds j → conv z1 z2 ds r1 r2 →
  inv z1 z2 zh (<[i := r1]> m1) (<[j := r2]> m2).
Proof using B1 B2.
  intros [A1 A2 A3 A4 A5] Hi Hj Hr. constructor; try done. intros ds' i' j' Hi' Hj'.
  pose proof (gd_wf _ (bw_good _ B1)) as W1. pose proof (gd_wf _ (bw_good _ B2)) as W2.
  destruct (decide (i' = i)) as [->|Hne].
  - pose proof (repr_fun _ _ _ _ Hi' Hi) as ->. assert (j' = j) as -> by (exact (repr_inj _ _ _ _ _ W2 Hj' Hj)). rewrite !lookup_insert. by constructor.
  - assert (j' ≠ j). { intros ->. apply Hne. pose proof (repr_fun _ _ _ _ Hj' Hj) as ->. exact (repr_inj _ _ _ _ _ W1 Hi' Hi). }
    rewrite !lookup_insert_ne by done. by apply A4.
Qed.
Definition Rel (ds : dd tv) (z1 z2 : zdd) (p q : zdd * gmap nat nat * gmap nat nat * nat) : Prop :=
  inv p.1.1.1 q.1.1.1 p.1.1.2 p.1.2 q.1.2 ∧ p.1.1.2 = q.1.1.2 ∧ ext (z_ar z1) (z_ar p.1.1.1) ∧ ext (z_ar z2) (z_ar q.1.1.1) ∧
  conv p.1.1.1 q.1.1.1 ds p.2 q.2.
Lemma to_zdd_tw n : ∀ ds i j z1 z2 zh m1 m2, repr (b_ar b1) ds i → repr (b_ar b2) ds j → inv z1 z2 zh m1 m2 →
  osim (Rel ds z1 z2) (to_zdd_f n b1 i z1 zh m1) (to_zdd_f n b2 j z2 zh m2).
Proof using B1 B2 HB.
  induction n as [|n IH]; intros ds i j z1 z2 zh m1 m2 Hi Hj HI; [constructor|]. cbn [to_zdd_f].
  pose proof (c_m _ _ _ _ _ HI _ _ _ Hi Hj) as Hm. destruct Hm as [r1 r2 Hr|].
  { constructor. unfold Rel. cbn [fst snd]. sp; [done|done|apply ext_refl|apply ext_refl|done]. }
  assert (HF : ∀ x y, osim (Rel ds z1 z2) x y → osim (Rel ds z1 z2) ('(dst, zh, memo, result) ← x; Some (dst, zh, <[i := result]> memo, result))
      ('(dst, zh, memo, result) ← y; Some (dst, zh, <[j := result]> memo, result))).
  { intros x y. intros [[[[y1 h1] k1] r1] [[[y2 h2] k2] r2] (HI' & He & X1 & X2 & Hr)|]; [|constructor]. cbn [fst snd] in *. subst h2.
    cbn [mbind option_bind]. constructor. unfold Rel. cbn [fst snd]. sp; [|done|done|done|done]. by eapply inv_memo. }
  pose proof (bw_good _ B1) as G1. pose proof (bw_good _ B2) as G2. pose proof (proj1 (c_1 _ _ _ _ _ HI)) as Z1. pose proof (proj1 (c_2 _ _ _ _ _ HI)) as Z2.
  destruct (bview _ _ _ G1 Hi) as [(t & -> & N1)|(hd & h & lo & hi & dlo & dhi & -> & N1 & Hh & Hlo & Hhi & R0 & R1)].
  - apply repr_leaf in Hj as [_ N2]. rewrite N1, N2. cbn [mbind option_bind]. apply HF.
    assert (HL : ∀ k u, repr (z_ar z1) (Leaf u) k → repr (z_ar z2) (Leaf u) k → Rel (Leaf t) z1 z2 (z1, zh, m1, k) (z2, zh, m2, k)).
    { intros k u L1 L2. unfold Rel. cbn [fst snd]. sp; [done|done|apply ext_refl|apply ext_refl|]. exists (Leaf u). sp; [done|done|cbn; lia]. }
    destruct t; constructor.
    + apply (HL _ TZero); [apply Z1|apply Z2].
    + apply (HL _ TOne); [apply Z1|apply Z2].
    + apply (HL _ TUndet); [apply Z1|apply Z2].
  - destruct (bview _ _ _ G2 Hj) as [(t & ? & _)|(hd' & h' & lo' & hi' & ? & ? & [= <- <- <-] & N2 & Hh' & Hlo' & Hhi' & _)]; [done|].
    assert (h' = h) as -> by (pose proof (aw_hdr _ _ (gd_wf _ G1) _ _ Hh); pose proof (aw_hdr _ _ (gd_wf _ G2) _ _ Hh'); congruence).
    rewrite N1, N2. cbn [mbind option_bind edges2]. apply HF. clear HF.
    eapply osim_bind; [by apply (IH dlo)|]. intros [[[y1 h1] k1] r1] [[[y2 h2] k2] r2] (I1 & He & X1 & X2 & Hr). cbn [fst snd] in *. subst h2.
    eapply osim_bind; [by apply (IH dhi)|]. intros [[[y3 h3] k3] r3] [[[y4 h4] k4] r4] (I2 & He & X3 & X4 & Hr'). cbn [fst snd] in *. subst h4.
    pose proof (conv_ext _ _ _ _ _ _ _ X3 X4 Hr) as (d1 & P1 & P2 & Rd1). destruct Hr' as (d2 & Q1 & Q2 & Rd2).
    eapply (osim_bind (λ p q, inv p.1.1 q.1.1 p.1.2 k3 k4 ∧ p.1.2 = q.1.2 ∧ ext (z_ar y3) (z_ar p.1.1) ∧ ext (z_ar y4) (z_ar q.1.1) ∧ p.2 = q.2 ∧
      ∃ hz, ar_headers (z_ar p.1.1) !! p.2 = Some hz ∧ h_level hz = h_level hd)).
    { destruct (h3 !! h) as [k|] eqn:Ek.
      - constructor. cbn [fst snd]. destruct (c_zh _ _ _ _ _ I2 _ _ Ek) as (hs & hz & Es & Ez & El). sp; [done|done|apply ext_refl|apply ext_refl|done|].
        exists hz. split; [done|]. congruence.
      - rewrite Hh, Hh'. cbn [mbind option_bind]. destruct (zdd_create_header y3 _ _) as [y5 k5] eqn:E5. destruct (zdd_create_header y4 _ _) as [y6 k6] eqn:E6.
        destruct (zx_header _ _ _ _ _ (c_1 _ _ _ _ _ I2) E5) as (X5 & U5 & V5 & H5). destruct (zx_header _ _ _ _ _ (c_2 _ _ _ _ _ I2) E6) as (X6 & U6 & V6 & H6).
        pose proof (c_h _ _ _ _ _ I2) as Hhe. assert (k6 = k5) as -> by congruence. constructor. cbn [fst snd].
        assert (Hz : ar_headers (z_ar y5) !! k5 = Some (Header k5 (h_level hd) (h_label hd) 2)).
        { rewrite H5, V5. rewrite lookup_app_r, Nat.sub_diag by done. done. }
        assert (I3 : inv y5 y6 h3 k3 k4) by (eapply inv_ext; [exact I2|done|done|done|done|by rewrite H5, H6, Hhe]).
        sp; [|done|done|done|done|by eexists]. destruct I3 as [A1 A2 A3 A4 A5]. constructor; try done.
        intros s k. rewrite lookup_insert_Some. intros [[<- <-]|[_ Hs]]; [|by apply A5]. by eexists _, _. }
    intros [[y5 h5] k5] [[y6 h6] k6] (I3 & He & X5 & X6 & Hk & hz & Hz & Hl). cbn [fst snd] in *. subst h6 k6.
    pose proof (c_h _ _ _ _ _ I3) as Hhe.
    destruct (zx_node y5 k5 hz r1 r3 d1 d2 (c_1 _ _ _ _ _ I3) Hz (repr_mono _ _ _ _ X5 P1) (repr_mono _ _ _ _ X5 Q1) ltac:(lia) ltac:(lia)) as (y7 & r7 & -> & X7 & U7 & V7 & T7).
    destruct (zx_node y6 k5 hz r2 r4 d1 d2 (c_2 _ _ _ _ _ I3) ltac:(by rewrite <- Hhe) (repr_mono _ _ _ _ X6 P2) (repr_mono _ _ _ _ X6 Q2) ltac:(lia) ltac:(lia)) as (y8 & r8 & -> & X8 & U8 & V8 & T8).
    constructor. unfold Rel. cbn [fst snd]. sp.
    + eapply inv_ext; [exact I3|done|done|done|done|]. by rewrite V7, V8.
    + done.
    + eapply ext_trans; [exact X1|]. eapply ext_trans; [exact X3|]. by eapply ext_trans.
    + eapply ext_trans; [exact X2|]. eapply ext_trans; [exact X4|]. by eapply ext_trans.
    + exists (zn hz d1 d2). sp; [done|done|]. apply rank_zn; cbn [rank]; lia.
Qed.
Lemma to_zdd_pair ds i j z1 z2 : repr (b_ar b1) ds i → repr (b_ar b2) ds j → zx z1 → zx z2 → ar_headers (z_ar z1) = ar_headers (z_ar z2) →
  ∃ z1' r1 z2' r2 d, to_zdd b1 i z1 = Some (z1', r1) ∧ to_zdd b2 j z2 = Some (z2', r2) ∧ zx z1' ∧ zx z2' ∧ ext (z_ar z1) (z_ar z1') ∧ ext (z_ar z2) (z_ar z2') ∧
    ar_headers (z_ar z1') = ar_headers (z_ar z2') ∧ repr (z_ar z1') d r1 ∧ repr (z_ar z2') d r2.
Proof using B1 B2 HB.
  intros Hi Hj X1 X2 Hh. destruct (to_zdd_ok b1 B1 z1 i ds (proj1 X1) Hi) as (z1' & r1 & ? & E1 & _).
  assert (HI : inv z1 z2 ∅ ∅ ∅) by (constructor; [done|done|done|intros; rewrite !lookup_empty; constructor|intros ? ?; by rewrite lookup_empty]).
  pose proof (to_zdd_tw (ar_fuel (b_ar b1)) ds i j z1 z2 ∅ ∅ ∅ Hi Hj HI) as HT.
  unfold to_zdd in *. rewrite <- (iso_fuel _ _ HB).
  destruct HT as [[[[y1 h1] k1] q1] [[[y2 h2] k2] q2] (I1 & _ & U1 & U2 & (d & Hd1 & Hd2 & _))|]; [|done]. cbn [fst snd mbind option_bind] in *.
  exists y1, q1, y2, q2, d. destruct I1. done.
Qed.
End conv.

(** ** minimal path and cut sets *)
Local Notation ok := (@wok base0).
Local Notation bh w := (ar_headers (b_ar (w_bdd w))).
Lemma yok_grow w E z : yok w E → zx z → ext (z_ar (y_zdd w)) (z_ar z) → yok (with_zdd w z) E.
Proof.
  intros [H1 H2 H3 H4] Hz He. constructor; cbn [with_zdd y_zdd y_roots y_vars]; try done.
  - intros x h [hd Hh]%H2. exists hd. eapply prefix_lookup; [done|apply He].
  - intros f d Hf. eapply repr_mono; [done|]. by apply H4.
Qed.
Lemma ok_distinct w H : ok w H → bdd_levels_distinct (w_bdd w).
Proof.
  intros Hk. pose proof (wk_lvl _ _ Hk) as Hlv. unfold bdd_levels_distinct. apply NoDup_alt. intros i j l. rewrite !list_lookup_fmap.
  destruct (bhd (w_bdd w) !! i) as [h0|] eqn:Hi; [|done]. destruct (bhd (w_bdd w) !! j) as [h1|] eqn:Hj; [|done]. cbn.
  intros [= <-] [= He]. rewrite (Hlv _ _ Hi), (Hlv _ _ Hj) in He. done.
Qed.
Lemma ok_noU w H f F d : ok w H → (f, F) ∈ H → repr (b_ar (w_bdd w)) d f → noU d.
Proof.
  intros Hk Hf Hd. pose proof (wk_lvl _ _ Hk) as Hlv. pose proof (wk_nodup _ _ Hk) as Hnd. pose proof (wk_held _ _ Hk _ _ Hf) as HF.
  eapply determined_noU; [apply (bw_good _ (wk_wf _ _ Hk))|exact Hd|]. intros rho Hv. set (b := w_bdd w) in *.
  assert (bdd_value b (rho_of b (back b rho)) f TUndet) as Hv'.
  { eapply (value_agree b Hlv); [|exact Hv]. intros l Hl. symmetry. by apply back_spec. }
  pose proof (value_fun _ _ _ _ _ Hv' (den_value b Hlv f F HF (back b rho))) as He. by destruct (F _).
Qed.

Definition jpair (s1 s2 : bssmgr) (HB1 HB2 : list (nat * nfun)) (E1 E2 : list (nat * dd tv)) : Prop :=
  ok (s_bdd s1) HB1 ∧ ok (s_bdd s2) HB2 ∧ bh (s_bdd s1) = bh (s_bdd s2) ∧ yok (s_zdd s1) E1 ∧ yok (s_zdd s2) E2 ∧ agree (s_zdd s1) (s_zdd s2).
Definition solved (HB1 HB2 : list (nat * nfun)) (E1 E2 : list (nat * dd tv)) (o1 o2 : option (bssmgr * option nat)) : Prop :=
  ∃ s1 s2, (o1 = Some (s1, None) ∧ o2 = Some (s2, None) ∧ jpair s1 s2 HB1 HB2 E1 E2) ∨
    ∃ z1 z2 d, o1 = Some (s1, Some z1) ∧ o2 = Some (s2, Some z2) ∧ jpair s1 s2 HB1 HB2 ((z1, d) :: E1) ((z2, d) :: E2).
Lemma minpath_pair s1 s2 HB1 HB2 E1 E2 f1 f2 F : jpair s1 s2 HB1 HB2 E1 E2 → (f1, F) ∈ HB1 → (f2, F) ∈ HB2 →
  solved HB1 HB2 E1 E2 (s_minpath s1 f1) (s_minpath s2 f2).
Proof.
  intros (K1 & K2 & HH & Y1 & Y2 & HA) H1 H2.
  destruct (fun_iso _ _ _ _ K1 K2 HH f1 f2 F (wk_held _ _ K1 _ _ H1) (wk_held _ _ K2 _ _ H2)) as (d & D1 & D2).
  pose proof (ok_noU _ _ _ _ _ K1 H1 D1) as Nd.
  destruct (bdd_minsol_ok _ f1 d (wk_wf _ _ K1) (ok_distinct _ _ K1) D1 Nd) as (b1 & x1 & M1 & C1 & X1).
  destruct (bdd_minsol_ok _ f2 d (wk_wf _ _ K2) (ok_distinct _ _ K2) D2 Nd) as (b2 & x2 & M2 & C2 & X2).
  pose proof (wok_step _ _ _ K1 (proj1 C1)) as K1'. pose proof (wok_step _ _ _ K2 (proj1 C2)) as K2'.
  assert (HH' : ar_headers (b_ar b1) = ar_headers (b_ar b2)).
  { rewrite (proj2 (proj2 (proj1 C1))), (proj2 (proj2 (proj1 C2))). exact HH. }
  unfold s_minpath, minpath. rewrite M1, M2. cbn [mbind option_bind].
  destruct x1 as [r1|], x2 as [r2|]; cbn [mentry] in X1, X2; [|by destruct X2; apply X1|by destruct X1; apply X2|].
  - destruct (bdd_minsol_pw _ _ _ _ _ (wk_wf _ _ K1) D1 M1) as (dr & Q1 & T1). destruct (bdd_minsol_pw _ _ _ _ _ (wk_wf _ _ K2) D2 M2) as (dr' & Q2 & T2).
    rewrite <- (MT_fun _ _ T1 _ T2) in Q2.
    destruct (to_zdd_pair b1 b2 (proj1 (proj1 C1)) (proj1 (proj1 C2)) HH' dr r1 r2 (y_zdd (s_zdd s1)) (y_zdd (s_zdd s2)) Q1 Q2 (yk_x _ _ Y1) (yk_x _ _ Y2) (proj1 HA))
      as (z1 & q1 & z2 & q2 & dz & -> & -> & Z1 & Z2 & U1 & U2 & Hz & P1 & P2). cbn [mbind option_bind].
    destruct (yok_wrap (with_zdd (s_zdd s1) z1) E1 q1 dz (yok_grow _ _ _ Y1 Z1 U1) P1) as (y1 & -> & Y1' & A1 & A1').
    destruct (yok_wrap (with_zdd (s_zdd s2) z2) E2 q2 dz (yok_grow _ _ _ Y2 Z2 U2) P2) as (y2 & -> & Y2' & A2 & A2'). cbn [mbind option_bind].
    eexists _, _. right. eexists q1, q2, dz. split; [done|]. split; [done|]. unfold jpair. cbn [s_bdd s_zdd]. sp; try done.
    cbn in A1, A1', A2, A2'. destruct HA as [_ HV]. split; [by rewrite <- A1, <- A2|by rewrite <- A1', <- A2'].
  - eexists _, _. left. split; [done|]. split; [done|]. unfold jpair. cbn [s_bdd s_zdd]. sp; done.
Qed.
Lemma mincut_pair s1 s2 HB1 HB2 E1 E2 f1 f2 F : jpair s1 s2 HB1 HB2 E1 E2 → (f1, F) ∈ HB1 → (f2, F) ∈ HB2 →
  solved HB1 HB2 E1 E2 (s_mincut s1 f1) (s_mincut s2 f2).
Proof.
  intros (K1 & K2 & HH & Y1 & Y2 & HA) H1 H2. unfold s_mincut.
  destruct (w_dual_ok _ _ (up_wok _ _ K1) f1 F H1) as (w1 & r1 & Q1 & P1). destruct (w_dual_ok _ _ (up_wok _ _ K2) f2 F H2) as (w2 & r2 & Q2 & P2).
  destruct (same_hdrs _ _ _ _ K1 P1 (op_vars _ _ _ _ Q1)) as [P1' Hh1]. destruct (same_hdrs _ _ _ _ K2 P2 (op_vars _ _ _ _ Q2)) as [P2' Hh2].
  rewrite Q1, Q2. cbn [mbind option_bind].
  destruct (minpath_pair (BssM w1 (s_zdd s1)) (BssM w2 (s_zdd s2)) _ _ E1 E2 r1 r2 _ ltac:(unfold jpair; cbn [s_bdd s_zdd]; sp; [exact P1'|exact P2'|by rewrite Hh1, Hh2|done|done|done]) ltac:(by left) ltac:(by left))
    as (t1 & t2 & [(-> & -> & L1 & L2 & L3 & L4 & L5 & L6)|(z1 & z2 & d & -> & -> & L1 & L2 & L3 & L4 & L5 & L6)]); cbn [mbind option_bind];
    pose proof (wok_drop _ _ _ _ _ L1 (Permutation_refl _)) as D1; pose proof (wok_drop _ _ _ _ _ L2 (Permutation_refl _)) as D2.
  - eexists _, _. left. split; [done|]. split; [done|]. unfold jpair. cbn [s_bdd s_zdd]. sp; done.
  - eexists _, _. right. exists z1, z2, d. split; [done|]. split; [done|]. unfold jpair. cbn [s_bdd s_zdd]. sp; done.
Qed.

(** ** programs *)
Section prog.
Context {R : Type} (rO rI : R) (radd rmul rsub : R → R → R).
Local Notation jdo := (jdo rO rI radd rmul rsub).
Local Notation jgo := (jgo rO rI radd rmul rsub).
Definition jtwin (s1 : bssmgr) (B1 Z1 : list (option nat)) (s2 : bssmgr) (B2 Z2 : list (option nat)) : Prop :=
  (∃ G, twin (s_bdd s1) B1 (s_bdd s2) B2 G) ∧ ∃ D, ytwin (s_zdd s1) Z1 (s_zdd s2) Z2 D.
Definition jtw (p q : bssmgr * list (option nat) * list (option nat) * jans R) : Prop :=
  jtwin p.1.1.1 p.1.1.2 p.1.2 q.1.1.1 q.1.1.2 q.1.2 ∧ p.2 = q.2.
Lemma solved_tw s1 B1 Z1 s2 B2 Z2 G D o1 o2 : twin (s_bdd s1) B1 (s_bdd s2) B2 G → ytwin (s_zdd s1) Z1 (s_zdd s2) Z2 D →
  solved (entries B1 G) (entries B2 G) (yentries Z1 D) (yentries Z2 D) o1 o2 →
  osim jtw ('(s, r) ← o1; Some (s, B1, Z1 ++ [r], JFound (bool_decide (is_Some r)))) ('(s, r) ← o2; Some (s, B2, Z2 ++ [r], JFound (bool_decide (is_Some r)))).
Proof.
  intros TB TZ (t1 & t2 & [(-> & -> & K1 & K2 & HH & Y1 & Y2 & HA)|(z1 & z2 & d & -> & -> & K1 & K2 & HH & Y1 & Y2 & HA)]); cbn [mbind option_bind]; constructor;
    (split; [|done]); (split; [exists G; constructor; [done|done|done|apply TB|apply TB]|]); cbn [fst snd].
  - exists (D ++ [None]). assert (HN : ∀ S, yshape S D → yshape (S ++ [None]) (D ++ [None])).
    { intros S HS. apply Forall2_app; [done|]. repeat constructor; by intros [? ?]. }
    constructor; [rewrite yentries_app, app_nil_r by apply TZ; done..|done|apply HN, TZ|apply HN, TZ].
  - exists (D ++ [Some d]). constructor; [| |done|apply yshape_snoc, TZ|apply yshape_snoc, TZ].
    + rewrite yentries_app by apply TZ. eapply yok_perm; [exact Y1|]. cbn. by rewrite Permutation_app_comm.
    + rewrite yentries_app by apply TZ. eapply yok_perm; [exact Y2|]. cbn. by rewrite Permutation_app_comm.
Qed.
Lemma jdo_tw s1 B1 Z1 s2 B2 Z2 c : jtwin s1 B1 Z1 s2 B2 Z2 → ¬ jhousekeeping c → osim jtw (jdo s1 B1 Z1 c) (jdo s2 B2 Z2 c).
Proof.
  intros [[G TB] [D TZ]] Hc. destruct c as [c|c|i|i| ]; cbn [jhousekeeping] in Hc; cbn [SpecTransS.jdo].
  - pose proof (do_tw rO rI radd rmul rsub _ _ _ _ _ TB c Hc) as Hd. destruct Hd as [[[w1' S1'] a1] [[w2' S2'] a2] [[G' T'] Ha]|]; [|constructor].
    cbn in T', Ha. subst a2. cbn [mbind option_bind]. constructor. split; [|done]. split; [by exists G'|by exists D].
  - pose proof (ydo_tw _ _ _ _ _ TZ c Hc) as Hd. destruct Hd as [[[w1' S1'] a1] [[w2' S2'] a2] [[G' T'] Ha]|]; [|constructor].
    cbn in T', Ha. subst a2. cbn [mbind option_bind]. constructor. split; [|done]. split; [by exists G|by exists G'].
  - eapply osim_bind; [exact (slot_tw _ _ _ _ _ TB i)|]. intros f1 f2 (F & H1 & H2). eapply solved_tw; [exact TB|exact TZ|].
    eapply minpath_pair; [|exact H1|exact H2]. unfold jpair. sp; [apply TB|apply TB|apply TB|apply TZ|apply TZ|apply TZ].
  - eapply osim_bind; [exact (slot_tw _ _ _ _ _ TB i)|]. intros f1 f2 (F & H1 & H2). eapply solved_tw; [exact TB|exact TZ|].
    eapply mincut_pair; [|exact H1|exact H2]. unfold jpair. sp; [apply TB|apply TB|apply TB|apply TZ|apply TZ|apply TZ].
  - by destruct Hc.
Qed.
Lemma jhouse_tw s1 B1 Z1 s2 B2 Z2 c : jtwin s1 B1 Z1 s2 B2 Z2 → jhousekeeping c → ∃ s1' a, jdo s1 B1 Z1 c = Some (s1', B1, Z1, a) ∧ jtwin s1' B1 Z1 s2 B2 Z2.
Proof.
  intros [[G TB] [D TZ]] Hc. destruct c as [c|c|i|i| ]; cbn [jhousekeeping] in Hc; cbn [SpecTransS.jdo]; [| |by destruct Hc|by destruct Hc|].
  - destruct (house_tw rO rI radd rmul rsub _ _ _ _ _ TB c Hc) as (w' & -> & T'). cbn [mbind option_bind]. eexists _, _. split; [done|].
    split; [by exists G|by exists D].
  - destruct (yhouse_tw _ _ _ _ _ TZ c Hc) as (w' & -> & T'). cbn [mbind option_bind]. eexists _, _. split; [done|]. split; [by exists G|by exists D].
  - eexists _, _. split; [done|].
    destruct (house_tw rO rI radd rmul rsub _ _ _ _ _ TB HClear I) as (w' & [= <-] & T'). destruct (yhouse_tw _ _ _ _ _ TZ YClear I) as (y' & [= <-] & T'').
    split; [by exists G|by exists D].
Qed.
Lemma jgo_tw p : ∀ s1 B1 Z1 s2 B2 Z2, jtwin s1 B1 Z1 s2 B2 Z2 → jgo s1 B1 Z1 p = jgo s2 B2 Z2 (j_no_housekeeping p).
Proof.
  induction p as [|c p IH]; intros s1 B1 Z1 s2 B2 Z2 T; [done|]. cbn [SpecTransS.jgo]. unfold j_no_housekeeping. rewrite filter_cons.
  destruct (decide (jhousekeeping c)) as [Hc|Hc].
  - rewrite decide_False by tauto. destruct (jhouse_tw _ _ _ _ _ _ c T Hc) as (s1' & a & -> & T'). cbn [mbind option_bind].
    rewrite (IH _ _ _ _ _ _ T'). fold (j_no_housekeeping p). by destruct (jgo s2 B2 Z2 _).
  - rewrite decide_True by done. cbn [SpecTransS.jgo]. fold (j_no_housekeeping p).
    pose proof (jdo_tw _ _ _ _ _ _ c T Hc) as Hd. destruct Hd as [[[[s1' B1'] Z1'] a1] [[[s2' B2'] Z2'] a2] [T' Ha]|]; [|done]. cbn in T', Ha. subst a2.
    cbn [mbind option_bind]. rewrite (IH _ _ _ _ _ _ T'). destruct (jgo _ _ _ _); [|done]. cbn [mbind option_bind]. by rewrite decide_False.
Qed.
Lemma janswers_l p : janswers rO rI radd rmul rsub p = janswers rO rI radd rmul rsub (j_no_housekeeping p).
Proof.
  apply jgo_tw. split; [exists []; constructor; [apply new_wok|apply new_wok|done|constructor|constructor]|].
  exists []. constructor; [apply yok_new|apply yok_new|done|constructor|constructor].
Qed.
Lemma jgo_prefix p q : ∀ s B Z l, jgo s B Z (p ++ q) = Some l →
  ∃ l1 l2, l = l1 ++ l2 ∧ jgo s B Z p = Some l1 ∧ length l1 = length (j_no_housekeeping p).
Proof.
  induction p as [|c p IH]; intros s B Z l Hl; [by exists [], l|]. cbn [app SpecTransS.jgo] in *. unfold j_no_housekeeping. rewrite filter_cons. fold (j_no_housekeeping p).
  destruct (jdo s B Z c) as [[[[s' B'] Z'] a]|]; [|done]. cbn [mbind option_bind] in *.
  destruct (jgo s' B' Z' (p ++ q)) as [l'|] eqn:El; [|done]. cbn [mbind option_bind] in *. destruct (IH _ _ _ _ El) as (l1 & l2 & -> & X1 & Hlen).
  rewrite X1. cbn [mbind option_bind]. injection Hl as <-. destruct (decide (jhousekeeping c)) as [Hc|Hc].
  - rewrite decide_False by tauto. by exists l1, l2.
  - rewrite decide_True by done. exists (a :: l1), l2. sp; [done|done|]. cbn. by f_equal.
Qed.
Lemma janswers_prefix p q l : janswers rO rI radd rmul rsub (p ++ q) = Some l →
  ∃ l1 l2, l = l1 ++ l2 ∧ janswers rO rI radd rmul rsub (j_no_housekeeping p) = Some l1 ∧ length l1 = length (j_no_housekeeping p).
Proof. intros (l1 & l2 & -> & E & Hl)%jgo_prefix. exists l1, l2. sp; [done| |done]. rewrite <- E. symmetry. apply janswers_l. Qed.
End prog.
