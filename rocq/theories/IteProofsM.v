(** The if-then-else of the multi-state managers against the formula it replaced (internal lemmas for C76). *)
From Verif Require Import Prelude ComputeCache Arena Trees ArenaProofs Bdd Mdd MtMdd MtMdd2 ArenaMore.
From Verif Require Import SpecBdd SpecMdd NaryProofs MddProofs MtProofs MmProofs MddMain MmMain SpecIte.

Lemma mdd_ite_formula m f g h : mwf m → levels_distinct (d_ar m) →
  node_valid (d_ar m) f → node_valid (d_ar m) g → node_valid (d_ar m) h →
  (∀ rho id, in_range (d_ar m) rho → id ∈ [f; g; h] → ¬ node_value (d_ar m) rho id TUndet) →
  ∃ m1 r m2, mdd_ite m f g h = Some (m1, r) ∧ mdd_if_formula m1 f g h = Some (m2, r).
Proof.
  intros Hw Hd Vf Vg Vh Hdet.
  assert (Hb : ∀ m' id, ext (d_ar m) (d_ar m') → node_valid (d_ar m) id → node_valid (d_ar m') id) by (intros; by eapply ext_live).
  destruct (mite_l' m f g h Hw Vf Vg Vh) as (m1 & r & -> & (Hw1 & He1 & Hh1) & Vr & Pr). exists m1, r. unfold mdd_if_formula.
  destruct (mconn_l' m1 And f g Hw1) as (m2 & a & Ea & (Hw2 & He2 & Hh2) & Va & Pa); [by apply Hb..|]. cbn [mdd_conn] in Ea.
  rewrite Ea. cbn [mbind option_bind].
  assert (He12 : ext (d_ar m) (d_ar m2)) by by eapply ext_trans.
  destruct (mnot_l' m2 f Hw2) as (m3 & n & -> & (Hw3 & He3 & Hh3) & Vn & Pn); [by apply Hb|]. cbn [mbind option_bind].
  assert (He13 : ext (d_ar m) (d_ar m3)) by by eapply ext_trans.
  destruct (mconn_l' m3 And n h Hw3) as (m4 & b & Eb & (Hw4 & He4 & Hh4) & Vb & Pb); [done|by apply Hb|]. cbn [mdd_conn] in Eb.
  rewrite Eb. cbn [mbind option_bind].
  assert (He24 : ext (d_ar m2) (d_ar m4)) by by eapply ext_trans.
  destruct (mconn_l' m4 Or a b Hw4) as (m5 & s & Es & (Hw5 & He5 & Hh5) & Vs & Ps); [by eapply ext_live|done|]. cbn [mdd_conn] in Es.
  rewrite Es. exists m5. split; [done|]. do 2 f_equal.
  assert (He15 : ext (d_ar m1) (d_ar m5)) by (eapply ext_trans; [exact He2|]; by eapply ext_trans).
  apply (ncanon (d_ar m5)); [apply Hw5|apply Hw5| |done|by eapply ext_live|].
  { unfold levels_distinct. rewrite Hh5, Hh4, Hh3, Hh2, Hh1. done. }
  intros rho t Hr Ht.
  assert (H5 : in_range (d_ar m) rho) by (unfold in_range in *; rewrite Hh5, Hh4, Hh3, Hh2, Hh1 in Hr; done).
  assert (Hbool : ∀ id, id ∈ [f; g; h] → node_valid (d_ar m) id → ∃ x, node_value (d_ar m) rho id (tvb x)).
  { intros id Hin Hv. destruct (nvalue_total (d_ar m) rho id) as [[] Hx]; try done; try apply Hw.
    - by exists false.
    - by exists true.
    - exfalso. by eapply Hdet. }
  destruct (Hbool f) as [x Hx]; [set_solver|done|]. destruct (Hbool g) as [y Hy]; [set_solver|done|]. destruct (Hbool h) as [z Hz]; [set_solver|done|].
  assert (Hmv : ∀ mm1 mm2 id v, ext (d_ar mm1) (d_ar mm2) → mwf mm1 → node_valid (d_ar mm1) id → node_value (d_ar mm1) rho id v → node_value (d_ar mm2) rho id v).
  { intros mm1 mm2 id v He Hwm Hv Hval. destruct (nvalid_repr _ _ _ (mg_wf _ (mw_good _ Hwm)) Hv) as [d Hdd].
    apply (nval_eval _ _ _ _ _ Hdd) in Hval. by apply (nval_eval _ _ _ _ _ (repr_mono _ _ _ _ He Hdd)). }
  assert (R1 : in_range (d_ar m1) rho) by (unfold in_range; by rewrite Hh1).
  assert (R2 : in_range (d_ar m2) rho) by (unfold in_range; by rewrite Hh2).
  assert (R3 : in_range (d_ar m3) rho) by (unfold in_range; by rewrite Hh3).
  assert (R4 : in_range (d_ar m4) rho) by (unfold in_range; by rewrite Hh4).
  assert (Xa : node_value (d_ar m2) rho a (tvb (x && y))).
  { apply Pa; [done| |]; by eapply Hmv. }
  assert (Xn : node_value (d_ar m3) rho n (tvb (negb x))).
  { apply Pn; [done|]. by eapply (Hmv m m2). }
  assert (Xb : node_value (d_ar m4) rho b (tvb (negb x && z))).
  { apply Pb; [done|done|]. by eapply (Hmv m m3). }
  assert (Xs : node_value (d_ar m5) rho s (tvb (x && y || negb x && z))).
  { apply Ps; [done| |done]. by eapply (Hmv m2 m4). }
  rewrite (nval_fun _ _ _ _ _ Ht Xs). eapply (Hmv m1 m5); [done|done|done|].
  replace (tvb (x && y || negb x && z)) with (if x then tvb y else tvb z) by (by destruct x, y, z). by apply (Pr rho x (tvb y) (tvb z)).
Qed.

Section value.
Context (I : vint).

Lemma mm_ite_formula m f g h : mmwf I m → levels_distinct (t_ar (mm_v m)) →
  mm_valid m (NBool f) → mm_valid m (NVal g) → mm_valid m (NVal h) →
  (∀ rho, mm_range m rho → ¬ mm_bool m rho (NBool f) TUndet) →
  ∃ m1 r m2, mm_ite m (NBool f) (NVal g) (NVal h) = Some (m1, r) ∧ mm_if_formula I m1 f g h = Some (m2, r).
Proof.
  intros Hw Hd Vf Vg Vh Hdet.
  destruct (mm_vite_l I m f g h Hw Vf Vg Vh) as (m1 & r & Ei & (Hw1 & Hb1 & Hv1 & Hh1) & Vr & Pr). rewrite Ei. exists m1, r. unfold mm_if_formula.
  assert (Mb : ∀ rho m m' id t, mmstep I m m' → mmwf I m → mm_valid m (NBool id) → node_value (d_ar (mm_b m)) rho id t → node_value (d_ar (mm_b m')) rho id t).
  { intros rho k k' id t (_ & He & _) Hk Hv. apply (nval_mono _ _ rho id t He (mg_wf _ (mw_good _ (mmw_b _ _ Hk))) Hv). }
  assert (Mv : ∀ rho m m' id t, mmstep I m m' → mmwf I m → mm_valid m (NVal id) → node_value (t_ar (mm_v m)) rho id t → node_value (t_ar (mm_v m')) rho id t).
  { intros rho k k' id t (_ & _ & He & _) Hk Hv. apply (nval_mono _ _ rho id t He (wv _ _ Hk) Hv). }
  assert (Vb : ∀ m m' id, mmstep I m m' → mm_valid m (NBool id) → mm_valid m' (NBool id)) by (intros k k' id (_ & He & _) Hv; by eapply ext_live).
  assert (Vv : ∀ m m' id, mmstep I m m' → mm_valid m (NVal id) → mm_valid m' (NVal id)) by (intros k k' id (_ & _ & He & _) Hv; by eapply ext_live).
  assert (S01 : mmstep I m m1) by done.
  destruct (mm_vif_l I m1 f g Hw1) as (m2 & a & -> & S12 & Va & Pa); [by eapply Vb|by eapply Vv|]. cbn [mbind option_bind].
  assert (S02 : mmstep I m m2) by by eapply mmstep_trans.
  destruct (mm_not_l I m2 (NBool f)) as (m3 & n' & En & S23 & Vn & Pn); [apply S12|by eapply Vb|]. rewrite En. cbn [mbind option_bind].
  assert (∃ n, n' = NBool n) as [n ->].
  { cbn [mm_not] in En. unfold on_b in En. destruct (mdd_not (mm_b m2) f) as [[? k]|]; [|done]. injection En as _ <-. by exists k. }
  assert (S03 : mmstep I m m3) by by eapply mmstep_trans.
  destruct (mm_vif_l I m3 n h) as (m4 & b & -> & S34 & Wb & Pb); [apply S23|done|by eapply (Vv m)|]. cbn [mbind option_bind].
  assert (S24 : mmstep I m2 m4) by by eapply mmstep_trans.
  pose proof (mm_arith_l I VReplace m4 (NVal a) (NVal b)) as Har.
  destruct (mm_arith I VReplace m4 (NVal a) (NVal b)) as [[m5 s]|] eqn:Es.
  2: { destruct Har as (? & ? & ? & _ & _ & _ & Hno); [apply S34|by eapply (Vv m2)|done|]. exfalso. by apply Hno. }
  destruct Har as (S45 & Vs & Ps); [apply S34|by eapply (Vv m2)|done|].
  exists m5. split; [done|]. do 2 f_equal.
  assert (∃ s', s = NVal s') as [s' ->].
  { cbn [mm_arith] in Es. unfold on_v in Es. destruct (mt_bin I VReplace (mm_v m4) a b) as [[? k]|]; [|done]. injection Es as _ <-. by exists k. }
  assert (∃ r', r = NVal r') as [r' ->].
  { clear - Ei. unfold mm_ite, as_val in Ei. destruct (mm_vite_op m f g h) as [[? k]|]; [|done]. injection Ei as _ <-. by exists k. }
  assert (S14 : mmstep I m1 m4). { exact (mmstep_trans I _ _ _ S12 S24). }
  assert (S15 : mmstep I m1 m5) by exact (mmstep_trans I _ _ _ S14 S45).
  assert (S05 : mmstep I m m5) by exact (mmstep_trans I _ _ _ S01 S15).
  f_equal. apply (ncanon (t_ar (mm_v m5))); [apply S45|apply S45| |done|by eapply (Vv m1)|].
  { unfold levels_distinct in *. rewrite (mmw_h _ _ (proj1 S45)), (proj2 (proj2 (proj2 S05))). by rewrite (mmw_h _ _ Hw) in Hd. }
  intros rho t Hr Ht.
  assert (R : ∀ k, mmstep I m k → mm_range k rho).
  { intros k (_ & _ & _ & Hk). unfold mm_range, in_range in *. rewrite Hk, <- (proj2 (proj2 (proj2 S05))), <- (mmw_h _ _ (proj1 S45)). exact Hr. }
  assert (R0 : mm_range m rho) by (apply R; by apply mmstep_refl).
  destruct (nvalue_total (d_ar (mm_b m)) rho f) as [x Hx]; try done; try apply Hw.
  destruct (nvalue_total (t_ar (mm_v m)) rho g) as [y Hy]; try done; try apply Hw.
  { unfold in_range. rewrite (mmw_h _ _ Hw). exact R0. }
  destruct (nvalue_total (t_ar (mm_v m)) rho h) as [z Hz]; try done; try apply Hw.
  { unfold in_range. rewrite (mmw_h _ _ Hw). exact R0. }
  assert (∃ q, x = tvb q) as [q ->].
  { destruct x; [by exists false|by exists true|]. exfalso. apply (Hdet rho R0). by exists f. }
  specialize (Pa rho _ y (R m1 S01) (Mb _ _ _ _ _ S01 Hw Vf Hx) (Mv _ _ _ _ _ S01 Hw Vg Hy)).
  specialize (Pn rho q (R m2 S02)). destruct Pn as (? & [= <-] & Pn).
  { exists f. split; [done|]. by eapply (Mb rho m m2). }
  specialize (Pb rho _ z (R m3 S03) Pn (Mv _ _ _ _ _ S03 Hw Vh Hz)).
  destruct (Ps rho (if decide (tvb q = TOne) then y else VUndet) (if decide (tvb (negb q) = TOne) then z else VUndet)
    (R m4 (mmstep_trans I _ _ _ S01 S14))) as (? & [= <-] & Qs).
  { exists a. split; [done|]. eapply (Mv rho m2 m4); [done|apply S12|done|done]. }
  { by exists b. }
  { done. }
  specialize (Pr rho q y z R0). destruct Pr as (? & [= <-] & Qr); [by exists f|by exists g|by exists h|].
  rewrite (nval_fun _ _ _ _ _ Ht Qs). apply (Mv rho m1 m5) in Qr; try done. by destruct q, y, z.
Qed.
End value.
