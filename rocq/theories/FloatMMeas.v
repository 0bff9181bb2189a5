(** Multi-state Birnbaum importances computed in [f64]: proofs.  As in FloatMeas, the run in [f64] and the run over the reals are followed side by side. *)
From Coq Require Import Reals Lra RealField.
From Flocq Require Import Core.
From stdpp Require Import strings.
From Verif Require Import Prelude ComputeCache Arena Trees ArenaProofs ArenaMore Bdd Mdd MtMdd MtMdd2 ZmddAlg BssMgr MssMgr MssAlg
  SpecMdd SpecBss SpecMss SpecMssAlg SpecEnclose NaryProofs MddMain BssSize BssProb BssMeas MssAlgProofs MssProb MssMeas MssMgrProofs MssRpn MssAlgMain
  Float64 SpecFloat64 Float64Proofs FloatMMain FloatMeas.
Local Open Scope R_scope.

(** ** passing weights on *)
Definition addp64 (g : gmap nat f64) (c : nat) (v : f64) : gmap nat f64 := <[c := f64_add (at64 g c) v]> g.
Definition addpR (h : gmap nat R) (c : nat) (V : R) : gmap nat R := <[c := gc_at 0 h c + V]> h.
Lemma addpR_at h c V : gc_at 0 (addpR h c V) c = gc_at 0 h c + V.
Proof. unfold gc_at at 1, addpR. by rewrite lookup_insert. Qed.
Lemma addpR_other h c V i : i ≠ c → gc_at 0 (addpR h c V) i = gc_at 0 h i.
Proof. intros. unfold gc_at, addpR. by rewrite lookup_insert_ne. Qed.
Lemma addp64_at g c v : at64 (addp64 g c v) c = f64_add (at64 g c) v.
Proof. unfold at64 at 1, addp64. by rewrite lookup_insert. Qed.
Lemma addp64_other g c v i : i ≠ c → at64 (addp64 g c v) i = at64 g i.
Proof. intros. unfold at64, addp64. by rewrite lookup_insert_ne. Qed.
Lemma addp_fine g h c v V ev : gfine g h → f64_finite v → 0 <= f64_real v → 0 <= V → Rabs (f64_real v - V) <= ev →
  gc_at 0 h c + V <= 1 → er g h c + ev <= 1 →
  gfine (addp64 g c v) (addpR h c V) ∧ er (addp64 g c v) (addpR h c V) c <= er g h c + ev + 2 * hu ∧
  (∀ i, i ≠ c → er (addp64 g c v) (addpR h c V) i = er g h i).
Proof.
  intros Hg Fv Hv HV Ev H1 H2. pose proof hu_pos. destruct (Hg c) as (Fc & Pc & Pc').
  assert (Hc : f64_finite (f64_add (at64 g c) v) ∧ 0 <= f64_real (f64_add (at64 g c) v) ∧
    Rabs (f64_real (f64_add (at64 g c) v) - (gc_at 0 h c + V)) <= er g h c + ev + 2 * hu).
  { unfold er in *. set (w := at64 g c) in *. set (Z := gc_at 0 h c) in *.
    assert (Hs : Rabs (f64_real w + f64_real v) <= 2).
    { rewrite Rabs_pos_eq by lra. pose proof (Rle_abs (f64_real w - Z)). pose proof (Rle_abs (f64_real v - V)). lra. }
    destruct (add_err w v Fc Fv Hs) as [F E]. split; [done|]. split.
    { destruct (add_ok w v Fc Fv) as [_ ->]; [lra|]. apply rnd_pos. lra. }
    pose proof (Rabs_triang (f64_real w - Z) (f64_real v - V)) as Ht.
    replace (f64_real (f64_add w v) - (Z + V)) with
      ((f64_real (f64_add w v) - (f64_real w + f64_real v)) + ((f64_real w - Z) + (f64_real v - V))) by ring.
    eapply Rle_trans; [apply Rabs_triang|]. lra. }
  destruct Hc as (F & P & E). refine (conj _ (conj _ _)).
  - intros i. destruct (decide (i = c)) as [->|Hne].
    + rewrite addp64_at, addpR_at. split; [done|]. split; [done|]. lra.
    + rewrite addp64_other, addpR_other by done. apply Hg.
  - unfold er at 1. rewrite addpR_at, addp64_at. done.
  - intros i Hne. unfold er. by rewrite addp64_other, addpR_other.
Qed.

(** ** the sums of the result *)
(** [x] approximates [v] within [D]; [v] is at most [A] *)
Definition sok (D A v : R) (x : f64) : Prop := f64_finite x ∧ Rabs (f64_real x - v) <= D ∧ Rabs v <= A.
Lemma sok_mono D A D' A' v x : D <= D' → A <= A' → sok D A v x → sok D' A' v x.
Proof. intros H1 H2 (F & E & V). refine (conj F (conj _ _)); lra. Qed.
Lemma mterm_fine w p1 p0 W P1 P0 e eta : f64_finite w → 0 <= f64_real w → 0 <= W <= 1 → Rabs (f64_real w - W) <= e →
  close eta P1 p1 → close eta P0 p0 → 0 <= eta → 2 * eta + 2 * hu <= 1 → 2 * e + W * (2 * eta + 2 * hu) <= 1 →
  f64_finite (f64_mul w (f64_sub p1 p0)) ∧
  Rabs (f64_real (f64_mul w (f64_sub p1 p0)) - W * (P1 - P0)) <= 2 * e + W * (2 * eta + 2 * hu) + 2 * hu.
Proof.
  intros Fw Hw HW Ew (F1 & N1 & B1 & D1) (F0 & N0 & B0 & D0) Heta Hk Hb. pose proof hu_pos. apply Rabs_le_inv in Ew as Ew'.
  apply Rabs_le_inv in D1 as D1'. apply Rabs_le_inv in D0 as D0'.
  destruct (sub_err p1 p0 F1 F0) as [Fd Ed]; [apply Rabs_le; lra|].
  set (d := f64_sub p1 p0) in *. set (kap := 2 * eta + 2 * hu) in *.
  assert (Hd : Rabs (f64_real d - (P1 - P0)) <= kap).
  { apply Rabs_le_inv in Ed. apply Rabs_le. unfold kap. lra. }
  assert (X1 : Rabs ((f64_real w - W) * (P1 - P0)) <= e * 1) by (apply abs_mul; [done|apply Rabs_le; lra]).
  assert (X2 : Rabs (f64_real w * (f64_real d - (P1 - P0))) <= (W + e) * kap) by (apply abs_mul; [rewrite Rabs_pos_eq; lra|done]).
  assert (X3 : Rabs (W * (P1 - P0)) <= 1 * 1) by (apply abs_mul; [rewrite Rabs_pos_eq; lra|apply Rabs_le; lra]).
  assert (e * kap <= e * 1) as X4 by (apply Rmult_le_compat_l; [pose proof (Rabs_pos (f64_real w - W))|]; lra).
  replace ((W + e) * kap) with (W * kap + e * kap) in X2 by ring.
  assert (Hx : f64_real w * f64_real d = (f64_real w - W) * (P1 - P0) + f64_real w * (f64_real d - (P1 - P0)) + W * (P1 - P0)) by ring.
  apply Rabs_le_inv in X1, X2, X3.
  destruct (mul_err w d Fw Fd) as [F E]; [apply Rabs_le; lra|]. split; [done|]. apply Rabs_le_inv in E. apply Rabs_le. lra.
Qed.
Lemma slot2 w W e eta D A : f64_finite w → 0 <= f64_real w → 0 <= W <= 1 → Rabs (f64_real w - W) <= e → 0 <= eta → 2 * eta + 2 * hu <= 1 →
  A + W <= 1 → 0 <= D → D + (2 * e + W * (2 * eta + 2 * hu)) + 2 * hu <= 1 →
  ∀ psR ps64 sR s64, Forall2 (close eta) psR ps64 → Forall2 (sok D A) sR s64 → length psR = S (length sR) →
  ∃ sR' s64', nmeas_slot Rplus Rmult Rminus W psR sR = Some sR' ∧ nmeas_slot f64_add f64_mul f64_sub w ps64 s64 = Some s64' ∧
    length sR' = length sR ∧
    Forall2 (sok (D + (2 * e + W * (2 * eta + 2 * hu)) + 4 * hu) (A + W)) sR' s64'.
Proof.
  intros Fw Hw HW Ew Heta Hk HA HD Hb. pose proof hu_pos as Hh.
  induction psR as [|P psR IH]; intros ps64 sR s64 Hp Hs Hl; [done|]. destruct psR as [|P' psR].
  - destruct sR; [|done]. apply Forall2_nil_inv_l in Hs as ->. apply Forall2_cons_inv_l in Hp as (p & ps & _ & Hp & ->).
    apply Forall2_nil_inv_l in Hp as ->. exists [], []. done.
  - destruct sR as [|v sR]; [done|]. apply Forall2_cons_inv_l in Hs as (x & s64' & (Fx & Ex & Vx) & Hs & ->).
    apply Forall2_cons_inv_l in Hp as (p & ps & Hp0 & Hp & ->). pose proof Hp as Hp'.
    apply Forall2_cons_inv_l in Hp as (p' & ps' & Hp1 & Hp & ->).
    destruct (IH (p' :: ps') sR s64' Hp' Hs) as (sR2 & s642 & E1 & E2 & L2 & H2); [cbn in *; lia|].
    destruct (mterm_fine w p' p W P' P e eta Fw Hw HW Ew Hp1 Hp0 Heta Hk) as [Ft Et]; [lra|].
    destruct Hp1 as (_ & _ & B1 & _), Hp0 as (_ & _ & B0 & _).
    set (t := f64_mul w (f64_sub p' p)) in *.
    assert (X3 : Rabs (W * (P' - P)) <= W * 1) by (apply abs_mul; [rewrite Rabs_pos_eq; lra|apply Rabs_le; lra]).
    set (Tm := W * (P' - P)) in *.
    change (nmeas_slot Rplus Rmult Rminus W (P :: P' :: psR) (v :: sR)) with
      (rest ← nmeas_slot Rplus Rmult Rminus W (P' :: psR) sR; Some ((v + Tm) :: rest)).
    change (nmeas_slot f64_add f64_mul f64_sub w (p :: p' :: ps') (x :: s64')) with
      (rest ← nmeas_slot f64_add f64_mul f64_sub w (p' :: ps') s64'; Some ((f64_add x t) :: rest)).
    rewrite E1, E2. cbn [mbind option_bind]. eexists _, _. refine (conj eq_refl (conj eq_refl (conj _ _))); [cbn; lia|].
    constructor; [|done]. apply Rabs_le_inv in Ex, Vx, Et, X3.
    destruct (add_err x t Fx Ft) as [F E]; [apply Rabs_le; lra|]. apply Rabs_le_inv in E.
    refine (conj F (conj _ _)); apply Rabs_le; lra.
Qed.

Section code.
Context {T : Type} (hit : T → option bool) (a : arena T) (Hwf : awf Rn a) (Hc : hcons (ar_headers a)).
Context (rv : gmap string (list R)) (pv : gmap string (list f64)) (HrR : rows_ok rv a) (Hr64 : rows_ok pv a).
Context (delta : R) (Hdl : 0 <= delta).
Local Notation ac64 := (acache f64_zero f64_one f64_add f64_mul hit pv a).
Local Notation acR := (acache 0 1 Rplus Rmult hit rv a).
Local Notation pr64 := (npra f64_zero f64_one f64_add f64_mul hit pv).
Local Notation prR := (npra 0 1 Rplus Rmult hit rv).
Local Notation edges64 := (nmeas_edges f64_zero f64_one f64_add f64_mul hit a pv).
Local Notation edgesR := (nmeas_edges 0 1 Rplus Rmult hit a rv).
Local Notation pe := (per delta).

Lemma edges2 w W e l rj pj : f64_finite w → 0 <= f64_real w → 0 <= W <= 1 → Rabs (f64_real w - W) <= e → e <= 1 → NoDup (l.*1) →
  ∀ ds es rs ps j g b h c, Forall2 (repr a) ds es → Forall2 (λ d e, (e, d) ∈ l) ds es →
  drop j rj = rs → drop j pj = ps → Forall2 (approx delta) rs ps → length ds = length rs →
  ac64 b → acR c → gfine g h →
  fsum all_nodes (gc_at 0 h) l + W * rsumR rs <= 1 → fsum all_nodes (er g h) l + e * rsumR rs + INR (length rs) * pe <= 1 →
  ∃ g' b' h' c', edges64 w pj j es g b = Some (g', b', pr64 <$> ds) ∧ edgesR W rj j es h c = Some (h', c', prR <$> ds) ∧
    ac64 b' ∧ acR c' ∧ gfine g' h' ∧
    (∀ keep, fsum keep (gc_at 0 h') l <= fsum keep (gc_at 0 h) l + W * rsumR rs) ∧
    (∀ keep, fsum keep (er g' h') l <= fsum keep (er g h) l + e * rsumR rs + INR (length rs) * pe) ∧
    (∀ keep, Forall (λ d, keep d = false) ds →
       fsum keep (gc_at 0 h') l = fsum keep (gc_at 0 h) l ∧ fsum keep (er g' h') l = fsum keep (er g h) l).
Proof.
  intros Fw Pw HW Ew He Hnd. pose proof hu_pos as Hh. pose proof eps_hu as Hep. pose proof (per_pos delta Hdl) as Hper.
  assert (He0 : 0 <= e) by (pose proof (Rabs_pos (f64_real w - W)); lra).
  induction ds as [|d ds IH]; intros es rs ps j g b h c Hf Hin Hrs Hps Hap Hlen Hb Hca Hfine HM HU.
  - apply Forall2_nil_inv_l in Hf as ->. destruct rs; [|done]. exists g, b, h, c. cbn [nmeas_edges fmap list_fmap length INR].
    unfold ring_sum. cbn [foldr]. refine (conj eq_refl (conj eq_refl (conj Hb (conj Hca (conj Hfine (conj _ (conj _ _))))))); [intros; lra|intros; lra|done].
  - apply Forall2_cons_inv_l in Hf as (c0 & es' & Hd & Hf & ->). apply Forall2_cons in Hin as [Hin Hins].
    destruct rs as [|r rs]; [done|]. apply Forall2_cons_inv_l in Hap as (p & ps' & Hp & Hap & ->). cbn [length] in Hlen. 
    assert (Hrj : rj !! j = Some r) by (rewrite <- (Nat.add_0_r j), <- lookup_drop, Hrs; done).
    assert (Hpj : pj !! j = Some p) by (rewrite <- (Nat.add_0_r j), <- lookup_drop, Hps; done).
    assert (Hrs' : drop (S j) rj = rs) by (rewrite (drop_S _ _ _ Hrj) in Hrs; by injection Hrs).
    assert (Hps' : drop (S j) pj = ps') by (rewrite (drop_S _ _ _ Hpj) in Hps; by injection Hps).
    cbn [nmeas_edges]. rewrite Hrj, Hpj. cbn [mbind option_bind].
    destruct (nproba_spec f64_zero f64_one f64_add f64_mul hit pv a Hwf Hc (ar_fuel a) Hr64 d c0 b Hd) as (b1 & -> & Hb1);
      [by eapply a_fuel_enough|done|]. cbn [mbind option_bind].
    destruct (nproba_spec 0 1 Rplus Rmult hit rv a Hwf Hc (ar_fuel a) HrR d c0 c Hd) as (c1 & -> & Hc1);
      [by eapply a_fuel_enough|done|]. cbn [mbind option_bind].
    fold (at64 g c0). change (default 0 (h !! c0)) with (gc_at 0 h c0).
    fold (addp64 g c0 (f64_mul w p)). fold (addpR h c0 (W * r)).
    pose proof (rsumR_pos _ _ _ Hap) as Hrp. rewrite rsumR_cons in *. cbn [length] in *. rewrite S_INR in *.
    destruct Hp as ([Fp Bp] & Br & Dp).
    destruct (mul_near w p W r e delta) as (F1 & P1 & E1); try done; try lra.
    pose proof (er_pos g h) as Ep. assert (Hgp : ∀ i, 0 <= gc_at 0 h i) by (intros i; apply Hfine).
    pose proof (fsum_member all_nodes _ c0 d l Ep Hin eq_refl) as Ec.
    pose proof (fsum_member all_nodes _ c0 d l Hgp Hin eq_refl) as Gc.
    assert (HWr : 0 <= W * r) by (apply Rmult_le_pos; lra). assert (HWs : 0 <= W * rsumR rs) by (apply Rmult_le_pos; lra).
    assert (Her : 0 <= e * r) by (apply Rmult_le_pos; lra). assert (Hes : 0 <= e * rsumR rs) by (apply Rmult_le_pos; lra).
    assert (Hlp : 0 <= INR (length rs) * pe) by (apply Rmult_le_pos; [apply pos_INR|lra]).
    assert (Hpe : pe = 2 * delta + 4 * hu) by (unfold per; lra).
    destruct (addp_fine g h c0 _ (W * r) _ Hfine F1 P1 HWr E1) as (G1 & X1 & Y1); [lra|lra|].
    set (g1 := addp64 g c0 (f64_mul w p)) in *. set (h1 := addpR h c0 (W * r)) in *.
    assert (M1 : ∀ keep, fsum keep (gc_at 0 h1) l = fsum keep (gc_at 0 h) l + (if keep d then W * r else 0)).
    { intros keep. rewrite (fsum_upd keep (gc_at 0 h1) (gc_at 0 h) c0 d l Hnd Hin) by (intros; by apply addpR_other).
      unfold h1. rewrite addpR_at. destruct (keep d); ring. }
    assert (U1 : ∀ keep, fsum keep (er g1 h1) l = fsum keep (er g h) l + (if keep d then er g1 h1 c0 - er g h c0 else 0)).
    { intros keep. by rewrite (fsum_upd keep (er g1 h1) (er g h) c0 d l Hnd Hin). }
    destruct (IH es' rs ps' (S j) g1 b1 h1 c1 Hf Hins Hrs' Hps' Hap) as (g2 & b2 & h2 & c2 & -> & -> & Hb2 & Hc2 & G2 & M2 & U2 & K2); try done.
    + lia.
    + rewrite M1. cbn [all_nodes]. lra.
    + rewrite U1. cbn [all_nodes]. lra.
    + cbn [mbind option_bind]. exists g2, b2, h2, c2. refine (conj eq_refl (conj eq_refl (conj Hb2 (conj Hc2 (conj G2 (conj _ (conj _ _))))))).
      * intros keep. specialize (M2 keep). rewrite M1 in M2. destruct (keep d); lra.
      * intros keep. specialize (U2 keep). rewrite U1 in U2. pose proof (er_pos g h c0). destruct (keep d); lra.
      * intros keep [Hk Hks]%Forall_cons. destruct (K2 keep Hks) as [A1 A2]. rewrite M1, Hk in A1. rewrite U1, Hk in A2. split; lra.
Qed.

(** ** the loop *)
Context (eta : R) (Heta : 0 <= eta) (Hclose : ∀ d id, repr a d id → close eta (prR d) (pr64 d)).
Context (Hlv : ∀ i hd, ar_headers a !! i = Some hd → h_level hd = i) (Hnames : NoDup (h_label <$> ar_headers a)).
Context (Hrow : ∀ hd, hd ∈ ar_headers a → rowok delta rv pv (Ehs (ar_headers a)) hd).
Local Notation kap := (2 * eta + 2 * hu).
Fixpoint ecount (l : list (nat * dd T)) : nat :=
  match l with [] => O | (_, Leaf _) :: l => ecount l | (_, Br _ cs) :: l => (length cs + ecount l)%nat end.
Definition lvM (L : nat) (h : gmap nat R) (l : list (nat * dd T)) : R := fsum (above L) (gc_at 0 h) l.
Definition lvD (k L : nat) (g : gmap nat f64) (h : gmap nat R) (l : list (nat * dd T)) : R :=
  2 * (INR k * pe) + (1 - lvM L h l) * kap - 2 * fsum (above L) (er g h) l.
Definition einvn (k : nat) (g : gmap nat f64) (h : gmap nat R) (ge : gmap string (list f64)) (gr : gmap string (list R)) (l : list (nat * dd T)) : Prop :=
  ∀ L hd, ar_headers a !! L = Some hd →
    option_Forall2 (Forall2 (sok (lvD k L g h l) (1 - lvM L h l))) (gr !! h_label hd) (ge !! h_label hd) ∧
    0 <= lvD k L g h l ∧ lvM L h l <= 1.
Lemma einvn_mono D A D' A' (s : option (list R)) (t : option (list f64)) : D <= D' → A <= A' →
  option_Forall2 (Forall2 (sok D A)) s t → option_Forall2 (Forall2 (sok D' A')) s t.
Proof.
  intros H1 H2 [x y Hxy|]; constructor. eapply Forall2_impl; [exact Hxy|]. intros ? ?. by apply sok_mono.
Qed.

Lemma nmeas64_loop : ∀ l k g b ge h c gr, Forall (λ p, repr a p.2 p.1) l → topo a (l.*1) → ac64 b → acR c → slots_ok a gr → gfine g h →
  fsum all_nodes (er g h) l <= INR k * pe → fsum all_nodes (gc_at 0 h) l <= 1 → einvn k g h ge gr l →
  2 * (INR (k + ecount l) * pe) + kap <= 1 →
  ∃ g' b' ge' h' c' gr', nmeas_loop f64_zero f64_one f64_add f64_mul f64_sub hit a pv (l.*1) (g, b, ge) = Some (g', b', ge') ∧
    nmeas_loop 0 1 Rplus Rmult Rminus hit a rv (l.*1) (h, c, gr) = Some (h', c', gr') ∧
    (∀ x, x ∈ h_label <$> ar_headers a → option_Forall2 (Forall2 (sok (2 * (INR (k + ecount l) * pe) + kap) 1)) (gr' !! x) (ge' !! x)) ∧
    (∀ x, x ∉ h_label <$> ar_headers a → ge' !! x = ge !! x ∧ gr' !! x = gr !! x).
Proof.
  pose proof hu_pos as Hh. pose proof eps_hu as Hep. pose proof (per_pos delta Hdl) as Hper.
  assert (Hpe : pe = 2 * delta + 4 * hu) by (unfold per; lra).
  induction l as [|[y d] l IH]; intros k g b ge h c gr Hf Hto Hb Hca Hs Hfine HU HM HE HB.
  - cbn [ecount] in *. rewrite Nat.add_0_r in *. exists g, b, ge, h, c, gr. refine (conj eq_refl (conj eq_refl (conj _ _))); [|done].
    intros x (hd & -> & (L & Hx)%elem_of_list_lookup)%elem_of_list_fmap. destruct (HE L hd Hx) as (F & _ & _).
    eapply einvn_mono; [..|exact F]; unfold lvD, lvM, fsum; cbn [foldr]; lra.
  - apply Forall_cons in Hf as [Hr Hf]. cbn [fst snd] in Hr.
    rewrite fmap_cons in Hto |- *. cbn [fst nmeas_loop]. cbn [fst] in Hto. destruct Hto as (Hch & Hny & Hto).
    unfold nmeas_step. destruct d as [t|hd ds].
    + pose proof Hr as [_ Hn]%repr_leaf. rewrite Hn. cbn [mbind option_bind]. cbn [ecount] in *.
      rewrite fsum_cons in HU, HM. cbn [all_nodes] in HU, HM. pose proof (er_pos g h y). pose proof (Hfine y).
      apply (IH k); try done; [lra|lra|].
      intros L hd Hx. pose proof (HE L hd Hx) as HE1. unfold lvD, lvM in HE1 |- *.
      assert (above L (Leaf t) = false) as Hab by by apply Nat.ltb_ge, Nat.le_0_l.
      rewrite (fsum_skip _ (er g h)), (fsum_skip _ (gc_at 0 h)) in HE1 by done. exact HE1.
    + pose proof (repr_E a Hwf Hc _ _ Hr) as [Hlen Hkids]%okdd_br. pose proof Hr as [_ (hh & cs & Hn & Hhd & Hfc)]%repr_br.
      assert (Hhin : hd ∈ ar_headers a) by (by eapply elem_of_list_lookup_2).
      pose proof (Hlv _ _ Hhd) as Hlv0.
      destruct (Hrow hd Hhin) as (rj & pj & Hrj & Hpj & Hap & Hsum & Hrl).
      assert (HEe : Ehs (ar_headers a) (h_level hd) = h_edges hd) by (rewrite Hlv0; by rewrite (Ehs_at _ hh hd)).
      rewrite HEe in Hlen, Hrl. assert (Hpos : (0 < h_edges hd)%nat) by by apply Hc.
      rewrite Hn. cbn [mbind option_bind]. rewrite Hhd. cbn [mbind option_bind]. rewrite Hrj, Hpj. cbn [mbind option_bind].
      change (default f64_zero (g !! y)) with (at64 g y). change (default 0 (h !! y)) with (gc_at 0 h y).
      assert (Hnd : NoDup (l.*1)) by by eapply topo_nodup.
      assert (Hin : ∀ e de, repr a de e → e ∈ cs → (e, de) ∈ l).
      { intros e de He Hin. assert (e ∈ l.*1) as Hel by by eapply Hch.
        apply elem_of_list_fmap in Hel as ([e' de'] & -> & Hel). cbn [fst] in *.
        rewrite Forall_forall in Hf. pose proof (Hf _ Hel) as Hr'. cbn in Hr'. by rewrite (repr_fun _ _ _ _ He Hr'). }
      rewrite !fsum_cons in HU. rewrite !fsum_cons in HM. cbn [all_nodes] in HU, HM. cbn [ecount] in *.
      set (m := length ds) in *.
      assert (Hkm : INR (k + m) * pe = INR k * pe + INR m * pe) by (rewrite plus_INR; ring).
      assert (Hkt : INR (k + m) * pe <= INR (k + (m + ecount l)) * pe).
      { apply Rmult_le_compat_r; [lra|]. apply le_INR. lia. }
      assert (Hm1 : pe <= INR m * pe).
      { rewrite <- (Rmult_1_l pe) at 1. apply Rmult_le_compat_r; [lra|]. change 1 with (INR 1). apply le_INR. lia. }
      assert (Hk0 : 0 <= INR k * pe) by (apply Rmult_le_pos; [apply pos_INR|lra]).
      destruct (Hfine y) as (Fw & Pw & PW). pose proof (er_pos g h) as Ep. pose proof (Ep y) as Epy.
      assert (Hgp : ∀ i, 0 <= gc_at 0 h i) by (intros i; apply Hfine).
      assert (HUp : ∀ keep, 0 <= fsum keep (er g h) l) by (intros; by apply fsum_pos).
      assert (HMp : ∀ keep, 0 <= fsum keep (gc_at 0 h) l) by (intros; by apply fsum_pos).
      pose proof (HUp all_nodes). pose proof (HMp all_nodes).
      set (w := at64 g y) in *. set (W := gc_at 0 h y) in *. set (e := er g h y) in *.
      assert (He1 : Rabs (f64_real w - W) <= e) by apply Rle_refl.
      destruct (edges2 w W e l rj pj Fw Pw ltac:(lra) He1 ltac:(lra) Hnd ds cs rj pj 0 g b h c Hfc) as
        (g2 & b2 & h2 & c2 & -> & -> & Hb2 & Hc2 & G2 & M2 & U2 & K2); try done.
      { apply Forall2_same_length_lookup_2; [by eapply Forall2_length|]. intros i de x Hde Hx.
        apply Hin; [|by eapply elem_of_list_lookup_2]. eapply list.Forall2_lookup_lr; [exact Hfc|done|done]. }
      { fold m. lia. }
      { rewrite Hsum. lra. }
      { rewrite Hsum, Hrl, <- Hlen. lra. }
      rewrite Hsum in M2, U2. rewrite Hrl, <- Hlen in U2. cbn [mbind option_bind].
      set (L0 := h_level hd) in *.
      assert (Hab : above L0 (Br hd ds) = true) by (unfold above; cbn [rank]; apply Nat.ltb_lt; lia).
      assert (Hkd : ∀ L, (L0 <= L)%nat → Forall (λ d, above L d = false) ds).
      { intros L HL. eapply Forall_impl; [exact Hkids|]. intros d' [Hd' _]. unfold above. apply Nat.ltb_ge. lia. }
      rewrite <- Hlv0 in Hhd.
      destruct (HE L0 hd Hhd) as (HF & HD0 & HM0). unfold lvD, lvM in HF, HD0, HM0.
      rewrite (fsum_take _ (er g h)), (fsum_take _ (gc_at 0 h)) in HF, HD0 by done. rewrite fsum_take in HM0 by done. fold e W in HF, HD0. fold W in HM0.
      set (Ml := fsum (above L0) (gc_at 0 h) l) in *. set (Ul := fsum (above L0) (er g h) l) in *.
      pose proof (HMp (above L0)) as HMl. fold Ml in HMl. pose proof (HUp (above L0)) as HUl. fold Ul in HUl.
      set (D := 2 * (INR k * pe) + (1 - (W + Ml)) * kap - 2 * (e + Ul)) in *.
      assert (Hkap : 0 <= kap) by lra.
      assert (HMk : 0 <= Ml * kap) by (apply Rmult_le_pos; lra).
      assert (HDe : D + 2 * e + W * kap = 2 * (INR k * pe) + (1 - Ml) * kap - 2 * Ul) by (unfold D; ring).
      assert (HDk : (1 - Ml) * kap = kap - Ml * kap) by ring.
      assert (∃ sR s64, (match gr !! h_label hd with Some slot => Some slot
               | None => match length cs with O => None | S m => Some (replicate m 0) end end) = Some sR ∧
               (match ge !! h_label hd with Some slot => Some slot
               | None => match length cs with O => None | S m => Some (replicate m f64_zero) end end) = Some s64 ∧
               S (length sR) = m ∧ Forall2 (sok D (1 - (W + Ml))) sR s64) as (sR & s64 & -> & -> & HlR & Hsok).
      { inversion HF as [sR s64 Hss E1 E2|E1 E2].
        - exists sR, s64. split; [done|]. split; [done|]. split; [|done]. destruct (Hs (h_label hd) sR) as (hd' & Hhd' & He & Hl'); [done|].
          rewrite (hd_fun a Hnames hd' hd) in Hl' by done. lia.
        - pose proof (Forall2_length _ _ _ Hfc) as Hcl. fold m in Hcl. destruct (length cs) as [|m'] eqn:Hm; [lia|]. exists (replicate m' 0), (replicate m' f64_zero).
          split; [done|]. split; [done|]. split; [rewrite replicate_length; lia|].
          apply Forall2_replicate. refine (conj zero_finite (conj _ _)); rewrite ?zero_real, ?Rminus_diag_eq, Rabs_R0 by done; lra. }
      cbn [mbind option_bind].
      destruct (slot2 w W e eta D (1 - (W + Ml)) Fw Pw ltac:(lra) He1 Heta ltac:(lra) ltac:(lra) HD0 ltac:(lra) (prR <$> ds) (pr64 <$> ds) sR s64)
        as (sR' & s64' & -> & -> & Hl' & Hsok').
      { apply Forall2_fmap, Forall_Forall2_diag, Forall_forall. intros d' (i & Hi)%elem_of_list_lookup.
        destruct (Forall2_lookup_l _ _ _ _ _ Hfc Hi) as (e' & _ & Hd'). by eapply Hclose. }
      { done. }
      { rewrite fmap_length. fold m. lia. }
      cbn [mbind option_bind].
      destruct (IH (k + m)%nat g2 b2 (<[h_label hd := s64']> ge) h2 c2 (<[h_label hd := sR']> gr) Hf Hto Hb2 Hc2)
        as (g' & b' & ge' & h' & c' & gr' & E64 & ER & Hv & Hkeep).
      * intros x s. rewrite lookup_insert_Some. intros [[<- <-]|[_ Hx]]; [|by apply Hs]. exists hd. split; [done|]. split; [done|lia].
      * done.
      * specialize (U2 all_nodes). lra.
      * specialize (M2 all_nodes). lra.
      * intros L hd1 Hx. destruct (decide (h_label hd1 = h_label hd)) as [Heq|Hne].
        -- assert (hd1 = hd) as -> by (apply (hd_fun a Hnames); [by eapply elem_of_list_lookup_2|done|done]).
           assert (L = L0) as -> by (unfold L0; symmetry; by apply Hlv).
           destruct (K2 (above L0) (Hkd L0 (Nat.le_refl _))) as [KM KU]. unfold lvD, lvM. rewrite KM, KU. fold Ml Ul. rewrite !lookup_insert.
           assert (HWk : 0 <= W * kap) by (apply Rmult_le_pos; lra).
           assert (HDn : D + (2 * e + W * kap) + 4 * hu <= 2 * (INR (k + m) * pe) + (1 - Ml) * kap - 2 * Ul).
           { rewrite Hkm. assert (2 * hu <= INR m * pe) by lra. lra. }
           assert (HAn : 1 - (W + Ml) + W <= 1 - Ml) by lra.
           refine (conj _ (conj _ _)); [apply Some_Forall2; eapply Forall2_impl; [exact Hsok'|]; intros v x; by apply sok_mono|lra|lra].
        -- rewrite !lookup_insert_ne by done. destruct (HE L hd1 Hx) as (F & HD1 & HM1). unfold lvD, lvM in *.
           destruct (above L (Br hd ds)) eqn:Eab.
           ++ rewrite (fsum_take _ (er g h)), (fsum_take _ (gc_at 0 h)) in F, HD1 by done. rewrite fsum_take in HM1 by done.
              fold e W in F, HD1. fold W in HM1. specialize (M2 (above L)). specialize (U2 (above L)).
              set (M' := fsum (above L) (gc_at 0 h2) l) in *. set (U' := fsum (above L) (er g2 h2) l) in *.
              set (M0 := fsum (above L) (gc_at 0 h) l) in *. set (U0 := fsum (above L) (er g h) l) in *.
              assert (Hle : (1 - (W + M0)) * kap <= (1 - M') * kap) by (apply Rmult_le_compat_r; lra).
              refine (conj _ (conj _ _)); [eapply einvn_mono; [..|exact F]; lra|lra|lra].
           ++ rewrite (fsum_skip _ (er g h)), (fsum_skip _ (gc_at 0 h)) in F, HD1 by done. rewrite fsum_skip in HM1 by done.
              destruct (K2 (above L)) as [KM KU].
              { apply Hkd. unfold above in Eab. cbn [rank] in Eab. apply Nat.ltb_ge in Eab. fold L0 in Eab. lia. }
              rewrite KM, KU. refine (conj _ (conj _ _)); [eapply einvn_mono; [..|exact F]; lra|lra|lra].
      * rewrite <- Nat.add_assoc. done.
      * rewrite E64, ER. exists g', b', ge', h', c', gr'. refine (conj eq_refl (conj eq_refl (conj _ _))).
        -- rewrite Nat.add_assoc. exact Hv.
        -- intros x Hx. destruct (Hkeep x Hx) as [-> ->].
           assert (h_label hd ≠ x) by (intros <-; apply Hx; apply elem_of_list_fmap; by exists hd). by rewrite !lookup_insert_ne.
Qed.
End code.

Lemma ecount_edges {T} (a : arena T) l : Forall (λ p, repr a p.2 p.1) l → edges_of a ((filter is_br l).*1) = ecount l.
Proof.
  induction l as [|[y d] l IH]; intros Hf; [done|]. apply Forall_cons in Hf as [Hr Hf]. specialize (IH Hf). cbn [fst snd] in Hr. rewrite filter_cons.
  destruct d as [t|hd cs]; cbn [ecount].
  - destruct (decide (is_br (y, Leaf t))) as [Hx|_]; [done|done].
  - destruct (decide (is_br (y, Br hd cs))) as [_|Hx]; [|by destruct Hx]. unfold edges_of in *. cbn [fmap list_fmap fst].
    pose proof Hr as [_ (h & es & Hn & _ & Hfc)]%repr_br. rewrite Hn.
    change (sum_list (length es :: ?l)) with (length es + sum_list l)%nat. cbn [sum_list_with]. unfold Datatypes.id. f_equal; [|exact IH]. symmetry. by eapply Forall2_length.
Qed.

Lemma gen_bmeas64 I {B : mbase} w H {T} (hit : T → option bool) (a : arena T) f P delta rv pv sz nt ne : gok I w H → halfok w hit a f P →
  0 <= delta → table_for (declared w) rv → sums_to_one 0 1 Rplus (declared w) rv → table_rel (Forall2 (approx delta)) rv pv →
  nsize a f = Some (sz, nt, ne) → INR (2 * N.to_nat ne + 2 * states_of w + 1) * per delta <= 1 →
  ∃ g gr, nmeas f64_zero f64_one f64_add f64_mul f64_sub hit a pv f = Some g ∧ nmeas 0 1 Rplus Rmult Rminus hit a rv f = Some gr ∧
    ∀ x, option_Forall2 (Forall2 (sok (INR (2 * N.to_nat ne + 2 * states_of w + 1) * per delta) 1)) (gr !! x) (g !! x).
Proof.
  intros Hk Hh Hdl Ht H1 Hrel Hsz HB. pose proof (per_pos delta Hdl) as Hper. pose proof hu_pos as Hhu. pose proof eps_hu as Hep.
  assert (HpeR : per delta = 2 * delta + 4 * hu) by (unfold per; lra).
  assert (HBe : INR (2 * N.to_nat ne + 2 * states_of w + 1) * per delta = 2 * (INR (N.to_nat ne) * per delta) + 2 * (INR (states_of w) * per delta) + per delta).
  { rewrite !plus_INR, !mult_INR. cbn [INR]. ring. }
  rewrite HBe in *. clear HBe.
  assert (Hst0 : 0 <= INR (states_of w) * per delta) by (apply Rmult_le_pos; [apply pos_INR|lra]).
  assert (Hne0 : 0 <= INR (N.to_nat ne) * per delta) by (apply Rmult_le_pos; [apply pos_INR|lra]).
  pose proof (gen_size I w H Hk hit a f P Hh) as Hgs. destruct (half_hyps I w H Hk hit a f P Hh) as (Hc & Hlv & Hnd).
  pose proof (half_declared w hit a f P Hh) as Hde. destruct Hh as (Hwf & Hhs & d & Hd & HP).
  assert (Hrow : ∀ hd, hd ∈ ar_headers a → rowok delta rv pv (Ehs (ar_headers a)) hd).
  { intros hd (l & Hl)%elem_of_list_lookup. assert (Hin : (h_label hd, h_edges hd) ∈ declared w).
    { rewrite Hde. apply elem_of_list_fmap. exists hd. split; [done|]. by eapply elem_of_list_lookup_2. }
    destruct (Ht _ _ Hin) as (rs & Hrs & Hrl). pose proof (Hrel (h_label hd)) as Hp. rewrite Hrs in Hp.
    inversion Hp as [? ps Hf E1 E2|]. exists rs, ps. sp; [done|done|done|by eapply H1|]. rewrite Hrl, (Hlv _ _ Hl). by rewrite (Ehs_at _ l hd). }
  assert (Hlf : ∀ hd, hd ∈ ar_headers a → Ehs (ar_headers a) (h_level hd) = h_edges hd).
  { intros hd (l & Hl)%elem_of_list_lookup. rewrite (Hlv _ _ Hl). by rewrite (Ehs_at _ l hd). }
  assert (Hr64 : rows_ok pv a).
  { intros hd Hin. destruct (Hrow hd Hin) as (rs & ps & _ & Hps & Hf & _ & Hl).
    exists ps. split; [done|]. rewrite <- (Forall2_length _ _ _ Hf), Hl. by apply Hlf. }
  assert (HrR : rows_ok rv a).
  { intros hd Hin. destruct (Hrow hd Hin) as (rs & ps & Hrs & _ & Hf & _ & Hl). exists rs. split; [done|]. rewrite Hl. by apply Hlf. }
  assert (Hclose : ∀ d id, repr a d id → close (INR (states_of w) * per delta) (npra 0 1 Rplus Rmult hit rv d) (npra f64_zero f64_one f64_add f64_mul hit pv d)).
  { clear d Hd HP. intros d id Hd. assert (Hup : (upto (Ehs (ar_headers a)) (rank d) <= states_of w)%nat).
    { unfold states_of. rewrite Hde, <- upto_all by done. apply upto_mono. by eapply repr_rank. }
    apply le_INR in Hup.
    assert (INR (upto (Ehs (ar_headers a)) (rank d)) * per delta <= INR (states_of w) * per delta)%R as Hle by (apply Rmult_le_compat_r; lra).
    destruct (npra_f64 hit delta Hdl rv pv (Ehs (ar_headers a)) d) as (C1 & C2 & C3 & C4).
    + exact (repr_E a Hwf Hc _ _ Hd).
    + eapply repr_allhd; [|exact Hd]. intros h hd Hl. apply Hrow. by eapply elem_of_list_lookup_2.
    + lra.
    + refine (conj _ (conj _ (conj _ _))); [done|done|done|]. lra. }
  unfold nmeas. destruct (ntopo_ok a Hwf Hc d f Hd) as (v & l & -> & Hto & Hfl & Hl). cbn [mbind option_bind].
  assert (∃ ps, ps.*1 = l ∧ Forall (λ p : nat * dd T, repr a p.2 p.1) ps) as (lp & <- & Hlp).
  { clear Hto Hfl. induction l as [|y l IH]; [by exists []|]. destruct IH as (ps & <- & Hps); [intros; apply Hl; by right|].
    destruct (repr_exists Rn a y Hwf) as [dy Hdy].
    { eapply reach_live; [exact Hwf| |apply (Hl y); by left]. intros r ->%elem_of_list_singleton. by eapply repr_live. }
    exists ((y, dy) :: ps). split; [done|]. by constructor. }
  assert (Hfd : (f, d) ∈ lp).
  { apply elem_of_list_fmap in Hfl as ([f' d'] & -> & Hin). rewrite Forall_forall in Hlp.
    pose proof (Hlp _ Hin) as Hr'. cbn in *. by rewrite (repr_fun _ _ _ _ Hd Hr'). }
  pose proof (topo_nodup _ _ Hto) as Hndl.
  assert (Hne : N.to_nat ne = ecount lp).
  { assert (Hmem : ∀ y dy, (y, dy) ∈ lp → repr a dy y) by (intros y dy Hy; rewrite Forall_forall in Hlp; by apply Hlp in Hy).
    assert (Hall : ∀ y, reach a [f] y → ∃ dy, (y, dy) ∈ lp).
    { intros y Hy. assert (y ∈ lp.*1) as ([y' dy] & -> & ?)%elem_of_list_fmap by by eapply topo_closed. by exists dy. }
    assert (Hsub : ∀ (Q : nat * dd T → Prop) (DQ : ∀ x, Decision (Q x)), NoDup ((filter Q lp).*1)).
    { intros Q DQ. clear - Hndl. induction lp as [|[y dy] lp IH]; [constructor|]. cbn in Hndl. apply NoDup_cons in Hndl as [A1 A2].
      rewrite filter_cons. destruct (decide (Q (y, dy))); [|by apply IH]. cbn. apply NoDup_cons. split; [|by apply IH].
      intros (q0 & E & Hq)%elem_of_list_fmap. apply A1. apply elem_of_list_fmap. exists q0. split; [done|]. by apply elem_of_list_filter in Hq as [_ ?]. }
    specialize (Hgs ((filter is_br lp).*1) ((filter (λ p, ¬ is_br p) lp).*1)). rewrite Hsz in Hgs.
    rewrite <- (ecount_edges a lp Hlp). 
    assert (HX : nodes_of a f ((filter is_br lp).*1) ((filter (λ p, ¬ is_br p) lp).*1)); [|specialize (Hgs HX); injection Hgs as _ _ ->; by rewrite Nat2N.id].
    refine (conj _ (conj _ (conj _ _))); [by apply Hsub| |by apply Hsub|].
    - intros id. rewrite elem_of_list_fmap. split.
      + intros ([y dy] & -> & [Hb Hin]%elem_of_list_filter). cbn. split.
        * apply nreaches_reach, Hl. apply elem_of_list_fmap. by exists (y, dy).
        * destruct dy as [t|hd ds]; [done|]. pose proof (Hmem _ _ Hin) as [_ (h & es & Hn & _)]%repr_br. eauto.
      + intros [Hre%nreaches_reach (h & cs & Hn)]. destruct (Hall _ Hre) as [dy Hdy]. exists (id, dy). split; [done|]. apply elem_of_list_filter. split; [|done].
        destruct dy as [t|hd ds]; [|done]. pose proof (Hmem _ _ Hdy) as [_ ?]%repr_leaf. congruence.
    - intros id. rewrite elem_of_list_fmap. split.
      + intros ([y dy] & -> & [Hb Hin]%elem_of_list_filter). cbn. split.
        * apply nreaches_reach, Hl. apply elem_of_list_fmap. by exists (y, dy).
        * destruct dy as [t|hd ds]; [|by destruct Hb]. exists t. by pose proof (Hmem _ _ Hin) as [_ ?]%repr_leaf.
      + intros [Hre%nreaches_reach (t & Hn)]. destruct (Hall _ Hre) as [dy Hdy]. exists (id, dy). split; [done|]. apply elem_of_list_filter. split; [|done].
        destruct dy as [t'|hd ds]; [by intros ?|]. pose proof (Hmem _ _ Hdy) as [_ (h & es & Hn' & _)]%repr_br. congruence. }
  rewrite Hne in *.
  assert (Hz : ∀ i, er {[f := f64_one]} {[f := 1]} i = 0).
  { intros i. unfold er, at64, gc_at. destruct (decide (i = f)) as [->|Hnf].
    - rewrite !lookup_singleton. cbn [from_option]. unfold Datatypes.id. rewrite one_real. rewrite Rminus_diag_eq by done. apply Rabs_R0.
    - rewrite !lookup_singleton_ne by done. cbn [from_option]. rewrite zero_real, Rminus_diag_eq by done. apply Rabs_R0. }
  assert (HM1 : ∀ keep, fsum keep (gc_at 0 {[f := 1]}) lp <= 1).
  { intros keep. rewrite (fsum_upd keep (gc_at 0 {[f := 1]}) (gc_at 0 ∅) f d lp Hndl Hfd).
    - rewrite fsum_zero by done. unfold gc_at. rewrite lookup_singleton, lookup_empty. cbn [from_option]. unfold Datatypes.id. destruct (keep d); lra.
    - intros i Hi. unfold gc_at. by rewrite lookup_singleton_ne. }
  set (eta := INR (states_of w) * per delta) in *.
  destruct (nmeas64_loop hit a Hwf Hc rv pv HrR Hr64 delta Hdl eta Hst0 Hclose Hlv Hnd Hrow lp 0 {[f := f64_one]} ∅ ∅ {[f := 1]} ∅ ∅ Hlp Hto)
    as (g' & b' & ge & h' & c' & gr & E64 & ER & Hval & Habs).
  - by intros ? ? ?.
  - by intros ? ? ?.
  - by intros ? ? ?.
  - intros i. unfold at64, gc_at. destruct (decide (i = f)) as [->|Hnf].
    + rewrite !lookup_singleton. cbn [from_option]. unfold Datatypes.id. rewrite one_real. split; [apply one_finite|lra].
    + rewrite !lookup_singleton_ne by done. cbn [from_option]. rewrite zero_real. split; [apply zero_finite|lra].
  - rewrite fsum_zero by done. cbn [INR]. lra.
  - apply HM1.
  - intros L hd _. rewrite !lookup_empty. specialize (HM1 (above L)).
    assert (0 <= (1 - fsum (above L) (gc_at 0 {[f := 1]}) lp) * (2 * eta + 2 * hu)) by (apply Rmult_le_pos; lra).
    refine (conj _ (conj _ _)); [constructor| |done]. unfold lvD, lvM. rewrite (fsum_zero _ (er _ _)) by done. cbn [INR]. lra.
  - cbn [Nat.add]. lra.
  - rewrite E64, ER. cbn [mbind option_bind]. exists ge, gr. split; [done|]. split; [done|]. intros x.
    destruct (decide (x ∈ h_label <$> ar_headers a)) as [Hx|Hx].
    + specialize (Hval x Hx). cbn [Nat.add] in Hval. eapply einvn_mono; [| |exact Hval]; lra.
    + destruct (Habs x Hx) as [-> ->]. rewrite !lookup_empty. constructor.
Qed.
Lemma held_bmeas64 I w H x F ss delta rv pv L sz nt ne : mdd_held I w H → (x, Some F) ∈ H →
  0 <= delta → table_for (declared w) rv → sums_to_one 0 1 Rplus (declared w) rv → table_rel (Forall2 (approx delta)) rv pv →
  solutions (declared w) (declared w) F ss L → g_size w x = Some (sz, nt, ne) →
  let B := INR (2 * N.to_nat ne + 2 * states_of w + 1) * per delta in B <= 1 →
  ∃ g, f64_mbmeas w x pv ss = Some g ∧ (∀ s, is_Some (g !! s) ↔ m_occurs w x s) ∧
    ∀ s n slot, g !! s = Some slot → (s, n) ∈ declared w → S (length slot) = n ∧
      ∀ k v, slot !! k = Some v → f64_finite v ∧
        Rabs (f64_real v - (rsumR (mweight 0 1 Rmult (<[s := certain 0 1 n (S k)]> rv) (declared w) <$> L) -
                            rsumR (mweight 0 1 Rmult (<[s := certain 0 1 n k]> rv) (declared w) <$> L))) <= B.
Proof.
  intros Hm Hx Hdl Ht H1 Hrel HL Hsz B HB.
  destruct (held_meas_sum I w H x F ss Hm Hx 0 1 Rplus Rmult Rminus Ropp RTheory rv Ht H1 L HL) as (gr & Hgr & Hkeys & Hv).
  pose proof (held_gok I w H Hm) as Hk. pose proof (held_half I w H x F ss Hk Hx) as Hh.
  assert (∃ g, f64_mbmeas w x pv ss = Some g ∧ ∀ s, option_Forall2 (Forall2 (sok B 1)) (gr !! s) (g !! s)) as (g & Hg & Hgg).
  { destruct x as [f|f]; cbn [g_bmeas g_size] in Hgr, Hsz; unfold f64_mbmeas; cbn [g_bmeas];
      destruct (gen_bmeas64 I w H _ _ f _ delta rv pv sz nt ne Hk Hh Hdl Ht H1 Hrel Hsz HB) as (g & gr' & Hg & Hgr' & Hs);
      rewrite Hgr in Hgr'; injection Hgr' as <-; by exists g. }
  exists g. split; [done|]. split.
  { intros s. rewrite <- Hkeys. specialize (Hgg s). inversion Hgg as [? ? ? E1 E2|E1 E2]; [split; intros _; by eexists|split; by intros [? ?]]. }
  intros s n slot Hs Hin. specialize (Hgg s). rewrite Hs in Hgg. inversion Hgg as [sr ? Hss E1 E2|]. subst.
  destruct (Hv s n sr (eq_sym E1) Hin) as [Hl Hk']. pose proof (Forall2_length _ _ _ Hss) as Hle. split; [lia|].
  intros k v Hkv. pose proof (lookup_lt_Some _ _ _ Hkv) as Hlt. specialize (Hk' k ltac:(lia)).
  assert (sok B 1 _ v) as (Fv & Ev & _) by (eapply list.Forall2_lookup_lr; [exact Hss|exact Hk'|exact Hkv]). done.
Qed.
