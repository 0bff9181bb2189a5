(** Probabilities computed in [f64]: proofs. *)
From Coq Require Import Reals Lra RealField.
From Flocq Require Import Core.Raux.
From stdpp Require Import strings.
From Verif Require Import Prelude Arena Trees ArenaProofs Bdd BddProofs SpecBdd SpecBss BddMain BssAlg BssCount BssSize BssProb SpecEnclose Float64 SpecFloat64 Float64Proofs.

Definition rreal (pv : gmap string f64) : gmap string R := f64_real <$> pv.

Lemma unit_zero : unit64 f64_zero.
Proof. split; [apply zero_finite|]. rewrite zero_real. lra. Qed.
Lemma unit_one : unit64 f64_one.
Proof. split; [apply one_finite|]. rewrite one_real. lra. Qed.
Lemma unit_hp pv hd : units64 pv → unit64 (hp f64_zero pv hd).
Proof. intros H. unfold hp. destruct (pv !! h_label hd) as [p|] eqn:E; [by eapply H|apply unit_zero]. Qed.
Lemma real_hp pv hd : hp 0%R (rreal pv) hd = f64_real (hp f64_zero pv hd).
Proof. unfold hp, rreal. rewrite lookup_fmap. by destruct (pv !! h_label hd). Qed.

Lemma allhd_impl {T} (P Q : header → Prop) (d : dd T) : (∀ hd, P hd → Q hd) → allhd P d → allhd Q d.
Proof.
  intros HPQ. induction d as [t|hd cs IH] using dd_ind'; [done|]. rewrite !allhd_br. intros [H1 H2]. split; [by apply HPQ|].
  rewrite Forall_forall in *. intros c Hc. by apply IH, H2.
Qed.
Lemma approx_hp delta rv pv hd : (0 <= delta)%R → table_rel (approx delta) rv pv → approx delta (hp 0%R rv hd) (hp f64_zero pv hd).
Proof.
  intros Hd H. unfold hp. specialize (H (h_label hd)). inversion H as [r p Ha E1 E2|]; [done|]. cbn.
  split; [apply unit_zero|]. split; [lra|]. rewrite zero_real, Rminus_diag_eq, Rabs_R0 by done. done.
Qed.
Lemma approx_real pv : units64 pv → table_rel (approx 0%R) (rreal pv) pv.
Proof.
  intros H x. unfold rreal. rewrite lookup_fmap. destruct (pv !! x) as [p|] eqn:E; constructor. destruct (H x p E) as [F B].
  split; [by split|]. split; [done|]. rewrite Rminus_diag_eq, Rabs_R0 by done. lra.
Qed.
Lemma approx_units delta rv pv : table_rel (approx delta) rv pv → units64 pv.
Proof. intros H x p E. specialize (H x). rewrite E in H. inversion H as [r p' Ha|]. apply Ha. Qed.
Lemma eps_pos : (0 < f64_epsilon)%R.
Proof. rewrite eps_hu. pose proof hu_pos. lra. Qed.

Lemma pr_f64 delta rv pv ss d : (0 <= delta)%R → table_rel (approx delta) rv pv → okdd E2 d →
  unit64 (pr f64_zero f64_one f64_add f64_mul f64_sub pv ss d) ∧
  (Rabs (f64_real (pr f64_zero f64_one f64_add f64_mul f64_sub pv ss d) -
         pr 0%R 1%R Rplus Rmult Rminus rv ss d) <= INR (rank d) * (f64_epsilon + delta))%R.
Proof.
  intros Hdl Ht. pose proof eps_pos as He. pose proof (approx_units _ _ _ Ht) as Hu.
  induction d as [t|hd cs IH] using dd_ind'; intros Ho.
  - cbn [pr rank]. assert (INR 0 = 0%R) as -> by done. rewrite Rmult_0_l.
    destruct (hits ss t); (split; [(apply unit_one || apply unit_zero)|]);
      rewrite ?one_real, ?zero_real, Rminus_diag_eq, Rabs_R0 by done; lra.
  - apply okdd_br in Ho as [Hl Hcs]. unfold E2 in Hl. destruct cs as [|d0 [|d1 [|]]]; try done.
    rewrite !Forall_cons in IH, Hcs. destruct IH as (IH0 & IH1 & _), Hcs as ((R0 & O0) & (R1 & O1) & _).
    rewrite !pr_br. destruct (IH0 O0) as [U0 E0], (IH1 O1) as [U1 E1]. clear IH0 IH1.
    destruct (prob_step _ _ _ (unit_hp pv hd Hu) U0 U1) as [U E]. split; [done|].
    destruct (approx_hp _ _ _ hd Hdl Ht) as (_ & Hr & Hpr). cbn [rank]. rewrite S_INR.
    set (p := f64_real (hp f64_zero pv hd)) in *. set (r := hp 0%R rv hd) in *.
    set (l := pr f64_zero f64_one f64_add f64_mul f64_sub pv ss d0) in *.
    set (h := pr f64_zero f64_one f64_add f64_mul f64_sub pv ss d1) in *.
    assert (Hm : ∀ k, k ≤ h_level hd → (INR k * (f64_epsilon + delta) <= INR (h_level hd) * (f64_epsilon + delta))%R).
    { intros k Hk. apply Rmult_le_compat_r; [lra|]. by apply le_INR. }
    pose proof (exact_step r (f64_real l) (f64_real h) _ _ _ Hr (Rle_trans _ _ _ E0 (Hm _ R0)) (Rle_trans _ _ _ E1 (Hm _ R1))) as E2'.
    assert (Rabs ((p - r) * (f64_real h - f64_real l)) <= delta)%R as E3.
    { rewrite Rabs_mult, <- (Rmult_1_r delta). apply Rmult_le_compat; [apply Rabs_pos|apply Rabs_pos|done|].
      apply Rabs_le. destruct U0 as [_ ?], U1 as [_ ?]. lra. }
    apply Rabs_le_inv in E, E2', E3. apply Rabs_le. lra.
Qed.

(** with probabilities 0 and 1 nothing is rounded *)
Lemma prob_step01 p l h : unit64 l → unit64 h → f64_finite p → (f64_real p = 0 ∨ f64_real p = 1)%R →
  let r := f64_add (f64_mul (f64_sub f64_one p) l) (f64_mul p h) in
  f64_real r = ((1 - f64_real p) * f64_real l + f64_real p * f64_real h)%R.
Proof.
  intros [Fl Bl] [Fh Bh] Fp Hp r.
  destruct (sub_ok f64_one p one_finite Fp) as [Fq Eq]; [rewrite one_real; apply abs4; lra|].
  rewrite one_real in Eq. set (q := f64_sub f64_one p) in *.
  assert (f64_real q = 1 - f64_real p)%R as Hq.
  { rewrite Eq. apply rnd_fmt. destruct Hp as [-> | ->]; rewrite ?Rminus_0_r, ?Rminus_diag_eq by done; [apply fmt_1|apply fmt_0]. }
  destruct (mul_ok q l Fq Fl) as [Fa Ea]; [apply abs4; rewrite Hq; destruct Hp as [-> | ->]; lra|].
  destruct (mul_ok p h Fp Fh) as [Fb Eb]; [apply abs4; destruct Hp as [-> | ->]; lra|].
  set (a := f64_mul q l) in *. set (b := f64_mul p h) in *.
  assert (f64_real a = (1 - f64_real p) * f64_real l)%R as Ha.
  { rewrite Ea, Hq. apply rnd_fmt. destruct Hp as [-> | ->].
    - rewrite Rminus_0_r, Rmult_1_l. apply fmt_f64.
    - rewrite Rminus_diag_eq, Rmult_0_l by done. apply fmt_0. }
  assert (f64_real b = f64_real p * f64_real h)%R as Hb.
  { rewrite Eb. apply rnd_fmt. destruct Hp as [-> | ->]; rewrite ?Rmult_0_l, ?Rmult_1_l; [apply fmt_0|apply fmt_f64]. }
  destruct (add_ok a b Fa Fb) as [_ Er]; [apply abs4; rewrite Ha, Hb; destruct Hp as [-> | ->]; lra|].
  fold r in Er. rewrite Er, Ha, Hb. apply rnd_fmt. destruct Hp as [-> | ->].
  - replace (_ + _)%R with (f64_real l) by ring. apply fmt_f64.
  - replace (_ + _)%R with (f64_real h) by ring. apply fmt_f64.
Qed.
Lemma pr_f64_01 pv ss d : units64 pv → okdd E2 d →
  allhd (λ hd, f64_real (hp f64_zero pv hd) = 0 ∨ f64_real (hp f64_zero pv hd) = 1)%R d →
  f64_real (pr f64_zero f64_one f64_add f64_mul f64_sub pv ss d) = pr 0%R 1%R Rplus Rmult Rminus (rreal pv) ss d.
Proof.
  intros Hu. induction d as [t|hd cs IH] using dd_ind'; intros Ho H01.
  - cbn [pr]. destruct (hits ss t); [apply one_real|apply zero_real].
  - apply okdd_br in Ho as [Hl Hcs]. unfold E2 in Hl. destruct cs as [|d0 [|d1 [|]]]; try done.
    apply allhd_br in H01 as [H01 Hhs].
    rewrite !Forall_cons in IH, Hcs, Hhs. destruct IH as (IH0 & IH1 & _), Hcs as ((R0 & O0) & (R1 & O1) & _), Hhs as (H0 & H1 & _).
    rewrite !pr_br. rewrite real_hp, <- IH0, <- IH1 by done.
    apply prob_step01; [by apply (pr_f64 0 (rreal pv)); [lra|apply approx_real|]|by apply (pr_f64 0 (rreal pv)); [lra|apply approx_real|]|by apply unit_hp|done].
Qed.
(** the exact recursion with probabilities 0 and 1 follows the assignment *)
Lemma pr_01 (pv : gmap string R) ss (rho : nat → bool) d : okdd E2 d →
  allhd (λ hd, hp 0%R pv hd = if rho (h_level hd) then 1%R else 0%R) d →
  pr 0%R 1%R Rplus Rmult Rminus pv ss d = if hits ss (ev (asg rho) d) then 1%R else 0%R.
Proof.
  induction d as [t|hd cs IH] using dd_ind'; intros Ho Hh; [done|].
  pose proof Ho as [Hl Hcs]%okdd_br. unfold E2 in Hl. destruct cs as [|d0 [|d1 [|]]]; try done.
  apply allhd_br in Hh as [Hh Hhs].
  rewrite !Forall_cons in IH, Hcs, Hhs. destruct IH as (IH0 & IH1 & _), Hcs as ((R0 & O0) & (R1 & O1) & _), Hhs as (H0 & H1 & _).
  rewrite pr_br, Hh, IH0, IH1 by done. rewrite ev_br2 by apply asg_ok.
  assert (asg rho (h_level hd) = if rho (h_level hd) then 1 else 0)%nat as -> by done.
  destruct (rho (h_level hd)); cbn [Nat.eqb]; ring.
Qed.

Lemma prob_f64_l delta m names rv pv ss f S : bwf m → bdd_valid m f → bdd_order m names →
  (∀ rho, ∃ b, bdd_value m rho f (tvb b)) → (0 <= delta)%R → table_rel (approx delta) rv pv →
  NoDup S → (∀ v, v ∈ S ↔ length v = length names ∧ ∃ b, b ∈ ss ∧ bdd_value m (vrho v) f (tvb b)) →
  ∃ r, f64_prob m pv ss f = Some r ∧ unit64 r ∧
    (Rabs (f64_real r - ring_sum 0 Rplus (weight 0 1 Rmult Rminus rv names <$> S)) <= INR (length names) * (f64_epsilon + delta))%R.
Proof.
  intros Hw Vf Hord Hdet Hdl Ht Hnd HS. destruct (valid_repr _ _ Hw Vf) as [d Hd].
  pose proof (good_ok _ _ _ (bw_good _ Hw) Hd) as Ho. pose proof (det_value _ _ _ Hw Hd Hdet) as Dd.
  exists (pr f64_zero f64_one f64_add f64_mul f64_sub pv ss d).
  split; [by apply bdd_prob_ok|]. destruct (pr_f64 delta rv pv ss d Hdl Ht Ho) as [U E]. split; [done|].
  pose proof (prob_l 0%R 1%R Rplus Rmult Rminus Ropp RTheory m names rv ss f S Hw Vf Hord Hdet Hnd HS) as HR.
  rewrite (bdd_prob_ok 0%R 1%R Rplus Rmult Rminus rv ss m f d Hw Hd Dd) in HR. injection HR as <-.
  eapply Rle_trans; [exact E|]. apply Rmult_le_compat_r.
  - pose proof eps_pos. lra.
  - apply le_INR. by eapply order_rank.
Qed.
Lemma prob_f64_certain_l m names pv ss f (rho : nat → bool) b : bwf m → bdd_valid m f → bdd_order m names →
  (∀ rho, ∃ b, bdd_value m rho f (tvb b)) → units64 pv →
  (∀ l x, names !! l = Some x → f64_real (default f64_zero (pv !! x)) = if rho l then 1%R else 0%R) →
  bdd_value m rho f (tvb b) →
  ∃ r, f64_prob m pv ss f = Some r ∧ unit64 r ∧ f64_real r = if bool_decide (b ∈ ss) then 1%R else 0%R.
Proof.
  intros Hw Vf Hord Hdet Hu H01 Hb. destruct (valid_repr _ _ Hw Vf) as [d Hd].
  pose proof (good_ok _ _ _ (bw_good _ Hw) Hd) as Ho. pose proof (det_value _ _ _ Hw Hd Hdet) as Dd.
  (* names outside the order do not occur: restrict the map *)
  assert (Hh : allhd (λ hd, f64_real (hp f64_zero pv hd) = if rho (h_level hd) then 1%R else 0%R) d).
  { eapply repr_allhd; [|done]. intros h hd E. destruct Hord as (_ & _ & Hn). unfold hp. exact (H01 _ _ (Hn _ _ E)). }
  exists (pr f64_zero f64_one f64_add f64_mul f64_sub pv ss d).
  split; [by apply bdd_prob_ok|]. destruct (pr_f64 0 (rreal pv) pv ss d (Rle_refl 0) (approx_real _ Hu) Ho) as [U _]. split; [done|].
  rewrite pr_f64_01; [|done|done|eapply allhd_impl; [|done]; intros hd E; cbn in E |- *; destruct (rho (h_level hd)); auto].
  rewrite (pr_01 _ ss rho) by (done || (eapply allhd_impl; [|done]; intros ? E; rewrite real_hp; exact E)).
  eapply val_ev in Hb; [|apply Hw|done]. rewrite Hb.
  destruct (bool_decide_reflect (b ∈ ss)) as [Hi|Hn].
  - assert (hits ss (tvb b) = true) as -> by (apply hits_spec; eauto). done.
  - destruct (hits ss (tvb b)) eqn:E; [|done]. exfalso. apply Hn.
    apply hits_spec in E as (b' & ? & E'). by destruct b, b'.
Qed.
Lemma prob_f64_unit_l m pv ss f : bwf m → bdd_valid m f → (∀ rho, ∃ b, bdd_value m rho f (tvb b)) → units64 pv →
  ∃ r, f64_prob m pv ss f = Some r ∧ unit64 r.
Proof.
  intros Hw Vf Hdet Hu. destruct (valid_repr _ _ Hw Vf) as [d Hd].
  pose proof (good_ok _ _ _ (bw_good _ Hw) Hd) as Ho. pose proof (det_value _ _ _ Hw Hd Hdet) as Dd.
  exists (pr f64_zero f64_one f64_add f64_mul f64_sub pv ss d).
  split; [by apply bdd_prob_ok|]. by destruct (pr_f64 0 (rreal pv) pv ss d (Rle_refl 0) (approx_real _ Hu) Ho).
Qed.
