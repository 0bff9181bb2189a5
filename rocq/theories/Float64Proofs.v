(** Rounding errors of single operations on numbers between 0 and 1. *)
From Coq Require Import Reals ZArith Psatz.
From Flocq Require Import Core BinarySingleNaN.
From Verif Require Import Float64.
Local Open Scope R_scope.

Notation fexp64 := (SpecFloat.fexp 53 1024).
Definition rnd (x : R) : R := round radix2 fexp64 ZnearestE x.
Definition fmt (x : R) : Prop := generic_format radix2 fexp64 x.
(** half of 2^-53: the largest error of one operation below 1 *)
Definition hu : R := bpow radix2 (-54).

Lemma fexp_flt e : fexp64 e = FLT_exp (-1074) 53 e.
Proof. reflexivity. Qed.
Global Instance fexp_valid : Valid_exp fexp64.
Proof. apply (fexp_correct 53 1024 f64_prec). Qed.
Lemma fmt_f64 (x : f64) : fmt (f64_real x).
Proof. apply generic_format_B2R. Qed.
Lemma fmt_0 : fmt 0.
Proof. apply generic_format_0. Qed.
Lemma fmt_1 : fmt 1.
Proof. change 1 with (bpow radix2 0). apply generic_format_bpow. unfold fexp64. simpl. discriminate. Qed.
Lemma one_real : f64_real f64_one = 1.
Proof. apply Bone_correct. Qed.
Lemma one_finite : f64_finite f64_one.
Proof. apply is_finite_Bone. Qed.
Lemma zero_real : f64_real f64_zero = 0.
Proof. reflexivity. Qed.
Lemma zero_finite : f64_finite f64_zero.
Proof. reflexivity. Qed.

Lemma rnd_le x y : x <= y -> rnd x <= rnd y.
Proof. apply round_le; [apply fexp_valid|apply valid_rnd_N]. Qed.
Lemma rnd_fmt x : fmt x -> rnd x = x.
Proof. apply round_generic, valid_rnd_N. Qed.
Lemma rnd_le_fmt x y : fmt y -> x <= y -> rnd x <= y.
Proof. intros F H. rewrite <- (rnd_fmt y F). now apply rnd_le. Qed.
Lemma rnd_ge_fmt x y : fmt x -> x <= y -> x <= rnd y.
Proof. intros F H. rewrite <- (rnd_fmt x F). now apply rnd_le. Qed.
Lemma fmt_rnd x : fmt (rnd x).
Proof. apply generic_format_round; [apply fexp_valid|apply valid_rnd_N]. Qed.

Lemma hu_pos : 0 < hu.
Proof. apply bpow_gt_0. Qed.
Lemma eps_hu : f64_epsilon = 4 * hu.
Proof. unfold f64_epsilon, hu. change (-52)%Z with (2 + -54)%Z. rewrite bpow_plus. simpl (bpow radix2 2). lra. Qed.
Lemma err_lt1 x : 0 <= x < 1 -> Rabs (rnd x - x) <= hu.
Proof.
  intros [H0 H1]. destruct (Req_dec x 0) as [->|Hn].
  { rewrite rnd_fmt by apply fmt_0. rewrite Rminus_0_r, Rabs_R0. left. apply hu_pos. }
  apply Rle_trans with (/ 2 * ulp radix2 fexp64 x); [apply error_le_half_ulp; apply fexp_valid|]. rewrite ulp_neq_0 by assumption.
  assert (Hm : (cexp radix2 fexp64 x <= -53)%Z).
  { unfold cexp. assert (mag radix2 x <= 0)%Z as Hmag.
    { apply mag_le_bpow; [assumption|]. rewrite Rabs_pos_eq by assumption. simpl. lra. }
    rewrite fexp_flt. unfold FLT_exp. lia. }
  apply (bpow_le radix2) in Hm. unfold hu. change (-54)%Z with (-1 + -53)%Z. rewrite bpow_plus. simpl (bpow radix2 (-1)). lra.
Qed.
Lemma err_le1 x : 0 <= x <= 1 -> Rabs (rnd x - x) <= hu.
Proof.
  intros [H0 H1]. destruct (Rle_lt_or_eq_dec _ _ H1) as [H| ->]; [now apply err_lt1|].
  rewrite rnd_fmt by apply fmt_1. replace (1 - 1) with 0 by lra. rewrite Rabs_R0. left. apply hu_pos.
Qed.
(** just above 1 the nearest number is 1 *)
Lemma rnd_near1 x : 0 <= x <= 1 + hu -> 0 <= rnd x <= 1 /\ Rabs (rnd x - x) <= hu.
Proof.
  intros [H0 H1]. destruct (Rle_or_lt x 1) as [Hle|Hgt].
  - split; [|now apply err_le1]. split; [now apply rnd_ge_fmt; [apply fmt_0|]|now apply rnd_le_fmt; [apply fmt_1|]].
  - assert (rnd x = 1) as ->.
    { apply Rle_antisym; [|apply rnd_ge_fmt; [apply fmt_1|lra]].
      apply round_N_le_midp; [apply fexp_valid|apply fmt_1|].
      rewrite succ_eq_pos by lra. rewrite ulp_neq_0 by lra.
      replace (cexp radix2 fexp64 1) with (-52)%Z.
      - fold f64_epsilon. rewrite eps_hu. pose proof hu_pos. lra.
      - unfold cexp. now rewrite mag_1. }
    split; [lra|]. rewrite Rabs_left1 by lra. lra.
Qed.

(** ** The operations on finite numbers whose result is far from the largest number *)
Lemma small_ok x : Rabs x <= 4 -> Rlt_bool (Rabs (rnd x)) (bpow radix2 1024) = true.
Proof.
  intros H. apply Rlt_bool_true. apply Rle_lt_trans with (bpow radix2 2).
  - apply abs_round_le_generic; [apply fexp_valid|apply valid_rnd_N| |simpl; lra].
    apply generic_format_bpow. simpl. discriminate.
  - apply bpow_lt. reflexivity.
Qed.
Lemma add_ok x y : f64_finite x -> f64_finite y -> Rabs (f64_real x + f64_real y) <= 4 ->
  f64_finite (f64_add x y) /\ f64_real (f64_add x y) = rnd (f64_real x + f64_real y).
Proof.
  intros Fx Fy H. pose proof (Bplus_correct 53 1024 f64_prec f64_emax mode_NE x y Fx Fy) as C.
  change (round _ _ _ _) with (rnd (f64_real x + f64_real y)) in C. rewrite small_ok in C by assumption.
  destruct C as (C1 & C2 & _). now split.
Qed.
Lemma sub_ok x y : f64_finite x -> f64_finite y -> Rabs (f64_real x - f64_real y) <= 4 ->
  f64_finite (f64_sub x y) /\ f64_real (f64_sub x y) = rnd (f64_real x - f64_real y).
Proof.
  intros Fx Fy H. pose proof (Bminus_correct 53 1024 f64_prec f64_emax mode_NE x y Fx Fy) as C.
  change (round _ _ _ _) with (rnd (f64_real x - f64_real y)) in C. rewrite small_ok in C by assumption.
  destruct C as (C1 & C2 & _). now split.
Qed.
Lemma mul_ok x y : f64_finite x -> f64_finite y -> Rabs (f64_real x * f64_real y) <= 4 ->
  f64_finite (f64_mul x y) /\ f64_real (f64_mul x y) = rnd (f64_real x * f64_real y).
Proof.
  intros Fx Fy H. pose proof (Bmult_correct 53 1024 f64_prec f64_emax mode_NE x y) as C.
  change (round _ _ _ _) with (rnd (f64_real x * f64_real y)) in C. rewrite small_ok in C by assumption.
  destruct C as (C1 & C2 & _). split; [|assumption]. unfold f64_finite, f64_mul. rewrite C2. now rewrite Fx, Fy.
Qed.

(** ** The step of [prob] *)
Lemma abs4 x : 0 <= x <= 2 -> Rabs x <= 4.
Proof. intros H. rewrite Rabs_pos_eq; lra. Qed.
Lemma prod01 x y : 0 <= x <= 1 -> 0 <= y <= 1 -> 0 <= x * y <= x.
Proof.
  intros [X0 X1] [Y0 Y1]. split; [now apply Rmult_le_pos|].
  replace x with (x * 1) at 2 by lra. now apply Rmult_le_compat_l.
Qed.
Lemma mul_unit x y : unit64 x -> unit64 y ->
  unit64 (f64_mul x y) /\ f64_real (f64_mul x y) <= f64_real x /\
  Rabs (f64_real (f64_mul x y) - f64_real x * f64_real y) <= hu.
Proof.
  intros [Fx Bx] [Fy By]. pose proof (prod01 _ _ Bx By) as P.
  destruct (mul_ok x y Fx Fy) as [F E]; [apply abs4; lra|]. unfold unit64. rewrite E.
  assert (rnd (f64_real x * f64_real y) <= f64_real x) by (apply rnd_le_fmt; [apply fmt_f64|apply P]).
  assert (0 <= rnd (f64_real x * f64_real y)) by (apply rnd_ge_fmt; [apply fmt_0|apply P]).
  repeat split; try assumption; try lra. apply err_le1. lra.
Qed.
Lemma prob_step p l h : unit64 p -> unit64 l -> unit64 h ->
  let r := f64_add (f64_mul (f64_sub f64_one p) l) (f64_mul p h) in
  unit64 r /\
  Rabs (f64_real r - ((1 - f64_real p) * f64_real l + f64_real p * f64_real h)) <= f64_epsilon.
Proof.
  intros Up Ul Uh r. destruct Up as [Fp Bp].
  destruct (sub_ok f64_one p one_finite Fp) as [Fq Eq]; [rewrite one_real; apply abs4; lra|].
  rewrite one_real in Eq. set (q := f64_sub f64_one p) in *.
  assert (Bq : 0 <= f64_real q <= 1).
  { rewrite Eq. split; [apply rnd_ge_fmt; [apply fmt_0|lra]|apply rnd_le_fmt; [apply fmt_1|lra]]. }
  assert (Dq : Rabs (f64_real q - (1 - f64_real p)) <= hu) by (rewrite Eq; apply err_le1; lra).
  destruct (mul_unit q l (conj Fq Bq) Ul) as ([Fa Ba] & La & Da). set (a := f64_mul q l) in *.
  destruct (mul_unit p h (conj Fp Bp) Uh) as ([Fb Bb] & Lb & Db). set (b := f64_mul p h) in *.
  apply Rabs_le_inv in Dq. pose proof hu_pos as Hh.
  assert (Hs : 0 <= f64_real a + f64_real b <= 1 + hu) by lra.
  destruct (rnd_near1 _ Hs) as [Bs Ds].
  assert (hu <= 1) by (change 1 with (bpow radix2 0); apply bpow_le; discriminate).
  destruct (add_ok a b Fa Fb) as [Fr Er]; [apply abs4; lra|]. fold r in Fr, Er.
  split; [split; [assumption|now rewrite Er]|].
  destruct Ul as [_ Bl], Uh as [_ Bh]. rewrite Er, eps_hu.
  apply Rabs_le_inv in Ds, Da, Db. apply Rabs_le.
  assert (Hql : - hu <= (f64_real q - (1 - f64_real p)) * f64_real l <= hu).
  { split.
    - apply Rle_trans with (- hu * f64_real l); [|apply Rmult_le_compat_r; lra].
      replace (- hu) with (- hu * 1) at 1 by lra. apply Rmult_le_compat_neg_l; lra.
    - apply Rle_trans with (hu * f64_real l); [apply Rmult_le_compat_r; lra|].
      replace hu with (hu * 1) at 2 by lra. apply Rmult_le_compat_l; lra. }
  lra.
Qed.
(** the exact step does not enlarge errors *)
Lemma exact_step p l h l' h' e : 0 <= p <= 1 -> Rabs (l - l') <= e -> Rabs (h - h') <= e ->
  Rabs (((1 - p) * l + p * h) - ((1 - p) * l' + p * h')) <= e.
Proof.
  intros Hp Hl%Rabs_le_inv Hh%Rabs_le_inv. apply Rabs_le.
  replace (((1 - p) * l + p * h) - ((1 - p) * l' + p * h')) with ((1 - p) * (l - l') + p * (h - h')) by ring.
  assert ((1 - p) * (- e) <= (1 - p) * (l - l') <= (1 - p) * e) by (split; apply Rmult_le_compat_l; lra).
  assert (p * (- e) <= p * (h - h') <= p * e) by (split; apply Rmult_le_compat_l; lra).
  lra.
Qed.

(** ** The step of the multi-state [prob]: a running sum of products *)
Lemma err_le2 x : 0 <= x <= 2 -> Rabs (rnd x - x) <= 2 * hu.
Proof.
  intros [H0 H1]. pose proof hu_pos as Hh. destruct (Req_dec x 0) as [->|Hn].
  { rewrite rnd_fmt by apply fmt_0. rewrite Rminus_0_r, Rabs_R0. lra. }
  destruct (Req_dec x 2) as [->|Hn2].
  { rewrite rnd_fmt; [replace (2 - 2) with 0 by lra; rewrite Rabs_R0; lra|].
    change 2 with (bpow radix2 1). apply generic_format_bpow. simpl. discriminate. }
  apply Rle_trans with (/ 2 * ulp radix2 fexp64 x); [apply error_le_half_ulp; apply fexp_valid|]. rewrite ulp_neq_0 by assumption.
  assert (Hm : (cexp radix2 fexp64 x <= -52)%Z).
  { unfold cexp. assert (mag radix2 x <= 1)%Z as Hmag.
    { apply mag_le_bpow; [assumption|]. rewrite Rabs_pos_eq by assumption. simpl. lra. }
    rewrite fexp_flt. unfold FLT_exp. lia. }
  apply (bpow_le radix2) in Hm. unfold hu. change (-54)%Z with (-2 + -52)%Z. rewrite bpow_plus. simpl (bpow radix2 (-2)). lra.
Qed.
Lemma acc_step p r t e s S delta E D : unit64 p -> 0 <= r -> Rabs (f64_real p - r) <= delta ->
  f64_finite t -> 0 <= f64_real t -> 0 <= e <= 1 -> Rabs (f64_real t - e) <= E -> E <= 1 ->
  f64_finite s -> 0 <= f64_real s -> 0 <= S -> S + r <= 1 -> Rabs (f64_real s - S) <= D ->
  D + (2 * delta + f64_epsilon) + r * E <= 1 ->
  let s' := f64_add s (f64_mul p t) in
  f64_finite s' /\ 0 <= f64_real s' /\ Rabs (f64_real s' - (S + r * e)) <= D + (2 * delta + f64_epsilon) + r * E.
Proof.
  intros [Fp Bp] Hr Hp Ft Ht0 He Ht HE Fs Hs0 HS HSr Hs HD s'. pose proof hu_pos as Hh. rewrite eps_hu in *.
  apply Rabs_le_inv in Ht as Ht'. apply Rabs_le_inv in Hs as Hs'. apply Rabs_le_inv in Hp as Hp'.
  assert (Hpt : 0 <= f64_real p * f64_real t <= 2).
  { split; [apply Rmult_le_pos; lra|]. apply Rle_trans with (1 * f64_real t); [apply Rmult_le_compat_r; lra|lra]. }
  destruct (mul_ok p t Fp Ft) as [Fa Ea]; [apply abs4; lra|]. set (a := f64_mul p t) in *.
  pose proof (err_le2 _ Hpt) as Da. rewrite <- Ea in Da. apply Rabs_le_inv in Da.
  assert (0 <= f64_real a) as Ha by (rewrite Ea; apply rnd_ge_fmt; [apply fmt_0|lra]).
  assert (Hd1 : - (2 * delta) <= (f64_real p - r) * f64_real t <= 2 * delta).
  { apply Rabs_le_inv. rewrite Rabs_mult, (Rmult_comm 2). apply Rmult_le_compat; [apply Rabs_pos|apply Rabs_pos|assumption|].
    rewrite Rabs_pos_eq by assumption. lra. }
  assert (Hd2 : - (r * E) <= r * (f64_real t - e) <= r * E).
  { apply Rabs_le_inv. rewrite Rabs_mult, (Rabs_pos_eq r) by assumption. now apply Rmult_le_compat_l. }
  assert (Hre : 0 <= r * e <= r).
  { split; [apply Rmult_le_pos; lra|]. replace r with (r * 1) at 2 by lra. apply Rmult_le_compat_l; lra. }
  assert (Hx : - (D + 2 * delta + r * E + 2 * hu) <= f64_real s + f64_real a - (S + r * e) <= D + 2 * delta + r * E + 2 * hu) by lra.
  assert (Hsum : 0 <= f64_real s + f64_real a <= 2) by lra.
  destruct (add_ok s a Fs Fa) as [Fr Er]; [apply abs4; lra|]. fold s' in Fr, Er.
  pose proof (err_le2 _ Hsum) as Dr. rewrite <- Er in Dr. apply Rabs_le_inv in Dr.
  split; [assumption|]. split; [rewrite Er; apply rnd_ge_fmt; [apply fmt_0|lra]|]. apply Rabs_le. lra.
Qed.
