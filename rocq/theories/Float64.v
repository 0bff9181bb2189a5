(** The machine type [f64] with which the probability functions are used: IEEE 754 double precision, rounding to nearest, ties to even
    (Flocq's [binary_float 53 1024]; all NaNs are one).  bss/src/bdd_prob.rs:12, bdd_prob.rs:55 and mss/src/mdd_prob.rs use [T::from(0.0)],
    [T::from(1.0)] and the operators [+], [-], [*] only; for [T = f64] these are the operations below. *)
From Coq Require Import Reals ZArith Psatz.
From Flocq Require Import Core BinarySingleNaN.
Local Open Scope R_scope.

Definition f64 : Type := binary_float 53 1024.
Lemma f64_prec : Prec_gt_0 53.
Proof. reflexivity. Qed.
Lemma f64_emax : Prec_lt_emax 53 1024.
Proof. reflexivity. Qed.
Definition f64_zero : f64 := B754_zero false.
Definition f64_one : f64 := @Bone 53 1024 f64_prec f64_emax.
Definition f64_add (x y : f64) : f64 := @Bplus 53 1024 f64_prec f64_emax mode_NE x y.
Definition f64_sub (x y : f64) : f64 := @Bminus 53 1024 f64_prec f64_emax mode_NE x y.
Definition f64_mul (x y : f64) : f64 := @Bmult 53 1024 f64_prec f64_emax mode_NE x y.
(** the number a finite [f64] stands for *)
Definition f64_real (x : f64) : R := B2R x.
Definition f64_finite (x : f64) : Prop := is_finite x = true.
(** [f64::EPSILON] = 2^-52: the distance from 1 to the next number *)
Definition f64_epsilon : R := bpow radix2 (-52).
(** finite and between 0 and 1 *)
Definition unit64 (x : f64) : Prop := f64_finite x /\ 0 <= f64_real x <= 1.
(** the number [p] is within [delta] of the true probability [r] *)
Definition approx (delta r : R) (p : f64) : Prop := unit64 p /\ 0 <= r <= 1 /\ Rabs (f64_real p - r) <= delta.
(** the number m * 2^e, rounded if need be; for the examples *)
Definition f64_lit (m e : Z) : f64 := binary_normalize 53 1024 f64_prec f64_emax mode_NE m e false.
