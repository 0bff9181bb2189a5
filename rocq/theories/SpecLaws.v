(** Specification vocabulary for the laws of probability. *)
From stdpp Require Import strings.
From Verif Require Import Prelude SpecBssMgr.

(** An ordering of the numbers that goes with addition and multiplication *)
Record ordered {R : Type} (rO rI : R) (radd rmul : R → R → R) (le : R → R → Prop) : Prop := {
  ord_refl a : le a a;
  ord_trans a b c : le a b → le b c → le a c;
  ord_add a b c : le a b → le (radd a c) (radd b c);
  ord_mul a b : le rO a → le rO b → le rO (rmul a b);
  ord_one : le rO rI;
}.

(** The entry of a table of probabilities; a name without an entry counts as zero. *)
Definition entry {R} (rO : R) (pv : gmap string R) (x : string) : R := default rO (pv !! x).

(** [F] never turns false when more variables are set *)
Definition increasing (F : nfun) : Prop := ∀ e e' : env, (∀ x, e x = true → e' x = true) → F e = true → F e' = true.
