(** The formulas that the comments on the managers' if-then-else functions say it is equal to. *)
From Verif Require Import Prelude ComputeCache Arena Bdd Mdd MtMdd MtMdd2.

(** or(and(f, g), and(not f, h)) in the BDD manager, bdd_ops.rs:224-229 *)
Definition bdd_if_formula (m : bdd) (f g h : nat) : option (bdd * nat) :=
  '(m, a) ← bdd_and m f g; '(m, n) ← bdd_not m f; '(m, b) ← bdd_and m n h; bdd_or m a b.
(** the same in the MDD manager, mdd_ops.rs:219-225 *)
Definition mdd_if_formula (m : mdd) (f g h : nat) : option (mdd * nat) :=
  '(m, a) ← mdd_and m f g; '(m, n) ← mdd_not m f; '(m, b) ← mdd_and m n h; mdd_or m a b.
(** replace(vif(f, g), vif(!f, h)) in the combined manager, mtmdd2_ops.rs:370-372; [replace] is the value forest's *)
Definition mm_if_formula (I : vint) (m : mm) (f g h : nat) : option (mm * mnode) :=
  '(m, a) ← mm_vif m f g; '(m, n) ← mm_not m (NBool f);
  match n with
  | NBool n => '(m, b) ← mm_vif m n h; mm_arith I VReplace m (NVal a) (NVal b)
  | NVal _ => None
  end.
