(** C97 for BddMgr: an expression that panics and is caught has no visible effect beyond the variables it named. *)
From stdpp Require Import strings.
From Verif Require Import Prelude ComputeCache Arena Bdd BssAlg BssMgr BssLook SpecBssMgr SpecTrans PanicB PanicBProofs.

(** A client that catches panics gets the answers of one for which a call that panics does nothing (an [rpn] that
    panics has defined the variables named before the place where it fails). *)
Theorem c97_bdd {R : Type} (rO rI : R) (radd rmul rsub : R → R → R) (p : list (cmd R)) :
  brun (bcaught rO rI radd rmul rsub) w_new [] p = brun (bideal rO rI radd rmul rsub) w_new [] p.
Proof. apply bcaught_ideal. Qed.
Print Assumptions c97_bdd.

(** operands missing at the third and at the sixth token; y and z exist afterwards, w does not *)
Example c97_bdd_ex : brun (bcaught 0%Z 1%Z Z.add Z.mul Z.sub) w_new []
  [CVar "x"; CExpr "x y & & w"; HThreshold 0; HGc []; CExpr "x ~ z y ? &"; QOrder; CVar "y"; CBin BAnd 0 1; QCount [true] 2; CExpr "x y &"; QEq 2 3] =
  Some [Some Done; None; Some Done; Some Done; None; Some (AOrder ["x"%string; "y"%string; "z"%string]); Some Done; Some Done; Some (ACount 1);
        Some (ABool true); Some (ABool true)].
Proof. vm_compute. done. Qed.
