(** C97: an MddMgr call that panics and is caught has no visible effect. *)
From stdpp Require Import strings.
From Verif Require Import Prelude ComputeCache Arena Bdd Mdd MtMdd MtMdd2 BssMgr MssMgr SpecMdd SpecMss SpecTransM PanicM PanicMProofs.

(** A client that catches panics gets the answers of one for which a call that panics does nothing (an [rpn] that
    panics has defined the variables named before the place where it fails).
    Missing: variables with no states, for which it is false ([c97_refuted]). *)
Theorem c97_caught_partial (I : vint) {R : Type} (rO rI : R) (radd rmul rsub : R → R → R) (p : list (mcmd R)) : with_states p →
  run (caught I rO rI radd rmul rsub) g_new [] p = run (ideal I rO rI radd rmul rsub) g_new [] p.
Proof. apply caught_ideal. Qed.
Print Assumptions c97_caught_partial.

(** Without [rpn]: leave out the calls that panicked, and the others answer as before. *)
Theorem c97_left_out_partial (I : vint) {R : Type} (rO rI : R) (radd rmul rsub : R → R → R) (p : list (mcmd R)) l : with_states p →
  Forall (λ c, match c with DExpr _ _ => False | _ => True end) p →
  run (caught I rO rI radd rmul rsub) g_new [] p = Some l →
  run (caught I rO rI radd rmul rsub) g_new [] (returned p l) = Some (filter is_Some l).
Proof. apply caught_drop. Qed.
Print Assumptions c97_left_out_partial.

Definition c97_run := run (caught i32_checked 0%Z 1%Z Z.add Z.mul Z.sub) g_new [].
(** x + MAX overflows at x = 1, after the sum for x = 0; the minimum of no nodes; then the work goes on *)
Definition c97_prog : list (mcmd Z) :=
  [DVar "x" 3; DVar "y" 2; DVal 2147483647%Z; DBin (OArith VSub) 2 1; JThreshold 0; DBin (OArith VAdd) 0 3; DAll LMin []; JGc []; DBin (OArith VAdd) 0 1;
   PCount [2%Z] 4; PHeader 4; DBin (OArith VSub) 4 1; PEq 5 0; POrder].
Example c97_ex : c97_run c97_prog = Some
  [Some NDone; Some NDone; Some NDone; Some NDone; Some NDone; None; None; Some NDone; Some NDone;
   Some (NCount 2); Some (NLevel (Some 1)); Some NDone; Some (NTruth true); Some (NOrder [("x"%string, 3); ("y"%string, 2)])].
Proof. vm_compute. done. Qed.
Example c97_ex_states : with_states c97_prog.
Proof. repeat constructor. Qed.
(** an expression that stops at its fourth token defines x and y on the way, then z *)
Definition c97_expr : list (mcmd Z) :=
  [DExpr "y x + q" {["x" := 3; "y" := 2]}; DVar "z" 2; DExpr "x y + z *" {["x" := 7; "y" := 7; "z" := 7]}; POrder; PCount [2%Z] 1].
Example c97_ex_expr : c97_run c97_expr = Some
  [None; Some NDone; Some (NTruth true); Some (NOrder [("y"%string, 2); ("x"%string, 3); ("z"%string, 2)]); Some (NCount 2)].
Proof. vm_compute. done. Qed.

(** the call that panics does write: an addition that overflows leaves new nodes behind *)
Definition c97_nodes (w : mmgr) : nat := length (ar_nodes (t_ar (mm_v (g_mm w)))).
Example c97_ex_writes :
  match mdo i32_checked 0%Z 1%Z Z.add Z.mul Z.sub g_new [] (DVar "x" 3) with
  | Some (w, Sl, _) =>
      match mdo i32_checked 0%Z 1%Z Z.add Z.mul Z.sub w Sl (DVal 2147483646%Z) with
      | Some (w, Sl, _) => match caught i32_checked 0%Z 1%Z Z.add Z.mul Z.sub w Sl (DBin (OArith VAdd) 0 1) with
          | Some (w', _, a) => Some (c97_nodes w, c97_nodes w', a)
          | None => None
          end
      | None => None
      end
  | None => None
  end = Some (6, 7, None).
Proof. vm_compute. done. Qed.

(** Without the condition it is false: defining a variable with no states panics, but its header stays, and the header
    numbers of all later variables are shifted. *)
Theorem c97_refuted : ∃ p : list (mcmd Z),
  run (caught i32_checked 0%Z 1%Z Z.add Z.mul Z.sub) g_new [] p ≠ run (ideal i32_checked 0%Z 1%Z Z.add Z.mul Z.sub) g_new [] p.
Proof. exists [DVar "x" 0; DVar "y" 2; PHeader 0]. vm_compute. done. Qed.
Print Assumptions c97_refuted.
