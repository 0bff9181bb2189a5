(** C88: a set-family operation of the ZDD manager evaluates at most the product of the operand sizes. *)
From stdpp Require Import strings.
From Verif Require Import Prelude Arena Bdd BssAlg SpecBdd Zdd ZddAlg SpecZdd SpecSize ZddMain ZddApply ZddApplyMain.

Global Set Default Goal Selector "!".

(** [zdd_ap_t] also lists the pairs of operands for which the operation is evaluated: calls with equal operands, where these are answered
    at once, and calls found in the table are not evaluated.  The table of ZddManager is a HashMap and loses nothing, so, unlike for
    BddManager (see C87), there is no condition: no pair is evaluated twice, whatever happened before. *)
Theorem c88_zdd_work o m f g sf sg : zdd_reachable m → zdd_valid m f → zdd_valid m g →
  zdd_node_size m f = Some sf → zdd_node_size m g = Some sg →
  ∃ m' r tr, zdd_op o m f g = Some (m', r) ∧ zdd_ap_t o m f g = Some (m', r, tr) ∧ NoDup tr ∧
    (N.of_nat (length tr) ≤ vertices sf * vertices sg)%N.
Proof. exact (λ Hm, zap_l o m f g sf sg (zreachable_wf m Hm)). Qed.
Print Assumptions c88_zdd_work.

(** x0, x1, x2; {x0} + {x1}; {x2} + {{}}; their product and so on *)
Definition c88_calls : list zdd_call :=
  [ZHeader 0 "x0"; ZHeader 1 "x1"; ZHeader 2 "x2"; ZNode 0 0 1; ZNode 1 0 1; ZNode 2 0 1;
   ZOp ZUnion 3 4; ZOp ZUnion 5 1; ZOp ZProduct 6 7; ZOp ZUnion 8 5].
Example c88_ex : (m ← zdd_run zdd_new c88_calls; let '(f, g) := (8, 9) in
    '(m1, r, tr) ← zdd_ap_t ZUnion m f g; '(_, _, tr2) ← zdd_ap_t ZUnion m1 f g;
    '(_, _, t3) ← zdd_ap_t ZProduct m f g; '(_, _, t4) ← zdd_ap_t ZSetdiff m f g;
    Some (vertices <$> zdd_node_size m f, vertices <$> zdd_node_size m g, tr, tr2, t3, t4)) =
  Some (Some 5%N, Some 2%N, [(3, 9); (6, 9); (8, 9)], [], [(0, 1); (1, 1); (3, 9); (1, 9); (6, 9); (8, 9)], [(0, 1); (3, 9); (6, 9); (8, 9)]).
Proof. vm_compute. done. Qed.
