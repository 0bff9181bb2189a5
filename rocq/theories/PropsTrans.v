(** C92: no client of BddMgr can tell from its answers when, or how often, garbage was collected.
    bss/src/bdd.rs:134-136: "Live-node count at which automatic gc fires (for tuning / tests)." *)
From stdpp Require Import strings.
From Verif Require Import Prelude Arena Bdd BssMgr SpecBssMgr SpecTrans Trans.

Global Set Default Goal Selector "!".

(** Two programs that make the same calls in the same order, apart from [gc], [set_gc_threshold] and [clear_cache], get the same answers:
    the same handles are equal, and counts, sizes, paths (in the same order), variable orders, errors and panics are the same.
    Probabilities and importance measures are the same whatever the numbers and their operations are: no law of arithmetic is used, so with
    [f64] they agree to the last bit. *)
Theorem c92_housekeeping {R : Type} (rO rI : R) (radd rmul rsub : R → R → R) (p q : list (cmd R)) :
  no_housekeeping p = no_housekeeping q → answers rO rI radd rmul rsub p = answers rO rI radd rmul rsub q.
Proof. intros E. rewrite (answers_l _ _ _ _ _ p), (answers_l _ _ _ _ _ q). by rewrite E. Qed.
Print Assumptions c92_housekeeping.

(** In particular at every point of a run: the answers so far are those of the run without housekeeping. *)
Theorem c92_prefix {R : Type} (rO rI : R) (radd rmul rsub : R → R → R) (p q : list (cmd R)) l :
  answers rO rI radd rmul rsub (p ++ q) = Some l →
  ∃ l1 l2, l = l1 ++ l2 ∧ answers rO rI radd rmul rsub (no_housekeeping p) = Some l1 ∧ length l1 = length (no_housekeeping p).
Proof. apply answers_prefix. Qed.
Print Assumptions c92_prefix.

(** A program (with "probabilities" in Z: any numbers will do), and the same one collecting inside and after every call *)
Definition c92_calls : list (cmd Z) :=
  [CVar "x"; CExpr "x y ~ |"; CFree 0; CNeg 1; CKids 2; CBin BAnd 3 1; QEq 3 5; QIs TZero 5; QCount [true] 1;
   QProb {["x" := 3%Z; "y" := 5%Z]} [true] 1; QPaths 100 [true] 1; QSize 1; QLevel 2; QOrder; CExpr "x y"; QLabel 1].
Definition c92_busy (p : list (cmd Z)) : list (cmd Z) := HThreshold 0 :: (p ≫= λ c, [c; HGc [1; 2]; HClear]).
Example c92_ex : length (no_housekeeping (c92_busy c92_calls)) = length (c92_busy c92_calls) - 33 ∧
  no_housekeeping (c92_busy c92_calls) = no_housekeeping c92_calls.
Proof. vm_compute. done. Qed.
Example c92_ex_answers : answers 0%Z 1%Z Z.add Z.mul Z.sub (c92_busy c92_calls) =
  Some [Done; ABool true; Done; Done; ABool true; Done; ABool true; ABool true; ACount 3; AProb 11%Z;
        APaths [["~x"; "~y"]; ["x"; "~y"]; ["x"; "y"]]%string; ASize (2%N, 2%N, 4%N); ALevel (Some 1); AOrder ["x"; "y"]%string;
        ABool false; ALabel (Some "y"%string)].
Proof. vm_compute. done. Qed.
