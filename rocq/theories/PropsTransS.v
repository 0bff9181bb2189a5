(** C100: no client of BssMgr can tell from its answers when, or how often, either of its two inner managers collected garbage.
    bss/src/bss.rs:109-150: minpath and mincut read a diagram of the first manager and build one in the second; both may collect on the way. *)
From stdpp Require Import strings.
From Verif Require Import Prelude ComputeCache Arena Trees ArenaProofs Bdd BssAlg BssMgr SpecBssMgr Zdd ZddAlg ZddMgr ZddLook SpecTrans SpecTransZ SpecTransS TransS.

Global Set Default Goal Selector "!".

(** Two programs that make the same calls in the same order, apart from [gc], [set_gc_threshold] (of either inner manager) and [clear_cache],
    get the same answers: whether minpath and mincut give a handle, which handles are equal, and every count, size, path and member (in the
    same order), probability, label, level, error and panic. *)
Theorem c100_housekeeping {R : Type} (rO rI : R) (radd rmul rsub : R → R → R) (p q : list (jcmd R)) :
  j_no_housekeeping p = j_no_housekeeping q → janswers rO rI radd rmul rsub p = janswers rO rI radd rmul rsub q.
Proof. intros E. rewrite (janswers_l _ _ _ _ _ p), (janswers_l _ _ _ _ _ q). by rewrite E. Qed.
Print Assumptions c100_housekeeping.

(** In particular at every point of a run: the answers so far are those of the run without housekeeping. *)
Theorem c100_prefix {R : Type} (rO rI : R) (radd rmul rsub : R → R → R) (p q : list (jcmd R)) l :
  janswers rO rI radd rmul rsub (p ++ q) = Some l →
  ∃ l1 l2, l = l1 ++ l2 ∧ janswers rO rI radd rmul rsub (j_no_housekeeping p) = Some l1 ∧ length l1 = length (j_no_housekeeping p).
Proof. apply janswers_prefix. Qed.
Print Assumptions c100_prefix.

(** A program with minimal path and cut sets of a bridge-like system, a function that is not monotone, and set operations on the results;
    and the same program collecting inside every call and clearing the caches after it *)
Definition c100_calls : list (jcmd Z) :=
  [JB (CExpr "x y & z |"); JPath 0; JCut 0; JB (CExpr "x y ^"); JPath 1; JB (CNeg 0); JCut 2; JB (CFree 0); JPath 1; JB (CVar "z"); JPath 3;
   JZ (YMembers 100 [true] 0); JZ (YMembers 100 [true] 1); JZ (YOp ZUnion 0 1); JZ (YCount [true] 6); JZ (YEq 6 0); JZ (YKids 1); JZ (YSize 1);
   JB (QProb {["x" := 3%Z; "y" := 5%Z]} [true] 1); JZ (YLabel 5); JB QOrder].
Definition c100_busy (p : list (jcmd Z)) : list (jcmd Z) :=
  JB (HThreshold 0) :: JZ (YThreshold 0) :: (p ≫= λ c, [c; JB (HGc []); JB (HThreshold 0); JZ (YThreshold 0); JClear]).
Example c100_ex : length (c100_busy c100_calls) = 107 ∧ j_no_housekeeping (c100_busy c100_calls) = j_no_housekeeping c100_calls.
Proof. vm_compute. done. Qed.
Example c100_ex_answers : janswers 0%Z 1%Z Z.add Z.mul Z.sub (c100_busy c100_calls) =
  Some [JBAns (ABool true); JFound true; JFound true; JBAns (ABool true); JFound false; JBAns Done; JFound false; JBAns Done; JFound false; JBAns Done;
        JFound true; JZAns (YFam [["x"; "y"]; ["z"]]%string); JZAns (YFam [["x"; "z"]; ["y"; "z"]]%string); JZAns YDone; JZAns (YNum 4);
        JZAns (YBool false); JZAns (YBool true); JZAns (YDims (3%N, 2%N, 6%N)); JBAns (AProb (-22)%Z); JZAns (YName (Some "z"%string));
        JBAns (AOrder ["x"; "y"; "z"]%string)].
Proof. vm_compute. done. Qed.
