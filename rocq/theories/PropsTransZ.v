(** C99: no client of ZddMgr can tell from its answers when, or how often, garbage was collected.
    bss/src/zdd.rs: collections start inside the calls that build handles, when the live-node count reaches the threshold. *)
From stdpp Require Import strings.
From Verif Require Import Prelude ComputeCache Arena Trees ArenaProofs Bdd BssAlg BssMgr Zdd ZddAlg ZddMgr ZddLook SpecTrans SpecTransZ SpecZdd ZddProofs ZddDet TransZ.

Global Set Default Goal Selector "!".

(** Two programs that make the same calls in the same order, apart from [set_gc_threshold] and [clear_cache], get the same answers:
    the same handles are equal, and counts, sizes, members (in the same order), labels, levels and panics are the same.
    This includes divide, whose result C21 and C52 leave open in general, and diagrams with undetermined members. *)
Theorem c99_housekeeping (p q : list ycmd) : y_no_housekeeping p = y_no_housekeeping q → yanswers p = yanswers q.
Proof. intros E. rewrite (yanswers_l p), (yanswers_l q). by rewrite E. Qed.
Print Assumptions c99_housekeeping.

(** In particular at every point of a run: the answers so far are those of the run without housekeeping. *)
Theorem c99_prefix (p q : list ycmd) l :
  yanswers (p ++ q) = Some l →
  ∃ l1 l2, l = l1 ++ l2 ∧ yanswers (y_no_housekeeping p) = Some l1 ∧ length l1 = length (y_no_housekeeping p).
Proof. apply yanswers_prefix. Qed.
Print Assumptions c99_prefix.

(** A program with a product and a division, and the same one collecting inside every call and clearing the cache after it *)
Definition c99_calls : list ycmd :=
  [YSets [["b"; "a"]; ["a"]; []]; YSets [["a"]]; YFree 0; YSets [["b"; "a"]; ["a"; "c"]; ["b"]]; YOp ZDivision 2 1; YOp ZProduct 3 1; YOp ZUnion 4 2;
   YEq 5 2; YOp ZIntersect 2 4; YEq 6 4; YKids 2; YOp ZSetdiff 2 8; YCount [true] 9; YMembers 100 [true] 2; YSize 2; YLevel 2; YLabel 2; YIs TZero 9; YHeader 5].
Definition c99_busy (p : list ycmd) : list ycmd := YThreshold 0 :: (p ≫= λ c, [c; YThreshold 0; YClear]).
Example c99_ex : length (c99_busy c99_calls) = length c99_calls + 39 ∧ y_no_housekeeping (c99_busy c99_calls) = y_no_housekeeping c99_calls.
Proof. vm_compute. done. Qed.
Example c99_ex_answers : yanswers (c99_busy c99_calls) =
  Some [YDone; YDone; YDone; YDone; YDone; YDone; YDone; YBool true; YDone; YBool true; YBool true; YDone; YNum 3;
        YFam [["b"]; ["b"; "a"]; ["a"; "c"]]%string; YDims (4%N, 2%N, 8%N); YNat (Some 2); YName (Some "c"%string); YBool false; YNat (Some 2)].
Proof. vm_compute. done. Qed.
