(** C98 for ZddMgr: handles after the end of their manager.  bss/src/zdd.rs:154-160. *)
From stdpp Require Import strings.
From Verif Require Import Prelude ComputeCache Arena Trees ArenaProofs Bdd BssAlg BssMgr Zdd ZddAlg ZddMgr ZddLook SpecTrans SpecTransZ LifeZ SpecLifeZ LifeZProofs.

(** A client drops its manager, takes references with [get_mgr] and drops them wherever it likes.  Its answers are those of a
    manager that is never dropped, except that a call that needs the arena panics once the arena has no owner. *)
Theorem c98_zdd_lifetime (p : list ylcmd) : ylrun yo_new [] p = ysrun true 0 y_new [] p.
Proof. apply ylrun_srun. Qed.
Print Assumptions c98_zdd_lifetime.

(** Dropping the manager while a reference is held changes no answer of any later call on handles. *)
Theorem c98_zdd_reference_suffices (p : list ylcmd) i (cs : list ycmd) :
  YDropMgr ∉ p → forallb y_of_node cs →
  ylrun yo_new [] (p ++ YGetMgr i :: YDropMgr :: (YCall <$> cs)) =
  (λ l, take (S (length p)) l ++ Some YDone :: drop (S (length p)) l) <$> ylrun yo_new [] (p ++ YGetMgr i :: (YCall <$> cs)).
Proof. apply ylrun_drop. Qed.
Print Assumptions c98_zdd_reference_suffices.

(** Cloning, comparing and dropping handles never panics, whatever has been dropped before and in which order. *)
Theorem c98_zdd_drop_safe (p : list ylcmd) l j c :
  ylrun yo_new [] p = Some l → p !! j = Some (YCall c) →
  match c with YDup _ | YFree _ | YEq _ _ => True | _ => False end → ∃ a, l !! j = Some (Some a).
Proof. rewrite ylrun_srun. intros E Hj Hc. apply (ysrun_light p _ _ _ _ _ _ c E Hj). by destruct c. Qed.
Print Assumptions c98_zdd_drop_safe.

(** Every other call on a handle panics once the arena has no owner; ... *)
Theorem c98_zdd_no_owner (p : list ylcmd) l j c :
  ylrun yo_new [] p = Some l → p !! j = Some (YCall c) → y_of_node c → ¬ match c with YDup _ | YFree _ | YEq _ _ => True | _ => False end →
  yowners 1 (take j p) (take j l) = 0 → l !! j = Some None.
Proof.
  rewrite ylrun_srun. intros E Hj Hn Hc Ho. apply (ysrun_gone p _ _ _ _ _ _ c E Hj Hn); [|exact Ho]. destruct c; try done; by destruct Hc.
Qed.
Print Assumptions c98_zdd_no_owner.

(** ... and the arena is freed exactly then. *)
Theorem c98_zdd_freed (p : list ylcmd) o l : ylend yo_new [] p = Some (o, l) → yo_core o = None ↔ yowners 1 p l = 0.
Proof. apply ylend_freed. Qed.
Print Assumptions c98_zdd_freed.

(** set operations after the end of the manager; then the reference goes too *)
Definition c98_zdd_prog : list ylcmd :=
  [YCall (YSets [["a"; "b"]; ["c"]]); YCall (YSingle "a"); YCall (YThreshold 0); YGetMgr 0; YDropMgr; YCall (YOp ZProduct 0 1); YCall (YFree 0); YCall (YOp ZUnion 2 1);
   YCall (YKids 3); YCall (YMembers 100 [true] 3); YCall (YCount [true] 5); YCall (YLevel 3); YDropRef; YCall (YCount [true] 3); YCall (YDup 3); YCall (YEq 3 6);
   YGetMgr 1; YCall (YOp ZUnion 3 3); YCall (YFree 3); YCall (YFree 1)].
Example c98_zdd_ex : ylrun yo_new [] c98_zdd_prog =
  Some [Some YDone; Some YDone; Some YDone; Some YDone; Some YDone; Some YDone; Some YDone; Some YDone; Some (YBool true);
        Some (YFam [["a"]; ["a"; "b"]; ["a"; "c"]]%string); Some (YNum 1); Some (YNat (Some 2)); Some YDone; None; Some YDone; Some (YBool true); None; None; Some YDone; Some YDone].
Proof. vm_compute. done. Qed.
Example c98_zdd_ex_owners : ∃ o l, ylend yo_new [] c98_zdd_prog = Some (o, l) ∧ yowners 1 (take 12 c98_zdd_prog) (take 12 l) = 1 ∧ yowners 1 c98_zdd_prog l = 0.
Proof. eexists _, _. split; [vm_compute; reflexivity|]. vm_compute. done. Qed.
Example c98_zdd_ex_held : YDropMgr ∉ (take 3 c98_zdd_prog) ∧ forallb y_of_node [YOp ZProduct 0 1; YFree 0; YKids 2; YCount [true] 2].
Proof. split; [|done]. cbn [c98_zdd_prog take]. rewrite !not_elem_of_cons. sp; try done. apply not_elem_of_nil. Qed.
