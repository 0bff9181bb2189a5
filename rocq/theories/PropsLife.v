(** C98: handles after the end of their manager.
    bss/src/bdd.rs:62-66: a handle "holds a Weak back-reference to the manager plus the node id". *)
From stdpp Require Import strings.
From Verif Require Import Prelude ComputeCache Arena Bdd BssAlg BssMgr BssLook SpecBssMgr SpecTrans PanicB Life SpecLife LifeProofs.

(** A client drops its manager, takes references with [get_mgr] and drops them wherever it likes.  Its answers are those of a
    manager that is never dropped, except that a call that needs the arena panics once the arena has no owner. *)
Theorem c98_lifetime {R : Type} (rO rI : R) (radd rmul rsub : R → R → R) (p : list (lcmd R)) :
  lrun rO rI radd rmul rsub o_new [] p = srun rO rI radd rmul rsub true 0 w_new [] p.
Proof. apply lrun_srun. Qed.
Print Assumptions c98_lifetime.

(** Dropping the manager while a reference is held changes no answer of any later call on handles. *)
Theorem c98_reference_suffices {R : Type} (rO rI : R) (radd rmul rsub : R → R → R) (p : list (lcmd R)) i (cs : list (cmd R)) :
  DropMgr ∉ p → forallb of_node cs →
  lrun rO rI radd rmul rsub o_new [] (p ++ GetMgr i :: DropMgr :: (Call <$> cs)) =
  (λ l, take (S (length p)) l ++ Some Done :: drop (S (length p)) l) <$> lrun rO rI radd rmul rsub o_new [] (p ++ GetMgr i :: (Call <$> cs)).
Proof. apply lrun_drop. Qed.
Print Assumptions c98_reference_suffices.

(** Cloning, comparing and dropping handles never panics, whatever has been dropped before and in which order. *)
Theorem c98_drop_safe {R : Type} (rO rI : R) (radd rmul rsub : R → R → R) (p : list (lcmd R)) l j c :
  lrun rO rI radd rmul rsub o_new [] p = Some l → p !! j = Some (Call c) →
  match c with CDup _ | CFree _ | QEq _ _ => True | _ => False end → ∃ a, l !! j = Some (Some a).
Proof. rewrite lrun_srun. intros E Hj Hc. apply (srun_light rO rI radd rmul rsub p _ _ _ _ _ _ c E Hj). by destruct c. Qed.
Print Assumptions c98_drop_safe.

(** Every other call on a handle panics once the arena has no owner; ... *)
Theorem c98_no_owner {R : Type} (rO rI : R) (radd rmul rsub : R → R → R) (p : list (lcmd R)) l j c :
  lrun rO rI radd rmul rsub o_new [] p = Some l → p !! j = Some (Call c) → of_node c → ¬ match c with CDup _ | CFree _ | QEq _ _ => True | _ => False end →
  owners 1 (take j p) (take j l) = 0 → l !! j = Some None.
Proof.
  rewrite lrun_srun. intros E Hj Hn Hc Ho. apply (srun_gone rO rI radd rmul rsub p _ _ _ _ _ _ c E Hj Hn); [|exact Ho]. destruct c; try done; by destruct Hc.
Qed.
Print Assumptions c98_no_owner.

(** ... and the arena is freed exactly then. *)
Theorem c98_freed {R : Type} (rO rI : R) (radd rmul rsub : R → R → R) (p : list (lcmd R)) o l :
  lend rO rI radd rmul rsub o_new [] p = Some (o, l) → o_core o = None ↔ owners 1 p l = 0.
Proof. apply lend_freed. Qed.
Print Assumptions c98_freed.

(** x & y built after the end of the manager; then the reference goes too *)
Definition c98_prog : list (lcmd Z) :=
  [Call (CVar "x"); Call (CVar "y"); Call (HThreshold 0); GetMgr 0; DropMgr; Call (CBin BAnd 0 1); Call (CNeg 2); Call (CFree 2); Call (CKids 3);
   Call (CBin BOr 3 0); Call (QCount [true] 3); Call (QIs TOne 6); DropRef; Call (QCount [true] 3); Call (CDup 3); Call (QEq 3 7); GetMgr 1; Call (CFree 3); Call (CFree 0)].
Example c98_ex : lrun 0%Z 1%Z Z.add Z.mul Z.sub o_new [] c98_prog =
  Some [Some Done; Some Done; Some Done; Some Done; Some Done; Some Done; Some Done; Some Done; Some (ABool true);
        Some Done; Some (ACount 3); Some (ABool true); Some Done; None; Some Done; Some (ABool true); None; Some Done; Some Done].
Proof. vm_compute. done. Qed.
Example c98_ex_owners : ∃ o l, lend 0%Z 1%Z Z.add Z.mul Z.sub o_new [] c98_prog = Some (o, l) ∧ owners 1 (take 12 c98_prog) (take 12 l) = 1 ∧ owners 1 c98_prog l = 0.
Proof. eexists _, _. split; [vm_compute; reflexivity|]. vm_compute. done. Qed.
Example c98_ex_held : DropMgr ∉ (take 3 c98_prog) ∧ forallb (of_node (R := Z)) [CBin BAnd 0 1; CNeg 2; CFree 2; QCount [true] 3].
Proof. split; [|done]. cbn [c98_prog take]. rewrite !not_elem_of_cons. sp; try done. apply not_elem_of_nil. Qed.
