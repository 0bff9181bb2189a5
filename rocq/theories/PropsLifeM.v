(** C98 for MddMgr: handles after the end of their manager.  (Every variable has at least one state, as in C97.) *)
From stdpp Require Import strings.
From Verif Require Import Prelude ComputeCache Arena Bdd Mdd MtMdd MtMdd2 BssMgr MssMgr MssAlg MssLook SpecMdd SpecMss SpecTransM PanicM LifeM SpecLifeM LifeMProofs.

(** The answers are those of a manager that is never dropped, except that a call that needs the arena panics once the
    arena has no owner. *)
Theorem c98_mdd_lifetime (I : vint) {R : Type} (rO rI : R) (radd rmul rsub : R → R → R) (p : list (mlcmd R)) :
  mwith_states p → mlrun I rO rI radd rmul rsub n_new [] p = msrun I rO rI radd rmul rsub true 0 g_new [] p.
Proof. apply mlrun_srun. Qed.
Print Assumptions c98_mdd_lifetime.

(** Dropping the manager while a reference is held changes no answer of any later call on handles. *)
Theorem c98_mdd_reference_suffices (I : vint) {R : Type} (rO rI : R) (radd rmul rsub : R → R → R) (p : list (mlcmd R)) i (cs : list (mcmd R)) :
  mwith_states p → MDropMgr ∉ p → forallb of_mnode cs →
  mlrun I rO rI radd rmul rsub n_new [] (p ++ MGetMgr i :: MDropMgr :: (MCall <$> cs)) =
  (λ l, take (S (length p)) l ++ Some NDone :: drop (S (length p)) l) <$> mlrun I rO rI radd rmul rsub n_new [] (p ++ MGetMgr i :: (MCall <$> cs)).
Proof. apply mlrun_drop. Qed.
Print Assumptions c98_mdd_reference_suffices.

(** Cloning, comparing and dropping handles, and asking for their kind, never panics. *)
Theorem c98_mdd_drop_safe (I : vint) {R : Type} (rO rI : R) (radd rmul rsub : R → R → R) (p : list (mlcmd R)) l j c :
  mwith_states p → mlrun I rO rI radd rmul rsub n_new [] p = Some l → p !! j = Some (MCall c) →
  match c with DDup _ | DFree _ | PEq _ _ | PKind _ => True | _ => False end → ∃ a, l !! j = Some (Some a).
Proof.
  intros Hg. rewrite mlrun_srun by done. intros E Hj Hc. apply (msrun_light I rO rI radd rmul rsub p _ _ _ _ _ _ c E Hj). intros Sl. by destruct c.
Qed.
Print Assumptions c98_mdd_drop_safe.

(** Every other call on a handle panics once the arena has no owner (is_zero, is_one, is_undet and value answer for
    nodes of the other kind without the arena, so these are left out here); ... *)
Theorem c98_mdd_no_owner (I : vint) {R : Type} (rO rI : R) (radd rmul rsub : R → R → R) (p : list (mlcmd R)) l j c :
  mwith_states p → mlrun I rO rI radd rmul rsub n_new [] p = Some l → p !! j = Some (MCall c) → of_mnode c →
  ¬ match c with DDup _ | DFree _ | PEq _ _ | PKind _ | PIs _ _ | PConst _ => True | _ => False end →
  mowners 1 (take j p) (take j l) = 0 → l !! j = Some None.
Proof.
  intros Hg. rewrite mlrun_srun by done. intros E Hj Hn Hc Ho. apply (msrun_gone I rO rI radd rmul rsub p _ _ _ _ _ _ c E Hj Hn); [|exact Ho].
  intros Sl. destruct c; try done; by destruct Hc.
Qed.
Print Assumptions c98_mdd_no_owner.

(** ... and the arena is freed exactly then. *)
Theorem c98_mdd_freed (I : vint) {R : Type} (rO rI : R) (radd rmul rsub : R → R → R) (p : list (mlcmd R)) o l :
  mwith_states p → mlend I rO rI radd rmul rsub n_new [] p = Some (o, l) → n_core o = None ↔ mowners 1 p l = 0.
Proof. apply mlend_freed. Qed.
Print Assumptions c98_mdd_freed.

(** x + y and an overflow after the end of the manager; then the reference goes too *)
Definition c98_mprog : list (mlcmd Z) :=
  [MCall (DVar "x" 2); MCall (DVar "y" 3); MCall (DVal 2147483647); MCall (JThreshold 0); MGetMgr 0; MDropMgr; MCall (DBin (OArith VAdd) 0 1);
   MCall (DBin (OArith VAdd) 2 1); MCall (DBin (OCmp Eq) 3 1); MCall (DFree 3); MCall (PCount [1%Z] 4); MCall (DKids 1); MCall (PConst 7); MDropRef;
   MCall (DNeg 4); MCall (PCount [1%Z] 4); MCall (PIs TOne 4); MCall (PIs TOne 0); MCall (PConst 4); MCall (PConst 7); MCall (PKind 4); MCall (DDup 0); MCall (PEq 0 8);
   MGetMgr 0; MCall (DFree 0); MCall (DFree 4)].
Example c98_mdd_ex : mlrun i32_checked 0%Z 1%Z Z.add Z.mul Z.sub n_new [] c98_mprog = Some
  [Some NDone; Some NDone; Some NDone; Some NDone; Some NDone; Some NDone; Some NDone; None; Some NDone; Some NDone; Some (NCount 1);
   Some (NKids (Some 3)); Some (NConst (Some 2%Z)); Some NDone; None; None; None; Some (NTruth false); Some (NConst None); None; Some (NTruth true);
   Some NDone; Some (NTruth true); None; Some NDone; Some NDone].
Proof. vm_compute. done. Qed.
Example c98_mdd_ex_states : mwith_states c98_mprog.
Proof. repeat constructor. Qed.
Example c98_mdd_ex_held : MDropMgr ∉ (take 4 c98_mprog) ∧ forallb (of_mnode (R := Z)) [DBin (OArith VAdd) 0 1; DFree 3; PCount [1%Z] 1].
Proof. split; [|done]. cbn [c98_mprog take]. rewrite !not_elem_of_cons. sp; try done. apply not_elem_of_nil. Qed.
