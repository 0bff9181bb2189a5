(** Client programs of BssMgr, and what a client sees of them: calls on the BDD side (SpecTrans.v), calls on the ZDD side (SpecTransZ.v), and
    minpath / mincut, which take a handle of the first kind and give one of the second.  Each kind of handle has its own slots. *)
From stdpp Require Import strings.
From Verif Require Import Prelude ComputeCache Arena Bdd BssAlg BssMgr BssLook SpecBssMgr Zdd ZddAlg ZddMgr ZddLook SpecTrans SpecTransZ.

Section prog.
Context {R : Type} (rO rI : R) (radd rmul rsub : R → R → R).

Inductive jcmd := JB (c : cmd R) | JZ (c : ycmd) | JPath (i : nat) | JCut (i : nat) | JClear.
Definition jhousekeeping (c : jcmd) : Prop :=
  match c with JB c => housekeeping c | JZ c => yhousekeeping c | JPath _ | JCut _ => False | JClear => True end.
Global Instance jhousekeeping_dec c : Decision (jhousekeeping c).
Proof. destruct c; cbn; apply _. Defined.

(** [JFound b]: whether minpath / mincut gave a handle *)
Inductive jans := JBAns (a : ans R) | JZAns (a : yans) | JFound (b : bool) | JDone.

Definition jdo (s : bssmgr) (SB SZ : list (option nat)) (c : jcmd) : option (bssmgr * list (option nat) * list (option nat) * jans) :=
  match c with
  | JB c => '(w, SB, a) ← do rO rI radd rmul rsub (s_bdd s) SB c; Some (BssM w (s_zdd s), SB, SZ, JBAns a)
  | JZ c => '(y, SZ, a) ← ydo (s_zdd s) SZ c; Some (BssM (s_bdd s) y, SB, SZ, JZAns a)
  | JPath i => f ← slot SB i; '(s, r) ← s_minpath s f; Some (s, SB, SZ ++ [r], JFound (bool_decide (is_Some r)))
  | JCut i => f ← slot SB i; '(s, r) ← s_mincut s f; Some (s, SB, SZ ++ [r], JFound (bool_decide (is_Some r)))
  | JClear => Some (s_clear_cache s, SB, SZ, JDone)
  end.
(** The answers to the calls of a program other than housekeeping. *)
Fixpoint jgo (s : bssmgr) (SB SZ : list (option nat)) (p : list jcmd) : option (list jans) :=
  match p with
  | [] => Some []
  | c :: p =>
      '(s, SB, SZ, a) ← jdo s SB SZ c;
      l ← jgo s SB SZ p;
      Some (if decide (jhousekeeping c) then l else a :: l)
  end.
Definition janswers (p : list jcmd) : option (list jans) := jgo s_new [] [] p.
Definition j_no_housekeeping (p : list jcmd) : list jcmd := filter (λ c, ¬ jhousekeeping c) p.
End prog.
Arguments jcmd : clear implicits.
Arguments jans : clear implicits.
