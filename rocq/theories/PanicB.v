(** What a call of BddMgr / BddNode leaves behind when it panics and the panic is caught; see PanicM.v.
    Sources: bss/src/bdd.rs. *)
From stdpp Require Import strings.
From Verif Require Import Prelude ComputeCache Arena Bdd BssAlg BssMgr BssLook SpecBssMgr SpecTrans.

(** rpn, bdd.rs:264-334: a missing operand ([stack.pop().unwrap()]) is the only panic; the tokens before are done *)
Fixpoint brpn_panic (s : rpn_st) (tokens : list string) : option bmgr :=
  match tokens with
  | [] => None
  | t :: ts =>
      match rpn_step s t with
      | Some (s, true) => brpn_panic s ts
      | Some (_, false) => None
      | None => Some (rs_w s)
      end
  end.

Section prog.
Context {R : Type} (rO rI : R) (radd rmul rsub : R → R → R).
Local Notation do := (do rO rI radd rmul rsub).
Local Notation slist := (list (option nat)).

(** the slots a call reads *)
Definition bused (c : cmd R) : list nat :=
  match c with
  | CNeg i | CDualOf i | CKids i | CDup i | CFree i | QIs _ i | QCount _ i | QProb _ _ i | QMeas _ _ i | QPaths _ _ i
  | QSize i | QLabel i | QLevel i => [i]
  | CBin _ i j | QEq i j => [i; j]
  | CCond i j k => [i; j; k]
  | CAndAll l | COrAll l | CAtLeast _ l => l
  | CVar _ | CConst _ | CExpr _ | QOrder | HGc _ | HThreshold _ | HClear => []
  end.
(** The wrapper after a call that did not return ([None]: an empty slot, the program stops).  Operations on nodes never
    panic (C01, C11, C12), questions do not write.  A path enumeration cut short by its bound counts as a panic. *)
Definition b_panic (w : bmgr) (Sl : slist) (c : cmd R) : option bmgr :=
  _ ← slots Sl (bused c);
  match c with
  | CExpr e => brpn_panic (RpnSt w [] ∅) (split_whitespace e)
  | _ => Some w
  end.
(** One call of a client that catches panics: the answer is [None] for a caught one. *)
Definition bcaught (w : bmgr) (Sl : slist) (c : cmd R) : option (bmgr * slist * option (ans R)) :=
  match do w Sl c with
  | Some (w, Sl, a) => Some (w, Sl, Some a)
  | None => w ← b_panic w Sl c; Some (w, Sl, None)
  end.

(** The same client as it is meant to be: a call that panics does nothing, except that [rpn] has defined the
    variables named before the place where it fails. *)
Fixpoint bseen (s : rpn_st) (tokens : list string) : list string :=
  match tokens with
  | [] => []
  | t :: ts =>
      match rpn_step s t with
      | Some (s', true) => (if w_vars (rs_w s') !! t then [t] else []) ++ bseen s' ts
      | _ => []
      end
  end.
Definition bdefine (w : bmgr) (xs : list string) : bmgr :=
  foldl (λ w x, let '(w, r) := w_defvar w x in w_drop w r) w xs.
Definition bideal (w : bmgr) (Sl : slist) (c : cmd R) : option (bmgr * slist * option (ans R)) :=
  match do w Sl c with
  | Some (w, Sl, a) => Some (w, Sl, Some a)
  | None =>
      _ ← slots Sl (bused c);
      match c with
      | CExpr e => Some (bdefine w (bseen (RpnSt w [] ∅) (split_whitespace e)), Sl, None)
      | _ => Some (w, Sl, None)
      end
  end.
Fixpoint brun (step : bmgr → slist → cmd R → option (bmgr * slist * option (ans R))) (w : bmgr) (Sl : slist) (p : list (cmd R))
  : option (list (option (ans R))) :=
  match p with
  | [] => Some []
  | c :: p => '(w, Sl, a) ← step w Sl c; l ← brun step w Sl p; Some (a :: l)
  end.
End prog.
