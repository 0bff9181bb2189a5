(** What a call of MddMgr / MddNode leaves behind when it panics and the panic is caught (catch_unwind, or a Python
    exception in the bindings).  Unwinding drops the local values and the borrow guards of the call; the shared
    manager keeps what was written into it up to that point.
    Sources: mddcore/src/mtmdd_ops.rs, mss/src/mdd.rs. *)
From stdpp Require Import strings.
From Verif Require Import Prelude ComputeCache Arena Bdd Mdd MtMdd MtMdd2 BssMgr MssMgr SpecMdd SpecMss SpecTransM.

(** The value forest at the moment an arithmetic operation (mt_bin_f of MtMdd.v, mtmdd_ops.rs:40-490) panics: the
    children before the failing one are finished, the failing one stops where it panics.  [None]: no panic. *)
Fixpoint t_panic_f (I : vint) (o : vop) (n : nat) (m : mt) (f g : nat) : option mt :=
  match n with
  | O => None
  | S n =>
      let '(f, g) := if vop_swap o && (g <? f) then (g, f) else (f, g) in
      hit ← mt_cache_get m o f g;
      match hit with
      | Some _ => None
      | None =>
          fn ← ar_nodes (t_ar m) !! f;
          gn ← ar_nodes (t_ar m) !! g;
          match vop_arm I o f g fn gn with
          | VPanic => Some m
          | VRec =>
              '(_, ps) ← expand true (t_ar m) (t_ar m) f g fn gn;
              (fix children (m : mt) (ps : list (nat * nat)) : option mt :=
                match ps with
                | [] => None
                | p :: ps =>
                    match mt_bin_f I o n m p.1 p.2 with
                    | Some (m, _) => children m ps
                    | None => t_panic_f I o n m p.1 p.2
                    end
                end) m ps
          | _ => None
          end
      end
  end.
Definition t_panic (I : vint) (o : vop) (m : mt) (f g : nat) : option mt := t_panic_f I o (ar_fuel (t_ar m)) m f g.

(** mtmdd2_ops.rs:64-104: only the arithmetic of two value nodes can panic *)
Definition bin_panic (I : vint) (o : mop2) (m : mm) (f g : mnode) : option mm :=
  match o, f, g with
  | OArith o, NVal f, NVal g => v ← t_panic I o (mm_v m) f g; Some (mm_with_v m v)
  | _, _, _ => None
  end.

(** the n-ary operations, mdd.rs:472-518: what the elements before the failing one have built stays *)
Fixpoint fold_panic (I : vint) (o : mop2) (m : mm) (acc : mnode) (xs : list mnode) : option mm :=
  match xs with
  | [] => None
  | x :: xs =>
      match mm_bin I o m acc x with
      | Some (m, acc) => fold_panic I o m acc xs
      | None => Some (default m (bin_panic I o m acc x))
      end
  end.
Definition list_panic (I : vint) (o : mlist) (m : mm) (xs : list mnode) : option mm :=
  match o, xs with
  | LAnd, _ => fold_panic I (OGate GAnd) m mm_one xs
  | LOr, _ => fold_panic I (OGate GOr) m mm_zero xs
  | (LMin | LMax), [] => None
  | LMin, x :: xs => fold_panic I (OArith VMin) m x xs
  | LMax, x :: xs => fold_panic I (OArith VMax) m x xs
  end.

(** defvar, mdd.rs:213-228, with an empty range: [nodes\[0\]] (mtmdd2.rs:114) panics after create_header *)
Definition defvar_panic (w : mmgr) (x : string) (range : nat) : option mmgr :=
  match g_vars w !! x, range with
  | None, O => '(m, _) ← mm_create_header (g_mm w) (size (g_vars w)) x O; Some (with_mm w m)
  | _, _ => None
  end.

(** The token's operation, as in [mrpn_op] (MssMgr.v; mdd.rs:302-400) *)
Definition mrpn_tag (token : string) : option mop2 :=
  if String.eqb token "+" then Some (OArith VAdd)
  else if String.eqb token "-" then Some (OArith VSub)
  else if String.eqb token "*" then Some (OArith VMul)
  else if String.eqb token "/" then Some (OArith VDiv)
  else if String.eqb token "min" then Some (OArith VMin)
  else if String.eqb token "max" then Some (OArith VMax)
  else if String.eqb token "==" then Some (OCmp Eq)
  else if String.eqb token "!=" then Some (OCmp Neq)
  else if String.eqb token "<" then Some (OCmp Lt)
  else if String.eqb token "<=" then Some (OCmp Lte)
  else if String.eqb token ">" then Some (OCmp Gt)
  else if String.eqb token ">=" then Some (OCmp Gte)
  else if String.eqb token "&&" then Some (OGate GAnd)
  else if String.eqb token "||" then Some (OGate GOr)
  else None.
(** rpn, mdd.rs:297-468: the wrapper when the token panics (a missing operand, an operation, mixed operands of [?],
    an unknown variable, a variable without states) *)
Definition step_panic (I : vint) (vars : gmap string nat) (s : mrpn) (token : string) : mmgr :=
  match mrpn_tag token, mr_stack s with
  | Some o, b :: a :: _ => default (mr_w s) (with_mm (mr_w s) <$> bin_panic I o (g_mm (mr_w s)) a b)
  | Some _, _ => mr_w s
  | None, _ =>
      if String.eqb token "!" || String.eqb token "?" then mr_w s
      else default (mr_w s) (n ← vars !! token; defvar_panic (mr_w s) token n)
  end.
Fixpoint rpn_panic (I : vint) (vars : gmap string nat) (s : mrpn) (tokens : list string) : option mmgr :=
  match tokens with
  | [] => None
  | t :: ts =>
      match mrpn_step I vars s t with
      | Some (s, true) => rpn_panic I vars s ts
      | Some (_, false) => None
      | None => Some (step_panic I vars s t)
      end
  end.

Section prog.
Context (I : vint) {R : Type} (rO rI : R) (radd rmul rsub : R → R → R).
Local Notation mdo := (mdo I rO rI radd rmul rsub).

(** the slots a call reads *)
Definition used (c : mcmd R) : list nat :=
  match c with
  | DNeg i | DKids i | DDup i | DFree i | PKind i | PIs _ i | PConst i | PCount _ i | PProb _ _ i | PMeas _ _ i | PPaths _ _ i
  | PSize i | PLabel i | PLevel i | PHeader i => [i]
  | DBin _ i j | PEq i j => [i; j]
  | DCond i j k => [i; j; k]
  | DAll _ l | DMake _ l => l
  | DVar _ _ | DBool _ | DVal _ | DUndetB | DUndetV | DExpr _ _ | POrder | JGc _ | JThreshold _ | JClear => []
  end.
(** The wrapper after a call that did not return.  [None]: not a panic (an empty slot, or create_node used against
    its contract), the program stops.  A path enumeration cut short by its bound counts as a panic. *)
Definition g_panic (w : mmgr) (Sl : mslots) (c : mcmd R) : option mmgr :=
  xs ← mslot_list Sl (used c);
  match c, xs with
  | DMake _ _, _ => None
  | DBin o _ _, [f; g] => Some (default w (with_mm w <$> bin_panic I o (g_mm w) f g))
  | DAll o _, _ => Some (default w (with_mm w <$> list_panic I o (g_mm w) xs))
  | DVar x n, _ => Some (default w (defvar_panic w x n))
  | DExpr e ranges, _ => rpn_panic I ranges (MRpn w [] ∅) (split_whitespace e)
  | _, _ => Some w
  end.
(** One call of a client that catches panics: the answer is [None] for a caught one. *)
Definition caught (w : mmgr) (Sl : mslots) (c : mcmd R) : option (mmgr * mslots * option (mans R)) :=
  match mdo w Sl c with
  | Some (w, Sl, a) => Some (w, Sl, Some a)
  | None => w ← g_panic w Sl c; Some (w, Sl, None)
  end.

(** The same client as it is meant to be: a call that panics does nothing, except that [rpn] has defined the
    variables named before the place where it fails. *)
Fixpoint seen (ranges : gmap string nat) (s : mrpn) (tokens : list string) : list (string * nat) :=
  match tokens with
  | [] => []
  | t :: ts =>
      match mrpn_step I ranges s t with
      | Some (s', true) =>
          match g_vars (mr_w s) !! t, g_vars (mr_w s') !! t, ranges !! t with
          | None, Some _, Some n => (t, n) :: seen ranges s' ts
          | _, _, _ => seen ranges s' ts
          end
      | _ => []
      end
  end.
Definition define (w : mmgr) (xs : list (string * nat)) : mmgr :=
  foldl (λ w '(x, n), default w ('(w, r) ← g_defvar w x n; Some (g_drop w r))) w xs.
Definition ideal (w : mmgr) (Sl : mslots) (c : mcmd R) : option (mmgr * mslots * option (mans R)) :=
  match mdo w Sl c with
  | Some (w, Sl, a) => Some (w, Sl, Some a)
  | None =>
      _ ← mslot_list Sl (used c);
      match c with
      | DMake _ _ => None
      | DExpr e ranges => Some (define w (seen ranges (MRpn w [] ∅) (split_whitespace e)), Sl, None)
      | _ => Some (w, Sl, None)
      end
  end.
Fixpoint run (step : mmgr → mslots → mcmd R → option (mmgr * mslots * option (mans R))) (w : mmgr) (Sl : mslots) (p : list (mcmd R))
  : option (list (option (mans R))) :=
  match p with
  | [] => Some []
  | c :: p => '(w, Sl, a) ← step w Sl c; l ← run step w Sl p; Some (a :: l)
  end.
(** the calls of [p] that returned *)
Fixpoint returned (p : list (mcmd R)) (l : list (option (mans R))) : list (mcmd R) :=
  match p, l with
  | c :: p, Some _ :: l => c :: returned p l
  | _ :: p, None :: l => returned p l
  | _, _ => []
  end.
(** every variable has at least one state *)
Definition with_states (p : list (mcmd R)) : Prop :=
  Forall (λ c, match c with DVar _ n => 1 ≤ n | DExpr _ ranges => map_Forall (λ _ n, 1 ≤ n) ranges | _ => True end) p.
End prog.
