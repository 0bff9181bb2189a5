(** What a client should see when it drops a BddMgr and goes on using the handles: the manager that is never dropped. *)
From stdpp Require Import strings.
From Verif Require Import Prelude ComputeCache Arena Bdd BssAlg BssMgr BssLook SpecBssMgr SpecTrans PanicB Life.

Section prog.
Context {R : Type} (rO rI : R) (radd rmul rsub : R → R → R).
Local Notation slist := (list (option nat)).
Local Notation bideal := (bideal rO rI radd rmul rsub).

(** the methods that do not need the arena: clone, drop, eq *)
Definition light (c : cmd R) : bool := match c with CDup _ | CFree _ | QEq _ _ => true | _ => false end.
(** [alive]: the manager has not been dropped; [k]: references from [get_mgr] held.  The manager [w] stays. *)
Definition owned (alive : bool) (k : nat) : bool := alive || (0 <? k).
Definition sstep (alive : bool) (k : nat) (w : bmgr) (Sl : slist) (c : lcmd R) : option (bool * nat * bmgr * slist * option (ans R)) :=
  match c with
  | Call c =>
      if alive || (of_node c && (owned alive k || light c)) then '(w, Sl, a) ← bideal w Sl c; Some (alive, k, w, Sl, a)
      else if of_node c then _ ← slots Sl (bused c); Some (alive, k, w, Sl, None)
      else None
  | GetMgr i => _ ← slot Sl i; Some (if owned alive k then (alive, S k, w, Sl, Some Done) else (alive, k, w, Sl, None))
  | DropRef => if 0 <? k then Some (alive, Nat.pred k, w, Sl, Some Done) else None
  | DropMgr => if alive then Some (false, k, w, Sl, Some Done) else None
  end.
Fixpoint srun (alive : bool) (k : nat) (w : bmgr) (Sl : slist) (p : list (lcmd R)) : option (list (option (ans R))) :=
  match p with
  | [] => Some []
  | c :: p => '(alive, k, w, Sl, a) ← sstep alive k w Sl c; l ← srun alive k w Sl p; Some (a :: l)
  end.
(** The owners of the arena, from the program and its answers: [n] at the beginning; a reference taken is one more, a
    reference or manager dropped one less. *)
Fixpoint owners (n : nat) (p : list (lcmd R)) (l : list (option (ans R))) : nat :=
  match p, l with
  | c :: p, a :: l => owners (match c, a with DropMgr, _ | DropRef, _ => Nat.pred n | GetMgr _, Some _ => S n | _, _ => n end) p l
  | _, _ => n
  end.
End prog.
