(** What a client should see when it drops a ZddMgr and goes on using the handles: the manager that is never dropped. *)
From stdpp Require Import strings.
From Verif Require Import Prelude ComputeCache Arena Bdd BssAlg BssMgr Zdd ZddAlg ZddMgr ZddLook SpecTrans SpecTransZ LifeZ.

Local Notation slist := (list (option nat)).
(** the methods that do not need the arena: clone, drop, eq *)
Definition ylight (c : ycmd) : bool := match c with YDup _ | YFree _ | YEq _ _ => true | _ => false end.
(** [alive]: the manager has not been dropped; [k]: references from [get_mgr] held.  The manager [w] stays. *)
Definition yowned (alive : bool) (k : nat) : bool := alive || (0 <? k).
Definition ysstep (alive : bool) (k : nat) (w : zmgr) (Sl : slist) (c : ylcmd) : option (bool * nat * zmgr * slist * option yans) :=
  match c with
  | YCall c =>
      if alive || (y_of_node c && (yowned alive k || ylight c)) then '(w, Sl, a) ← ycaught w Sl c; Some (alive, k, w, Sl, a)
      else if y_of_node c then _ ← slots Sl (yused c); Some (alive, k, w, Sl, None)
      else None
  | YGetMgr i => _ ← slot Sl i; Some (if yowned alive k then (alive, S k, w, Sl, Some YDone) else (alive, k, w, Sl, None))
  | YDropRef => if 0 <? k then Some (alive, Nat.pred k, w, Sl, Some YDone) else None
  | YDropMgr => if alive then Some (false, k, w, Sl, Some YDone) else None
  end.
Fixpoint ysrun (alive : bool) (k : nat) (w : zmgr) (Sl : slist) (p : list ylcmd) : option (list (option yans)) :=
  match p with
  | [] => Some []
  | c :: p => '(alive, k, w, Sl, a) ← ysstep alive k w Sl c; l ← ysrun alive k w Sl p; Some (a :: l)
  end.
(** The owners of the arena, from the program and its answers: [n] at the beginning; a reference taken is one more, a
    reference or manager dropped one less. *)
Fixpoint yowners (n : nat) (p : list ylcmd) (l : list (option yans)) : nat :=
  match p, l with
  | c :: p, a :: l => yowners (match c, a with YDropMgr, _ | YDropRef, _ => Nat.pred n | YGetMgr _, Some _ => S n | _, _ => n end) p l
  | _, _ => n
  end.
