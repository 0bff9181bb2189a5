(** What a client should see when it drops an MddMgr and goes on using the handles; see SpecLife.v. *)
From stdpp Require Import strings.
From Verif Require Import Prelude ComputeCache Arena Bdd Mdd MtMdd MtMdd2 BssMgr MssMgr MssAlg MssLook SpecMdd SpecMss SpecTransM PanicM LifeM.

Section prog.
Context (I : vint) {R : Type} (rO rI : R) (radd rmul rsub : R → R → R).
Local Notation ideal := (ideal I rO rI radd rmul rsub).

(** The methods that do not need the arena: clone, drop, the kind of a node, comparing nodes, asking a value node for a truth
    value and a truth-valued node for a number. *)
Definition mlight (Sl : mslots) (c : mcmd R) : bool :=
  match c with
  | DDup _ | DFree _ | PEq _ _ | PKind _ => true
  | PIs _ i => match mslot Sl i with Some (NVal _) => true | _ => false end
  | PConst i => match mslot Sl i with Some (NBool _) => true | _ => false end
  | _ => false
  end.
(** [alive]: the manager has not been dropped; [k]: references from [get_mgr] held.  The manager [w] stays. *)
Definition mowned (alive : bool) (k : nat) : bool := alive || (0 <? k).
Definition msstep (alive : bool) (k : nat) (w : mmgr) (Sl : mslots) (c : mlcmd R) : option (bool * nat * mmgr * mslots * option (mans R)) :=
  match c with
  | MCall c =>
      if alive || (of_mnode c && (mowned alive k || mlight Sl c)) then '(w, Sl, a) ← ideal w Sl c; Some (alive, k, w, Sl, a)
      else if of_mnode c then _ ← mslot_list Sl (used c); Some (alive, k, w, Sl, None)
      else None
  | MGetMgr i => _ ← mslot Sl i; Some (if mowned alive k then (alive, S k, w, Sl, Some NDone) else (alive, k, w, Sl, None))
  | MDropRef => if 0 <? k then Some (alive, Nat.pred k, w, Sl, Some NDone) else None
  | MDropMgr => if alive then Some (false, k, w, Sl, Some NDone) else None
  end.
Fixpoint msrun (alive : bool) (k : nat) (w : mmgr) (Sl : mslots) (p : list (mlcmd R)) : option (list (option (mans R))) :=
  match p with
  | [] => Some []
  | c :: p => '(alive, k, w, Sl, a) ← msstep alive k w Sl c; l ← msrun alive k w Sl p; Some (a :: l)
  end.
(** the owners of the arena, as in SpecLife.v *)
Fixpoint mowners (n : nat) (p : list (mlcmd R)) (l : list (option (mans R))) : nat :=
  match p, l with
  | c :: p, a :: l => mowners (match c, a with MDropMgr, _ | MDropRef, _ => Nat.pred n | MGetMgr _, Some _ => S n | _, _ => n end) p l
  | _, _ => n
  end.
(** every variable has at least one state (for C97) *)
Definition mwith_states (p : list (mlcmd R)) : Prop := with_states (omap (λ c, match c with MCall c => Some c | _ => None end) p).
End prog.
