(** Handles that outlive their manager.  Source: bss/src/bdd.rs.
    A BddMgr owns its arena by an [Rc] (56) and its collection state by another one (57); a BddNode has a [Weak] reference
    to each (68-71); [BddNode::get_mgr] (360-362) gives the client a strong reference to the arena.  The arena lives as long
    as one strong reference to it does, the collection state exactly as long as the manager.
    Not here: what the client may do to the arena itself through the reference from [get_mgr] (such as a [gc] of the arena
    with roots of its own), borrows it keeps open, and an iterator of paths kept while the manager is dropped. *)
From stdpp Require Import strings.
From Verif Require Import Prelude ComputeCache Arena Bdd BssAlg BssMgr BssLook SpecBssMgr SpecTrans PanicB.

(** bdd.rs:21-28 and 56-60 without the arena *)
Record gcs := GcSt { c_roots : gmap nat nat; c_thr : nat; c_floor : nat; c_vars : gmap string nat }.
Definition whole (b : bdd) (g : gcs) : bmgr := BMgr b (c_roots g) (c_thr g) (c_floor g) (c_vars g).
Definition rest (w : bmgr) : gcs := GcSt (w_roots w) (w_thr w) (w_floor w) (w_vars w).

(** The arena ([None]: freed), the number of strong references to it, and the manager ([None]: dropped). *)
Record world := World { o_core : option bdd; o_strong : nat; o_mgr : option gcs }.
Definition with_core (o : world) (b : bdd) : world := World (Some b) (o_strong o) (o_mgr o).
(** bdd.rs:122-132 *)
Definition o_new : world := World (Some bdd_new) 1 (Some (GcSt ∅ GC_FLOOR GC_FLOOR ∅)).
(** the end of an [Rc<RefCell<BddManager>>] *)
Definition rc_drop (o : world) : world :=
  let n := Nat.pred (o_strong o) in World (if n =? 0 then None else o_core o) n (o_mgr o).
(** The end of a BddMgr, 56-60: its fields go in the order of their declaration, the arena, the collection state (which has no
    other owner), the handles in [vars] (their [drop] finds no collection state). *)
Definition mgr_drop (o : world) : world :=
  let o := rc_drop o in World (o_core o) (o_strong o) None.
(** get_mgr, bdd.rs:360-362; [None]: the [unwrap] panics *)
Definition h_get_mgr (o : world) : option world :=
  b ← o_core o; Some (World (Some b) (S (o_strong o)) (o_mgr o)).

(** from_weak, bdd.rs:78-87, and Clone, 100-104: counts the handle only if the collection state is there *)
Definition h_pin (o : world) (f : nat) : world :=
  match o_mgr o with
  | Some g => World (o_core o) (o_strong o) (Some (GcSt (pin (c_roots g) f) (c_thr g) (c_floor g) (c_vars g)))
  | None => o
  end.
(** Drop for BddNode, bdd.rs:106-118 *)
Definition h_drop (o : world) (f : nat) : world :=
  match o_mgr o with
  | Some g => World (o_core o) (o_strong o) (Some (GcSt (unpin (c_roots g) f) (c_thr g) (c_floor g) (c_vars g)))
  | None => o
  end.
(** rewrap, bdd.rs:91-97, with maybe_gc, 35-47: only if the collection state is there *)
Definition h_rewrap (o : world) (f : nat) : option (world * nat) :=
  let o := h_pin o f in
  match o_mgr o with
  | Some g => b ← o_core o; w ← maybe_gc (whole b g); Some (World (Some (w_bdd w)) (o_strong o) (Some (rest w)), f)
  | None => Some (o, f)
  end.
(** and, or, xor, not, ite, dual, bdd.rs:444-472 and 508-516; [None]: [self.parent.upgrade().unwrap()] panics *)
Definition h_op (o : world) (op : bdd → option (bdd * nat)) : option (world * nat) :=
  b ← o_core o; '(b, r) ← op b; h_rewrap (with_core o b) r.
Definition h_bin (t : bop2) : bdd → nat → nat → option (bdd * nat) :=
  match t with BAnd => bdd_and | BOr => bdd_or | BXor => bdd_xor end.
(** get_children, bdd.rs:393-406 *)
Definition h_children (o : world) (f : nat) : option (world * option (nat * nat)) :=
  b ← o_core o;
  n ← ar_nodes (b_ar b) !! f;
  match n with
  | Term _ => Some (o, None)
  | NT _ cs => '(f0, f1) ← edges2 cs; Some (h_pin (h_pin o f0) f1, Some (f0, f1))
  end.
(** The methods that only look (BssLook.v) read nothing but the arena; [None]: [upgrade().unwrap()] panics. *)
Definition h_look {A} (o : world) (look : bmgr → option A) : option A :=
  b ← o_core o; look (BMgr b ∅ 0 0 ∅).

Section prog.
Context {R : Type} (rO rI : R) (radd rmul rsub : R → R → R).
Local Notation slist := (list (option nat)).
Local Notation bcaught := (bcaught rO rI radd rmul rsub).

(** methods of BddNode; the others are methods of BddMgr *)
Definition of_node (c : cmd R) : bool :=
  match c with
  | CNeg _ | CBin _ _ _ | CCond _ _ _ | CDualOf _ | CKids _ | CDup _ | CFree _ | QEq _ _ | QIs _ _ | QCount _ _ | QProb _ _ _ | QMeas _ _ _
  | QPaths _ _ _ | QSize _ | QLabel _ | QLevel _ => true
  | _ => false
  end.
Definition hgive (Sl : slist) (r : option (world * nat)) : option (world * slist * ans R) :=
  '(o, f) ← r; Some (o, Sl ++ [Some f], Done).
Definition htell (o : world) (Sl : slist) (a : option (ans R)) : option (world * slist * ans R) :=
  a ← a; Some (o, Sl, a).
(** a method of a handle; [None]: it panics *)
Definition hdo (o : world) (Sl : slist) (c : cmd R) : option (world * slist * ans R) :=
  match c with
  | CNeg i => f ← slot Sl i; hgive Sl (h_op o (λ b, bdd_not b f))
  | CBin t i j => f ← slot Sl i; g ← slot Sl j; hgive Sl (h_op o (λ b, h_bin t b f g))
  | CCond i j k => f ← slot Sl i; g ← slot Sl j; h ← slot Sl k; hgive Sl (h_op o (λ b, bdd_ite b f g h))
  | CDualOf i => f ← slot Sl i; hgive Sl (h_op o (λ b, bdd_dual b f))
  | CKids i =>
      f ← slot Sl i; '(o, r) ← h_children o f;
      Some match r with
           | Some (f0, f1) => (o, Sl ++ [Some f0; Some f1], ABool true)
           | None => (o, Sl ++ [None; None], ABool false)
           end
  | CDup i => f ← slot Sl i; Some (h_pin o f, Sl ++ [Some f], Done)
  | CFree i => f ← slot Sl i; Some (h_drop o f, <[i := None]> Sl, Done)
  | QEq i j => f ← slot Sl i; g ← slot Sl j; htell o Sl (Some (ABool (w_eq f g)))
  | QIs t i => f ← slot Sl i; htell o Sl (h_look o (λ w, ABool <$> w_is t w f))
  | QCount ss i => f ← slot Sl i; htell o Sl (h_look o (λ w, ACount <$> w_count w ss f))
  | QProb pv ss i => f ← slot Sl i; htell o Sl (h_look o (λ w, AProb <$> w_prob rO rI radd rmul rsub w pv ss f))
  | QMeas pv ss i => f ← slot Sl i; htell o Sl (h_look o (λ w, AMeas <$> w_bmeas rO rI radd rmul rsub w pv ss f))
  | QPaths n ss i => f ← slot Sl i; htell o Sl (h_look o (λ w, APaths <$> w_extract n w ss f))
  | QSize i => f ← slot Sl i; htell o Sl (h_look o (λ w, ASize <$> w_size w f))
  | QLabel i => f ← slot Sl i; htell o Sl (h_look o (λ w, Some (ALabel (w_label w f))))
  | QLevel i => f ← slot Sl i; htell o Sl (h_look o (λ w, Some (ALevel (w_level w f))))
  | _ => None
  end.

(** What a client does: a call; a handle's [get_mgr], the result being kept; the end of such a reference; the end of the manager. *)
Inductive lcmd := Call (c : cmd R) | GetMgr (i : nat) | DropRef | DropMgr.
(** references from [get_mgr] that the client holds *)
Definition refs (o : world) : nat := o_strong o - (if o_mgr o then 1 else 0).
(** One step of a client that catches panics (answer [None]).  Outer [None]: not a program (a value used after its end). *)
Definition lstep (o : world) (Sl : slist) (c : lcmd) : option (world * slist * option (ans R)) :=
  match c with
  | Call c =>
      if of_node c then
        _ ← slots Sl (bused c);
        Some match hdo o Sl c with Some (o, Sl, a) => (o, Sl, Some a) | None => (o, Sl, None) end
      else
        g ← o_mgr o; b ← o_core o;
        '(w, Sl, a) ← bcaught (whole b g) Sl c;
        Some (World (Some (w_bdd w)) (o_strong o) (Some (rest w)), Sl, a)
  | GetMgr i =>
      _ ← slot Sl i;
      Some match h_get_mgr o with Some o => (o, Sl, Some Done) | None => (o, Sl, None) end
  | DropRef => if 0 <? refs o then Some (rc_drop o, Sl, Some Done) else None
  | DropMgr => if o_mgr o then Some (mgr_drop o, Sl, Some Done) else None
  end.
Fixpoint lrun (o : world) (Sl : slist) (p : list lcmd) : option (list (option (ans R))) :=
  match p with
  | [] => Some []
  | c :: p => '(o, Sl, a) ← lstep o Sl c; l ← lrun o Sl p; Some (a :: l)
  end.
(** the same with the world at the end *)
Fixpoint lend (o : world) (Sl : slist) (p : list lcmd) : option (world * list (option (ans R))) :=
  match p with
  | [] => Some (o, [])
  | c :: p => '(o, Sl, a) ← lstep o Sl c; '(o, l) ← lend o Sl p; Some (o, a :: l)
  end.
End prog.
Arguments lcmd : clear implicits.
