(** Handles that outlive their ZddMgr, as in Life.v.  Source: bss/src/zdd.rs.
    A ZddMgr owns its arena by an [Rc] (46) and its collection state by another one (47); a ZddNode has a [Weak] reference
    to each (156-160); [ZddNode::get_mgr] (186-188) gives the client a strong reference to the arena.
    Not here: what the client may do to the arena itself through the reference from [get_mgr], borrows it keeps open, and an
    iterator of members kept while the manager is dropped. *)
From stdpp Require Import strings.
From Verif Require Import Prelude ComputeCache Arena Bdd BssAlg BssMgr Zdd ZddAlg ZddMgr ZddLook SpecTrans SpecTransZ.

(** zdd.rs:16-20 and 45-51 without the arena *)
Record ygcs := YGcSt { yc_roots : gmap nat nat; yc_thr : nat; yc_floor : nat; yc_vars : gmap string nat }.
Definition ywhole (z : zdd) (g : ygcs) : zmgr := ZMgr z (yc_roots g) (yc_thr g) (yc_floor g) (yc_vars g).
Definition yrest (w : zmgr) : ygcs := YGcSt (y_roots w) (y_thr w) (y_floor w) (y_vars w).

(** The arena ([None]: freed), the number of strong references to it, and the manager ([None]: dropped). *)
Record yworld := YWorld { yo_core : option zdd; yo_strong : nat; yo_mgr : option ygcs }.
Definition with_ycore (o : yworld) (z : zdd) : yworld := YWorld (Some z) (yo_strong o) (yo_mgr o).
(** zdd.rs:54-64 *)
Definition yo_new : yworld := YWorld (Some zdd_new) 1 (Some (YGcSt ∅ GC_FLOOR GC_FLOOR ∅)).
(** the end of an [Rc<RefCell<ZddManager>>] *)
Definition yrc_drop (o : yworld) : yworld :=
  let n := Nat.pred (yo_strong o) in YWorld (if n =? 0 then None else yo_core o) n (yo_mgr o).
(** the end of a ZddMgr, 45-51: the arena, then the collection state (which has no other owner); [vars] has no handles *)
Definition ymgr_drop (o : yworld) : yworld :=
  let o := yrc_drop o in YWorld (yo_core o) (yo_strong o) None.
(** get_mgr, zdd.rs:186-188; [None]: the [unwrap] panics *)
Definition yh_get_mgr (o : yworld) : option yworld :=
  z ← yo_core o; Some (YWorld (Some z) (S (yo_strong o)) (yo_mgr o)).

(** from_weak, zdd.rs:167-176, and Clone, 308-312: counts the handle only if the collection state is there *)
Definition yh_pin (o : yworld) (f : nat) : yworld :=
  match yo_mgr o with
  | Some g => YWorld (yo_core o) (yo_strong o) (Some (YGcSt (pin (yc_roots g) f) (yc_thr g) (yc_floor g) (yc_vars g)))
  | None => o
  end.
(** Drop for ZddNode, zdd.rs:314-326 *)
Definition yh_drop (o : yworld) (f : nat) : yworld :=
  match yo_mgr o with
  | Some g => YWorld (yo_core o) (yo_strong o) (Some (YGcSt (unpin (yc_roots g) f) (yc_thr g) (yc_floor g) (yc_vars g)))
  | None => o
  end.
(** rewrap, zdd.rs:178-184, with maybe_gc, 22-34: only if the collection state is there *)
Definition yh_rewrap (o : yworld) (f : nat) : option (yworld * nat) :=
  let o := yh_pin o f in
  match yo_mgr o with
  | Some g => z ← yo_core o; w ← y_maybe_gc (ywhole z g); Some (YWorld (Some (y_zdd w)) (yo_strong o) (Some (yrest w)), f)
  | None => Some (o, f)
  end.
(** union, intersect, setdiff, product, divide, zdd.rs:252-284; [None]: [self.parent.upgrade().unwrap()] panics *)
Definition yh_set (t : zop) : zdd → nat → nat → option (zdd * nat) :=
  match t with ZIntersect => zdd_intersect | ZUnion => zdd_union | ZSetdiff => zdd_setdiff | ZProduct => zdd_product | ZDivision => zdd_divide end.
Definition yh_op (o : yworld) (t : zop) (f g : nat) : option (yworld * nat) :=
  z ← yo_core o; '(z, r) ← yh_set t z f g; yh_rewrap (with_ycore o z) r.
(** get_children, zdd.rs:214-225 *)
Definition yh_children (o : yworld) (f : nat) : option (yworld * option (nat * nat)) :=
  z ← yo_core o;
  n ← ar_nodes (z_ar z) !! f;
  match n with
  | Term _ => Some (o, None)
  | NT _ cs => '(f0, f1) ← edges2 cs; Some (yh_pin (yh_pin o f0) f1, Some (f0, f1))
  end.
(** The methods that only look (ZddLook.v) read nothing but the arena; [None]: [upgrade().unwrap()] panics. *)
Definition yh_look {A} (o : yworld) (look : zmgr → option A) : option A :=
  z ← yo_core o; look (ZMgr z ∅ 0 0 ∅).

Local Notation slist := (list (option nat)).
(** methods of ZddNode; the others are methods of ZddMgr *)
Definition y_of_node (c : ycmd) : bool :=
  match c with YEmpty | YBase | YSingle _ | YSets _ | YThreshold _ | YClear => false | _ => true end.
(** the slots a call reads *)
Definition yused (c : ycmd) : list nat :=
  match c with
  | YOp _ i j | YEq i j => [i; j]
  | YKids i | YDup i | YFree i | YIs _ i | YCount _ i | YMembers _ _ i | YSize i | YLabel i | YLevel i | YHeader i => [i]
  | YEmpty | YBase | YSingle _ | YSets _ | YThreshold _ | YClear => []
  end.
(** One call of a client that catches panics: the answer is [None] for a caught one.  Operations never panic (C52), questions do
    not write.  An enumeration of members cut short by its bound counts as a panic.  Outer [None]: an empty slot. *)
Definition ycaught (w : zmgr) (Sl : slist) (c : ycmd) : option (zmgr * slist * option yans) :=
  _ ← slots Sl (yused c);
  Some match ydo w Sl c with Some (w, Sl, a) => (w, Sl, Some a) | None => (w, Sl, None) end.

Definition yhgive (Sl : slist) (r : option (yworld * nat)) : option (yworld * slist * yans) :=
  '(o, f) ← r; Some (o, Sl ++ [Some f], YDone).
Definition yhtell (o : yworld) (Sl : slist) (a : option yans) : option (yworld * slist * yans) :=
  a ← a; Some (o, Sl, a).
(** a method of a handle; [None]: it panics *)
Definition yhdo (o : yworld) (Sl : slist) (c : ycmd) : option (yworld * slist * yans) :=
  match c with
  | YOp t i j => f ← slot Sl i; g ← slot Sl j; yhgive Sl (yh_op o t f g)
  | YKids i =>
      f ← slot Sl i; '(o, r) ← yh_children o f;
      Some match r with
           | Some (f0, f1) => (o, Sl ++ [Some f0; Some f1], YBool true)
           | None => (o, Sl ++ [None; None], YBool false)
           end
  | YDup i => f ← slot Sl i; Some (yh_pin o f, Sl ++ [Some f], YDone)
  | YFree i => f ← slot Sl i; Some (yh_drop o f, <[i := None]> Sl, YDone)
  | YEq i j => f ← slot Sl i; g ← slot Sl j; yhtell o Sl (Some (YBool (y_eq f g)))
  | YIs t i => f ← slot Sl i; yhtell o Sl (yh_look o (λ w, YBool <$> y_is t w f))
  | YCount ss i => f ← slot Sl i; yhtell o Sl (yh_look o (λ w, YNum <$> y_count w ss f))
  | YMembers n ss i => f ← slot Sl i; yhtell o Sl (yh_look o (λ w, YFam <$> y_extract n w ss f))
  | YSize i => f ← slot Sl i; yhtell o Sl (yh_look o (λ w, YDims <$> y_size w f))
  | YLabel i => f ← slot Sl i; yhtell o Sl (yh_look o (λ w, Some (YName (y_label w f))))
  | YLevel i => f ← slot Sl i; yhtell o Sl (yh_look o (λ w, Some (YNat (y_level w f))))
  | YHeader i => f ← slot Sl i; yhtell o Sl (yh_look o (λ w, Some (YNat (y_hid w f))))
  | _ => None
  end.

(** What a client does: a call; a handle's [get_mgr], the result being kept; the end of such a reference; the end of the manager. *)
Inductive ylcmd := YCall (c : ycmd) | YGetMgr (i : nat) | YDropRef | YDropMgr.
(** references from [get_mgr] that the client holds *)
Definition yrefs (o : yworld) : nat := yo_strong o - (if yo_mgr o then 1 else 0).
(** One step of a client that catches panics (answer [None]).  Outer [None]: not a program (a value used after its end). *)
Definition ylstep (o : yworld) (Sl : slist) (c : ylcmd) : option (yworld * slist * option yans) :=
  match c with
  | YCall c =>
      if y_of_node c then
        _ ← slots Sl (yused c);
        Some match yhdo o Sl c with Some (o, Sl, a) => (o, Sl, Some a) | None => (o, Sl, None) end
      else
        g ← yo_mgr o; z ← yo_core o;
        '(w, Sl, a) ← ycaught (ywhole z g) Sl c;
        Some (YWorld (Some (y_zdd w)) (yo_strong o) (Some (yrest w)), Sl, a)
  | YGetMgr i =>
      _ ← slot Sl i;
      Some match yh_get_mgr o with Some o => (o, Sl, Some YDone) | None => (o, Sl, None) end
  | YDropRef => if 0 <? yrefs o then Some (yrc_drop o, Sl, Some YDone) else None
  | YDropMgr => if yo_mgr o then Some (ymgr_drop o, Sl, Some YDone) else None
  end.
Fixpoint ylrun (o : yworld) (Sl : slist) (p : list ylcmd) : option (list (option yans)) :=
  match p with
  | [] => Some []
  | c :: p => '(o, Sl, a) ← ylstep o Sl c; l ← ylrun o Sl p; Some (a :: l)
  end.
(** the same with the world at the end *)
Fixpoint ylend (o : yworld) (Sl : slist) (p : list ylcmd) : option (yworld * list (option yans)) :=
  match p with
  | [] => Some (o, [])
  | c :: p => '(o, Sl, a) ← ylstep o Sl c; '(o, l) ← ylend o Sl p; Some (o, a :: l)
  end.
