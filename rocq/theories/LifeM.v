(** Handles that outlive their MddMgr; see Life.v.  Source: mss/src/mdd.rs: the owners 53-57, the weak references 65-69. *)
From stdpp Require Import strings.
From Verif Require Import Prelude ComputeCache Arena Bdd Mdd MtMdd MtMdd2 BssMgr MssMgr MssAlg MssLook SpecMdd SpecMss SpecTransM PanicM.

(** mdd.rs:20-27 and 53-57 without the arena *)
Record mgcs := MGcSt { k_roots : gmap mnode nat; k_thr : nat; k_floor : nat; k_vars : gmap string mnode }.
Definition mwhole (m : mm) (g : mgcs) : mmgr := MMgr m (k_roots g) (k_thr g) (k_floor g) (k_vars g).
Definition mrest (w : mmgr) : mgcs := MGcSt (g_roots w) (g_thr w) (g_floor w) (g_vars w).

(** The arena ([None]: freed), the number of strong references to it, and the manager ([None]: dropped). *)
Record mworld := MWorld { n_core : option mm; n_strong : nat; n_mgr : option mgcs }.
Definition mwith_core (o : mworld) (m : mm) : mworld := MWorld (Some m) (n_strong o) (n_mgr o).
(** mdd.rs:127-137 *)
Definition n_new : mworld := MWorld (Some mm_new) 1 (Some (MGcSt ∅ GC_FLOOR GC_FLOOR ∅)).
(** the end of an [Rc<RefCell<MtMdd2Manager<V>>>] *)
Definition mrc_drop (o : mworld) : mworld :=
  let n := Nat.pred (n_strong o) in MWorld (if n =? 0 then None else n_core o) n (n_mgr o).
(** the end of an MddMgr, 53-57, its fields in order *)
Definition mmgr_drop (o : mworld) : mworld :=
  let o := mrc_drop o in MWorld (n_core o) (n_strong o) None.
(** get_mgr, mdd.rs:530-532; [None]: the [unwrap] panics *)
Definition mh_get_mgr (o : mworld) : option mworld :=
  m ← n_core o; Some (MWorld (Some m) (S (n_strong o)) (n_mgr o)).

(** from_weak, mdd.rs:72-81, and Clone, 88-92 *)
Definition mh_pin (o : mworld) (x : mnode) : mworld :=
  match n_mgr o with
  | Some g => MWorld (n_core o) (n_strong o) (Some (MGcSt (mpin (k_roots g) x) (k_thr g) (k_floor g) (k_vars g)))
  | None => o
  end.
(** Drop for MddNode, mdd.rs:94-106 *)
Definition mh_drop (o : mworld) (x : mnode) : mworld :=
  match n_mgr o with
  | Some g => MWorld (n_core o) (n_strong o) (Some (MGcSt (munpin (k_roots g) x) (k_thr g) (k_floor g) (k_vars g)))
  | None => o
  end.
(** rewrap, mdd.rs:114-120, with maybe_gc, 29-46 *)
Definition mh_rewrap (o : mworld) (x : mnode) : option (mworld * mnode) :=
  let o := mh_pin o x in
  match n_mgr o with
  | Some g => m ← n_core o; w ← g_maybe_gc (mwhole m g); Some (MWorld (Some (g_mm w)) (n_strong o) (Some (mrest w)), x)
  | None => Some (o, x)
  end.
(** the operators of MddNode, mdd.rs:748-882; [None]: [upgrade().unwrap()] or the operation panics *)
Definition mh_op (o : mworld) (op : mm → option (mm * mnode)) : option (mworld * mnode) :=
  m ← n_core o; '(m, r) ← op m; mh_rewrap (mwith_core o m) r.
(** get_children, mdd.rs:611-656 *)
Definition mh_children (o : mworld) (x : mnode) : option (mworld * option (list mnode)) :=
  m ← n_core o;
  let kids tag cs := let xs := map tag cs in Some (foldl mh_pin o xs, Some xs) in
  match x with
  | NVal f => n ← ar_nodes (t_ar (mm_v m)) !! f; match n with Term _ => Some (o, None) | NT _ cs => kids NVal cs end
  | NBool f => n ← ar_nodes (d_ar (mm_b m)) !! f; match n with Term _ => Some (o, None) | NT _ cs => kids NBool cs end
  end.
(** the methods that only look (MssLook.v, MssAlg.v) read nothing but the arena *)
Definition mh_look {A} (o : mworld) (look : mmgr → option A) : option A :=
  m ← n_core o; look (MMgr m ∅ 0 0 ∅).
(** is_zero, is_one, is_undet, mdd.rs:676-725, and value, 727-740: a node of the other kind is answered without the arena *)
Definition mh_is (t : tv) (o : mworld) (x : mnode) : option bool :=
  match x with NVal _ => Some false | NBool _ => mh_look o (λ w, g_is t w x) end.
Definition mh_const (o : mworld) (x : mnode) : option (option Z) :=
  match x with NVal _ => mh_look o (λ w, g_const w x) | NBool _ => Some None end.

Section prog.
Context (I : vint) {R : Type} (rO rI : R) (radd rmul rsub : R → R → R).
Local Notation caught := (caught I rO rI radd rmul rsub).

(** methods of MddNode; the others are methods of MddMgr *)
Definition of_mnode (c : mcmd R) : bool :=
  match c with
  | DNeg _ | DBin _ _ _ | DCond _ _ _ | DKids _ | DDup _ | DFree _ | PEq _ _ | PKind _ | PIs _ _ | PConst _ | PCount _ _ | PProb _ _ _ | PMeas _ _ _
  | PPaths _ _ _ | PSize _ | PLabel _ | PLevel _ | PHeader _ => true
  | _ => false
  end.
Definition mhgive (Sl : mslots) (r : option (mworld * mnode)) : option (mworld * mslots * mans R) :=
  '(o, f) ← r; Some (o, Sl ++ [Some f], NDone).
Definition mhtell (o : mworld) (Sl : mslots) (a : option (mans R)) : option (mworld * mslots * mans R) :=
  a ← a; Some (o, Sl, a).
(** a method of a handle; [None]: it panics *)
Definition mhdo (o : mworld) (Sl : mslots) (c : mcmd R) : option (mworld * mslots * mans R) :=
  match c with
  | DNeg i => f ← mslot Sl i; mhgive Sl (mh_op o (λ m, mm_not m f))
  | DBin t i j => f ← mslot Sl i; g ← mslot Sl j; mhgive Sl (mh_op o (λ m, mm_bin I t m f g))
  | DCond i j k => f ← mslot Sl i; g ← mslot Sl j; h ← mslot Sl k; mhgive Sl (mh_op o (λ m, mm_ite m f g h))
  | DKids i =>
      f ← mslot Sl i; '(o, r) ← mh_children o f;
      Some match r with Some fs => (o, Sl ++ (Some <$> fs), NKids (Some (length fs))) | None => (o, Sl, NKids None) end
  | DDup i => f ← mslot Sl i; Some (mh_pin o f, Sl ++ [Some f], NDone)
  | DFree i => f ← mslot Sl i; Some (mh_drop o f, <[i := None]> Sl, NDone)
  | PEq i j => f ← mslot Sl i; g ← mslot Sl j; mhtell o Sl (Some (NTruth (g_same f g)))
  | PKind i => f ← mslot Sl i; mhtell o Sl (Some (NTruth (g_is_boolean f)))
  | PIs t i => f ← mslot Sl i; mhtell o Sl (NTruth <$> mh_is t o f)
  | PConst i => f ← mslot Sl i; mhtell o Sl (NConst <$> mh_const o f)
  | PCount ss i => f ← mslot Sl i; mhtell o Sl (mh_look o (λ w, NCount <$> g_count w f ss))
  | PProb pv ss i => f ← mslot Sl i; mhtell o Sl (mh_look o (λ w, NProb <$> g_prob rO rI radd rmul w f pv ss))
  | PMeas pv ss i => f ← mslot Sl i; mhtell o Sl (mh_look o (λ w, NMeas <$> g_bmeas rO rI radd rmul rsub w f pv ss))
  | PPaths n ss i => f ← mslot Sl i; mhtell o Sl (mh_look o (λ w, NPaths <$> g_extract n w f ss))
  | PSize i => f ← mslot Sl i; mhtell o Sl (mh_look o (λ w, NSize <$> g_size w f))
  | PLabel i => f ← mslot Sl i; mhtell o Sl (mh_look o (λ w, Some (NLabel (g_label w f))))
  | PLevel i => f ← mslot Sl i; mhtell o Sl (mh_look o (λ w, Some (NLevel (g_level w f))))
  | PHeader i => f ← mslot Sl i; mhtell o Sl (mh_look o (λ w, Some (NLevel (g_header w f))))
  | _ => None
  end.
(** what a method that panics leaves: an operation on values may have written nodes (PanicM.v) *)
Definition mh_panic (o : mworld) (Sl : mslots) (c : mcmd R) : mworld :=
  match c, n_core o with
  | DBin t i j, Some m => default o (f ← mslot Sl i; g ← mslot Sl j; m ← bin_panic I t m f g; Some (mwith_core o m))
  | _, _ => o
  end.

Inductive mlcmd := MCall (c : mcmd R) | MGetMgr (i : nat) | MDropRef | MDropMgr.
(** references from [get_mgr] that the client holds *)
Definition mrefs (o : mworld) : nat := n_strong o - (if n_mgr o then 1 else 0).
(** One step of a client that catches panics (answer [None]).  Outer [None]: not a program, as in Life.v. *)
Definition mlstep (o : mworld) (Sl : mslots) (c : mlcmd) : option (mworld * mslots * option (mans R)) :=
  match c with
  | MCall c =>
      if of_mnode c then
        _ ← mslot_list Sl (used c);
        Some match mhdo o Sl c with Some (o, Sl, a) => (o, Sl, Some a) | None => (mh_panic o Sl c, Sl, None) end
      else
        g ← n_mgr o; m ← n_core o;
        '(w, Sl, a) ← caught (mwhole m g) Sl c;
        Some (MWorld (Some (g_mm w)) (n_strong o) (Some (mrest w)), Sl, a)
  | MGetMgr i =>
      _ ← mslot Sl i;
      Some match mh_get_mgr o with Some o => (o, Sl, Some NDone) | None => (o, Sl, None) end
  | MDropRef => if 0 <? mrefs o then Some (mrc_drop o, Sl, Some NDone) else None
  | MDropMgr => if n_mgr o then Some (mmgr_drop o, Sl, Some NDone) else None
  end.
Fixpoint mlrun (o : mworld) (Sl : mslots) (p : list mlcmd) : option (list (option (mans R))) :=
  match p with
  | [] => Some []
  | c :: p => '(o, Sl, a) ← mlstep o Sl c; l ← mlrun o Sl p; Some (a :: l)
  end.
(** the same with the world at the end *)
Fixpoint mlend (o : mworld) (Sl : mslots) (p : list mlcmd) : option (mworld * list (option (mans R))) :=
  match p with
  | [] => Some (o, [])
  | c :: p => '(o, Sl, a) ← mlstep o Sl c; '(o, l) ← mlend o Sl p; Some (o, a :: l)
  end.
End prog.
Arguments mlcmd : clear implicits.
