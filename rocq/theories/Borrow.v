(** The interior-mutability discipline of the wrappers.

    Every manager of bss/ and mss/ keeps its arena in one [RefCell] and its collection state
    (roots, threshold, floor) in another, and every handle has weak references to both.  A [RefCell]
    panics at run time when [borrow()] meets an exclusive borrow or [borrow_mut()] meets any borrow.
    This file models the [RefCell]s and transcribes, method by method, WHERE each public method of
    the wrappers borrows which cell and for how long (Rust's rules for the scope of guards and
    temporaries applied by hand); everything else a method does is a plain step, which may also
    panic or return early.  The core crates (bddcore, mddcore, common) contain no [RefCell]
    (`grep RefCell` finds only bss/src/{bdd,zdd}.rs and mss/src/{mdd,zmdd,mss}.rs).
    Simplification: code of the caller that runs inside a method -- the arithmetic of the
    probability type [T], [Ord]/[Hash] of the value type [V] -- does not call back into a manager. *)
From Coq Require Import ZArith Lia.
From stdpp Require Import strings list.
From Verif Require Import Prelude.
Local Open Scope Z_scope.

(** ** Cells *)
(** The four kinds of manager and a number to tell apart managers of one kind:
    bss/src/bdd.rs 55-59, bss/src/zdd.rs 45-51, mss/src/mdd.rs 53-57, mss/src/zmdd.rs 44-47. *)
Inductive forest := FBdd | FZdd | FMdd | FZmdd.
Global Instance forest_eq_dec : EqDecision forest.
Proof. solve_decision. Defined.
Definition mref : Type := forest * nat.
(** The two [Rc<RefCell<_>>] of a manager: the arena ([bdd], [zdd], [mdd], [zmdd]) and [gc]. *)
Inductive cell := Arena (m : mref) | Roots (m : mref).
Global Instance cell_eq_dec : EqDecision cell.
Proof. solve_decision. Defined.

(** ** [RefCell] (std::cell::RefCell: the borrow flag counts the shared borrows, -1 = exclusive) *)
Inductive ev := BorrowEv (c : cell) | EndEv (c : cell) | BorrowMutEv (c : cell) | EndMutEv (c : cell).
Definition flags : Type := cell → Z.
Definition free : flags := λ _, 0.
Definition put (s : flags) (c : cell) (z : Z) : flags := λ c', if decide (c' = c) then z else s c'.
(** [None]: the panic "already borrowed" / "already mutably borrowed". *)
Definition ev_step (s : flags) (e : ev) : option flags :=
  match e with
  | BorrowEv c => if bool_decide (0 ≤ s c) then Some (put s c (s c + 1)) else None
  | EndEv c => Some (put s c (s c - 1))
  | BorrowMutEv c => if bool_decide (s c = 0) then Some (put s c (-1)) else None
  | EndMutEv c => Some (put s c (s c + 1))
  end.
Fixpoint exec (s : flags) (t : list ev) : option flags :=
  match t with [] => Some s | e :: t => s ← ev_step s e; exec s t end.

(** ** The borrow structure of a method body *)
Inductive prog :=
  | Step                              (* code without borrows; may panic or return early *)
  | Shared (c : cell) (p : prog)      (* a guard of [c.borrow()] lives during [p] *)
  | Excl (c : cell) (p : prog)        (* a guard of [c.borrow_mut()] lives during [p] *)
  | Then (p q : prog)
  | Either (p q : prog)               (* match, if, if let *)
  | Loop (p : prog)                   (* for, while: any number of rounds *)
  | Call (p : prog)                   (* a function call: a return inside ends only the call *)
  | Cleanup (p d : prog).             (* a local handle lives during [p]: if [p] is left early it is dropped by [d]; otherwise it is moved on *)
Declare Scope prog_scope.
Delimit Scope prog_scope with prog.
Notation "p ;> q" := (Then p q) (at level 62, right associativity) : prog_scope.
Local Open Scope prog_scope.

(** [runs p t b]: [p] can produce the borrow events [t]; [b]: it went to its end (otherwise it was
    left by a [return], a [?] or a panic, and the guards and local handles were dropped on the way). *)
Inductive runs : prog → list ev → bool → Prop :=
  | R_step b : runs Step [] b
  | R_shared c p t b : runs p t b → runs (Shared c p) (BorrowEv c :: t ++ [EndEv c]) b
  | R_excl c p t b : runs p t b → runs (Excl c p) (BorrowMutEv c :: t ++ [EndMutEv c]) b
  | R_then p q t u b : runs p t true → runs q u b → runs (p ;> q) (t ++ u) b
  | R_then_left p q t : runs p t false → runs (p ;> q) t false
  | R_either_l p q t b : runs p t b → runs (Either p q) t b
  | R_either_r p q t b : runs q t b → runs (Either p q) t b
  | R_loop_end p : runs (Loop p) [] true
  | R_loop p t u b : runs p t true → runs (Loop p) u b → runs (Loop p) (t ++ u) b
  | R_loop_left p t : runs p t false → runs (Loop p) t false
  | R_call p t b : runs p t b → runs (Call p) t b
  | R_call_return p t : runs p t false → runs (Call p) t true
  | R_cleanup p d t : runs p t true → runs (Cleanup p d) t true
  | R_cleanup_left p d t u b : runs p t false → runs d u b → runs (Cleanup p d) (t ++ u) false.

(** ** Pieces common to the four wrappers *)
Section pieces.
  Variable m : mref.
  (** [from_weak] = [Clone::clone] = [Node::new] (bdd.rs 74-87, 100-104; zdd.rs 163-176, 308-312;
      mdd.rs 72-86, 88-92; zmdd.rs 142-163, 305-318): [if let Some(g) = gc.upgrade()] the count of
      the root goes up under [g.borrow_mut()]. *)
  Definition pin : prog := Call (Either (Excl (Roots m) Step) Step).
  (** [Drop::drop] (bdd.rs 106-118; zdd.rs 314-326; mdd.rs 94-106; zmdd.rs 320-332). *)
  Definition unpin : prog := Call (Either (Excl (Roots m) Step) Step).
  (** A local handle that lives during [p] and is dropped after it. *)
  Definition owned (p : prog) : prog := Cleanup p unpin ;> unpin.
  (** [maybe_gc] (bdd.rs 35-47; zdd.rs 22-34; mdd.rs 29-44; zmdd.rs 24-39): both temporaries of the
      condition live to the end of the condition; [return]; a temporary on [gc]; a block with
      [borrow_mut] of the arena; [borrow_mut] of [gc] to the end of the function. *)
  Definition maybe_gc : prog :=
    Call (Shared (Arena m) (Step ;> Shared (Roots m) Step) ;> Step ;> Shared (Roots m) Step ;>
          Excl (Arena m) Step ;> Excl (Roots m) Step).
  (** [wrap] (bdd.rs 150-154; zdd.rs 119-123; mdd.rs 159-163; zmdd.rs 64-68). *)
  Definition wrap : prog := Call (pin ;> Cleanup maybe_gc unpin).
  (** [rewrap] (bdd.rs 91-97; zdd.rs 178-184; mdd.rs 114-120; zmdd.rs 165-177). *)
  Definition rewrap : prog := Call (pin ;> Cleanup (Either maybe_gc Step) unpin).
  (** Bodies of the common shapes: read under [borrow()]; compute under [borrow_mut()]; read or
      compute and wrap; compute and rewrap (the guard is a temporary, a block, or dropped by [drop]). *)
  Definition reads : prog := Call (Step ;> Shared (Arena m) Step).
  Definition writes : prog := Call (Step ;> Excl (Arena m) Step).
  Definition reads_wrap : prog := Call (Shared (Arena m) Step ;> wrap).
  Definition writes_wrap : prog := Call (Step ;> Excl (Arena m) Step ;> wrap).
  Definition op : prog := Call (Step ;> Excl (Arena m) Step ;> rewrap).
  Definition plain : prog := Call Step.
  (** [set_gc_threshold] (bdd.rs 137-141; zdd.rs 125-129; mdd.rs 146-150). *)
  Definition set_threshold : prog := Call (Excl (Roots m) Step).
  (** [gc] (bdd.rs 168-174; mdd.rs 172-178). *)
  Definition collect : prog := Call (Shared (Roots m) Step ;> Step ;> Excl (Arena m) Step).
  (** [defvar] (bdd.rs 194-209; mdd.rs 213-228): an existing variable's handle is cloned; otherwise a
      block under [borrow_mut], a handle, and a clone of it for the table. *)
  Definition defvar : prog :=
    Call (Either pin (Step ;> Excl (Arena m) Step ;> pin ;> Cleanup (Step ;> pin ;> Cleanup Step unpin) unpin)).
  (** [get_children] (bdd.rs 393-406; zdd.rs 214-225; mdd.rs 611-660): the children are pinned while
      the shared guard lives; [Loop]: two children, or one per edge. *)
  Definition children : prog := Call (Step ;> Shared (Arena m) (Step ;> Either Step (Loop (Cleanup pin unpin)))).
End pieces.

(** ** Methods with a structure of their own *)
(** One round of the token loop of [BddMgr::rpn] (bdd.rs 268-327): operators and constants hold
    [borrow_mut] for their arm; [save]/[load] may return; a name calls [defvar] without a guard and
    drops the handle at the end of the arm. *)
Definition rpn_token (m : mref) : prog :=
  Either (Excl (Arena m) Step) (Either Step (defvar m ;> owned m Step)).
(** bdd.rs 264-334. *)
Definition bdd_rpn (b : nat) : prog := Call (Loop (rpn_token (FBdd, b)) ;> Either (wrap (FBdd, b)) Step).
(** mdd.rs 297-470: as for BDDs; [True]/[False] (414-427) under [borrow], numbers (447-453) under
    [borrow_mut], names (454-460) through [defvar]. *)
Definition mdd_rpn (m : nat) : prog :=
  Call (Loop (Either (Shared (Arena (FMdd, m)) Step) (rpn_token (FMdd, m))) ;> Either (wrap (FMdd, m)) Step).
(** mdd.rs 230-240: [v.get_header()], then a guard to the end of the round. *)
Definition mdd_varorder (m : nat) : prog :=
  Call (Loop (reads (FMdd, m) ;> Shared (Arena (FMdd, m)) Step)).
(** zdd.rs 78-94: a header under a temporary, a node in a block, [wrap]. *)
Definition zdd_singleton (z : nat) : prog :=
  Call (Either Step (Excl (Arena (FZdd, z)) Step) ;> Step ;> Excl (Arena (FZdd, z)) Step ;> wrap (FZdd, z)).
(** zdd.rs 99-110: [result], [fam] and [single] are local handles; assigning to [fam] or [result]
    drops the old one. *)
Definition zdd_from_sets (z : nat) : prog :=
  let m := (FZdd, z) in
  Call (Call (reads_wrap m) ;>
        Cleanup (Loop (Call (reads_wrap m) ;>
                       owned m (Loop (zdd_singleton z ;> owned m (op m ;> unpin m)) ;> op m ;> unpin m)))
                (unpin m)).
(** [BddPath::new] (bdd_path.rs 19-41) and [MddPath::new] (mdd_path.rs 24-60): the size and the
    headers read under temporaries. *)
Definition path_new (m : mref) : prog :=
  Call (reads m ;> Shared (Arena m) Step ;> Loop (Shared (Arena m) Step ;> Shared (Arena m) Step ;> Either Step (Shared (Arena m) Step) ;> Step)).
(** bdd.rs 524-526: the clone is moved into the iterator. *)
Definition bdd_extract (b : nat) : prog := Call (pin (FBdd, b) ;> Cleanup (path_new (FBdd, b)) (unpin (FBdd, b))).
(** mdd.rs 936-938 and mdd_path.rs 55: the clone is made at the end of [MddPath::new]. *)
Definition mdd_extract (m : nat) : prog := Call (path_new (FMdd, m) ;> pin (FMdd, m) ;> Cleanup Step (unpin (FMdd, m))).
(** [next] of [BddPath] (bdd_path.rs 51-124), [vnext]/[bnext] of [MddPath] (mdd_path.rs 89-188): a
    temporary for the level; the scrutinee [dd.borrow().get_node(..)] of the [match] keeps its guard
    through the arms, which may return. *)
Definition bdd_like_next (m : mref) : prog :=
  Call (Loop (Either Step (Shared (Arena m) Step ;> Shared (Arena m) Step))).
Definition bdd_next (b : nat) : prog := bdd_like_next (FBdd, b).
(** [next] of [ZddPath] (zdd_path.rs 44-79) and [ZmddPath] (zmdd.rs 415-457): inside the guard of the
    scrutinee the label is read under a second shared guard. *)
Definition walk_next (m : mref) : prog :=
  Call (Loop (Either Step (Shared (Arena m) (Either Step (Shared (Arena m) Step ;> Step))))).
(** zmdd.rs 300-302 and 389-406. *)
Definition zmdd_extract (y : nat) : prog := Call (pin (FZmdd, y) ;> Cleanup Step (unpin (FZmdd, y))).
(** zmdd.rs 234-255: [labels], then [extract] and all of its elements; the iterator is dropped. *)
Definition zmdd_extract_level (y : nat) : prog :=
  Call (reads (FZmdd, y) ;> zmdd_extract y ;> owned (FZmdd, y) (Loop (walk_next (FZmdd, y))) ;> Step).
(** bss.rs 109-127: [node] belongs to the BDD manager [b], the result to the ZDD manager [z]. *)
Definition bss_minpath (b z : nat) : prog :=
  Call (Step ;> Excl (Arena (FBdd, b)) Step ;>
        Either Step (Shared (Arena (FBdd, b)) (Excl (Arena (FZdd, z)) Step) ;> wrap (FZdd, z))).
(** mss.rs 170-180 and 200-210 with [eval_extreme] (21-54) and [convert]/[convert_rev] (zmdd.rs
    72-106): [node] belongs to the MDD manager [m'], [self] to [m] and [y]. *)
Definition mss_minpath (m m' y : nat) : prog :=
  Call (Step ;> Excl (Arena (FMdd, m')) Step ;> mdd_varorder m ;> Call (Shared (Arena (FMdd, m')) (Loop Step)) ;>
        Either Step (Call (Shared (Arena (FMdd, m')) (Excl (Arena (FZmdd, y)) Step) ;> wrap (FZmdd, y)))).

(** ** The public methods *)
Inductive call :=
  (* BDD manager and handles (bss/src/bdd.rs) *)
  | Bdd_new (b : nat)
  | Bdd_set_gc_threshold (b : nat)
  | Bdd_live_node_count (b : nat)
  | Bdd_size (b : nat)
  | Bdd_gc (b : nat)
  | Bdd_zero (b : nat)
  | Bdd_one (b : nat)
  | Bdd_create_node (b : nat)
  | Bdd_defvar (b : nat)
  | Bdd_get_varorder (b : nat)
  | Bdd_rpn (b : nat)
  | Bdd_and_all (b : nat)
  | Bdd_or_all (b : nat)
  | Bdd_kofn (b : nat)
  | Bdd_clear_cache (b : nat)
  | Bdd_clone (b : nat)
  | Bdd_drop (b : nat)
  | Bdd_get_mgr (b : nat)
  | Bdd_get_id (b : nat)
  | Bdd_get_header (b : nat)
  | Bdd_get_level (b : nat)
  | Bdd_get_label (b : nat)
  | Bdd_get_children (b : nat)
  | Bdd_is_zero (b : nat)
  | Bdd_is_one (b : nat)
  | Bdd_is_undet (b : nat)
  | Bdd_dot (b : nat)
  | Bdd_and (b : nat)
  | Bdd_or (b : nat)
  | Bdd_xor (b : nat)
  | Bdd_not (b : nat)
  | Bdd_ite (b : nat)
  | Bdd_eq (b : nat)
  | Bdd_prob (b : nat)
  | Bdd_bmeas (b : nat)
  | Bdd_dual (b : nat)
  | Bdd_count (b : nat)
  | Bdd_extract (b : nat)
  | Bdd_node_size (b : nat)
  | Bdd_path_len (b : nat)
  | Bdd_path_next (b : nat)
  | Bdd_path_drop (b : nat)
  (* ZDD manager and handles (bss/src/zdd.rs) *)
  | Zdd_new (z : nat)
  | Zdd_empty (z : nat)
  | Zdd_base (z : nat)
  | Zdd_singleton (z : nat)
  | Zdd_from_sets (z : nat)
  | Zdd_set_gc_threshold (z : nat)
  | Zdd_live_node_count (z : nat)
  | Zdd_size (z : nat)
  | Zdd_zero (z : nat)
  | Zdd_one (z : nat)
  | Zdd_clear_cache (z : nat)
  | Zdd_clone (z : nat)
  | Zdd_drop (z : nat)
  | Zdd_get_mgr (z : nat)
  | Zdd_get_id (z : nat)
  | Zdd_get_header (z : nat)
  | Zdd_get_level (z : nat)
  | Zdd_get_label (z : nat)
  | Zdd_get_children (z : nat)
  | Zdd_is_zero (z : nat)
  | Zdd_is_one (z : nat)
  | Zdd_eq (z : nat)
  | Zdd_dot (z : nat)
  | Zdd_union (z : nat)
  | Zdd_intersect (z : nat)
  | Zdd_setdiff (z : nat)
  | Zdd_product (z : nat)
  | Zdd_divide (z : nat)
  | Zdd_count (z : nat)
  | Zdd_extract (z : nat)
  | Zdd_node_size (z : nat)
  | Zdd_path_len (z : nat)
  | Zdd_path_next (z : nat)
  | Zdd_path_drop (z : nat)
  (* Both together (bss/src/bss.rs) *)
  | Bss_new (b z : nat)
  | Bss_defvar (b : nat)
  | Bss_rpn (b : nat)
  | Bss_zero (b : nat)
  | Bss_one (b : nat)
  | Bss_create_node (b : nat)
  | Bss_and_all (b : nat)
  | Bss_or_all (b : nat)
  | Bss_kofn (b : nat)
  | Bss_get_varorder (b : nat)
  | Bss_size (b : nat)
  | Bss_clear_cache (b z : nat)
  | Bss_minpath (b z : nat)
  | Bss_mincut (b z : nat)
  (* MDD manager and handles (mss/src/mdd.rs) *)
  | Mdd_new (m : nat)
  | Mdd_size (m : nat)
  | Mdd_set_gc_threshold (m : nat)
  | Mdd_live_node_count (m : nat)
  | Mdd_gc (m : nat)
  | Mdd_boolean (m : nat)
  | Mdd_value_of (m : nat)
  | Mdd_undet_boolean (m : nat)
  | Mdd_undet_value (m : nat)
  | Mdd_create_node (m : nat)
  | Mdd_defvar (m : nat)
  | Mdd_get_varorder (m : nat)
  | Mdd_rpn (m : nat)
  | Mdd_and_all (m : nat)
  | Mdd_or_all (m : nat)
  | Mdd_min_all (m : nat)
  | Mdd_max_all (m : nat)
  | Mdd_clear_cache (m : nat)
  | Mdd_clone (m : nat)
  | Mdd_drop (m : nat)
  | Mdd_get_mgr (m : nat)
  | Mdd_get_node (m : nat)
  | Mdd_get_id (m : nat)
  | Mdd_get_id2 (m : nat)
  | Mdd_get_header (m : nat)
  | Mdd_get_level (m : nat)
  | Mdd_get_label (m : nat)
  | Mdd_get_children (m : nat)
  | Mdd_is_boolean (m : nat)
  | Mdd_is_value (m : nat)
  | Mdd_is_zero (m : nat)
  | Mdd_is_one (m : nat)
  | Mdd_is_undet (m : nat)
  | Mdd_value (m : nat)
  | Mdd_dot (m : nat)
  | Mdd_add (m : nat)
  | Mdd_sub (m : nat)
  | Mdd_mul (m : nat)
  | Mdd_div (m : nat)
  | Mdd_min (m : nat)
  | Mdd_max (m : nat)
  | Mdd_eq (m : nat)
  | Mdd_ne (m : nat)
  | Mdd_lt (m : nat)
  | Mdd_le (m : nat)
  | Mdd_gt (m : nat)
  | Mdd_ge (m : nat)
  | Mdd_and (m : nat)
  | Mdd_or (m : nat)
  | Mdd_xor (m : nat)
  | Mdd_not (m : nat)
  | Mdd_ite (m : nat)
  | Mdd_prob (m : nat)
  | Mdd_bmeas (m : nat)
  | Mdd_count (m : nat)
  | Mdd_extract (m : nat)
  | Mdd_node_size (m : nat)
  | Mdd_path_len (m : nat)
  | Mdd_path_next (m : nat)
  | Mdd_path_drop (m : nat)
  (* ZMDD manager and handles (mss/src/zmdd.rs) *)
  | Zmdd_new (y : nat)
  | Zmdd_size (y : nat)
  | Zmdd_clear_cache (y : nat)
  | Zmdd_clone (y : nat)
  | Zmdd_drop (y : nat)
  | Zmdd_get_mgr (y : nat)
  | Zmdd_get_id (y : nat)
  | Zmdd_is_cut (y : nat)
  | Zmdd_vars (y : nat)
  | Zmdd_labels (y : nat)
  | Zmdd_extract_level (y : nat)
  | Zmdd_intersect (y : nat)
  | Zmdd_setdiff (y : nat)
  | Zmdd_count (y : nat)
  | Zmdd_dot (y : nat)
  | Zmdd_extract (y : nat)
  | Zmdd_path_next (y : nat)
  | Zmdd_path_drop (y : nat)
  (* Both together (mss/src/mss.rs) *)
  | Mss_new (m y : nat)
  | Mss_defvar (m : nat)
  | Mss_rpn (m : nat)
  | Mss_value_of (m : nat)
  | Mss_boolean (m : nat)
  | Mss_undet_boolean (m : nat)
  | Mss_undet_value (m : nat)
  | Mss_create_node (m : nat)
  | Mss_and_all (m : nat)
  | Mss_or_all (m : nat)
  | Mss_min_all (m : nat)
  | Mss_max_all (m : nat)
  | Mss_get_varorder (m : nat)
  | Mss_size (m : nat)
  | Mss_set_gc_threshold (m : nat)
  | Mss_live_node_count (m : nat)
  | Mss_gc (m : nat)
  | Mss_clear_cache (m y : nat)
  | Mss_minpath (m m' y : nat)
  | Mss_mincut (m m' y : nat).

(** The body of each method; the numbers are lines of the file named above the group. *)
Definition body (k : call) : prog :=
  match k with
  (* BDD manager and handles (bss/src/bdd.rs) *)
  | Bdd_new _ => plain (* 122-132 *)
  | Bdd_set_gc_threshold b => set_threshold (FBdd, b) (* 137-141 *)
  | Bdd_live_node_count b => reads (FBdd, b) (* 144-146 *)
  | Bdd_size b => reads (FBdd, b) (* 157-159 *)
  | Bdd_gc b => collect (FBdd, b) (* 168-174 *)
  | Bdd_zero b => reads_wrap (FBdd, b) (* 177-180 *)
  | Bdd_one b => reads_wrap (FBdd, b) (* 183-186 *)
  | Bdd_create_node b => writes_wrap (FBdd, b) (* 188-191 *)
  | Bdd_defvar b => defvar (FBdd, b) (* 194-209 *)
  | Bdd_get_varorder b => Call (Shared (Arena (FBdd, b)) (Loop Step)) (* 211-221 *)
  | Bdd_rpn b => bdd_rpn b (* 264-334 *)
  | Bdd_and_all b => writes_wrap (FBdd, b) (* 336-340 *)
  | Bdd_or_all b => writes_wrap (FBdd, b) (* 342-346 *)
  | Bdd_kofn b => writes_wrap (FBdd, b) (* 348-352 *)
  | Bdd_clear_cache b => writes (FBdd, b) (* 354-356 *)
  | Bdd_clone b => pin (FBdd, b) (* 100-104 *)
  | Bdd_drop b => unpin (FBdd, b) (* 106-118 *)
  | Bdd_get_mgr _ => plain (* 360-362 *)
  | Bdd_get_id _ => plain (* 364-366 *)
  | Bdd_get_header b => reads (FBdd, b) (* 368-373 *)
  | Bdd_get_level b => reads (FBdd, b) (* 375-382 *)
  | Bdd_get_label b => reads (FBdd, b) (* 384-391 *)
  | Bdd_get_children b => children (FBdd, b) (* 393-406 *)
  | Bdd_is_zero b => reads (FBdd, b) (* 408-416 *)
  | Bdd_is_one b => reads (FBdd, b) (* 418-426 *)
  | Bdd_is_undet b => reads (FBdd, b) (* 428-436 *)
  | Bdd_dot b => reads (FBdd, b) (* 438-442 *)
  | Bdd_and b => op (FBdd, b) (* 444-448 *)
  | Bdd_or b => op (FBdd, b) (* 450-454 *)
  | Bdd_xor b => op (FBdd, b) (* 456-460 *)
  | Bdd_not b => op (FBdd, b) (* 462-466 *)
  | Bdd_ite b => op (FBdd, b) (* 468-472 *)
  | Bdd_eq _ => plain (* 474-476 *)
  | Bdd_prob b => writes (FBdd, b) (* 478-491 *)
  | Bdd_bmeas b => writes (FBdd, b) (* 493-499 *)
  | Bdd_dual b => op (FBdd, b) (* 508-516 *)
  | Bdd_count b => writes (FBdd, b) (* 518-522 *)
  | Bdd_extract b => bdd_extract b (* 524-526; bss/src/bdd_path.rs 19-41 *)
  | Bdd_node_size b => reads (FBdd, b) (* 528-534 *)
  | Bdd_path_len b => Call (writes (FBdd, b)) (* bdd_path.rs 43-45 *)
  | Bdd_path_next b => bdd_next b (* bdd_path.rs 51-124 *)
  | Bdd_path_drop b => unpin (FBdd, b) (* bdd_path.rs 10-16 *)
  (* ZDD manager and handles (bss/src/zdd.rs) *)
  | Zdd_new _ => plain (* 54-64 *)
  | Zdd_empty z => Call (reads_wrap (FZdd, z)) (* 67-69 *)
  | Zdd_base z => Call (reads_wrap (FZdd, z)) (* 72-74 *)
  | Zdd_singleton z => zdd_singleton z (* 78-94 *)
  | Zdd_from_sets z => zdd_from_sets z (* 99-110 *)
  | Zdd_set_gc_threshold z => set_threshold (FZdd, z) (* 125-129 *)
  | Zdd_live_node_count z => reads (FZdd, z) (* 131-133 *)
  | Zdd_size z => reads (FZdd, z) (* 135-137 *)
  | Zdd_zero z => reads_wrap (FZdd, z) (* 139-142 *)
  | Zdd_one z => reads_wrap (FZdd, z) (* 144-147 *)
  | Zdd_clear_cache z => writes (FZdd, z) (* 149-151 *)
  | Zdd_clone z => pin (FZdd, z) (* 308-312 *)
  | Zdd_drop z => unpin (FZdd, z) (* 314-326 *)
  | Zdd_get_mgr _ => plain (* 186-188 *)
  | Zdd_get_id _ => plain (* 190-192 *)
  | Zdd_get_header z => reads (FZdd, z) (* 194-198 *)
  | Zdd_get_level z => reads (FZdd, z) (* 200-205 *)
  | Zdd_get_label z => reads (FZdd, z) (* 207-212 *)
  | Zdd_get_children z => children (FZdd, z) (* 214-225 *)
  | Zdd_is_zero z => reads (FZdd, z) (* 227-231 *)
  | Zdd_is_one z => reads (FZdd, z) (* 233-237 *)
  | Zdd_eq _ => plain (* 239-241 *)
  | Zdd_dot z => reads (FZdd, z) (* 245-249 *)
  | Zdd_union z => op (FZdd, z) (* 252-256 *)
  | Zdd_intersect z => op (FZdd, z) (* 259-263 *)
  | Zdd_setdiff z => op (FZdd, z) (* 266-270 *)
  | Zdd_product z => op (FZdd, z) (* 273-277 *)
  | Zdd_divide z => op (FZdd, z) (* 280-284 *)
  | Zdd_count z => reads (FZdd, z) (* 287-292 *)
  | Zdd_extract z => Call (pin (FZdd, z) ;> Cleanup Step (unpin (FZdd, z))) (* 295-297; bss/src/zdd_path.rs 24-34 *)
  | Zdd_node_size z => reads (FZdd, z) (* 299-305 *)
  | Zdd_path_len z => Call (reads (FZdd, z)) (* zdd_path.rs 36-38 *)
  | Zdd_path_next z => walk_next (FZdd, z) (* zdd_path.rs 44-79 *)
  | Zdd_path_drop z => unpin (FZdd, z) (* zdd_path.rs 16-21 *)
  (* Both together (bss/src/bss.rs) *)
  | Bss_new _ _ => plain (* 34-39 *)
  | Bss_defvar b => Call (defvar (FBdd, b)) (* 53-55 *)
  | Bss_rpn b => Call (bdd_rpn b) (* 57-59 *)
  | Bss_zero b => Call (reads_wrap (FBdd, b)) (* 61-63 *)
  | Bss_one b => Call (reads_wrap (FBdd, b)) (* 65-67 *)
  | Bss_create_node b => Call (writes_wrap (FBdd, b)) (* 69-71 *)
  | Bss_and_all b => Call (writes_wrap (FBdd, b)) (* 73-75 *)
  | Bss_or_all b => Call (writes_wrap (FBdd, b)) (* 77-79 *)
  | Bss_kofn b => Call (writes_wrap (FBdd, b)) (* 81-83 *)
  | Bss_get_varorder b => Call (Call (Shared (Arena (FBdd, b)) (Loop Step))) (* 85-87 *)
  | Bss_size b => Call (reads (FBdd, b)) (* 89-91 *)
  | Bss_clear_cache b z => Call (writes (FBdd, b) ;> writes (FZdd, z)) (* 93-96 *)
  | Bss_minpath b z => bss_minpath b z (* 109-127 *)
  | Bss_mincut b z => Call (op (FBdd, b) ;> owned (FBdd, b) (bss_minpath b z)) (* 134-136 *)
  (* MDD manager and handles (mss/src/mdd.rs) *)
  | Mdd_new _ => plain (* 127-137 *)
  | Mdd_size m => reads (FMdd, m) (* 139-141 *)
  | Mdd_set_gc_threshold m => set_threshold (FMdd, m) (* 146-150 *)
  | Mdd_live_node_count m => reads (FMdd, m) (* 153-155 *)
  | Mdd_gc m => collect (FMdd, m) (* 172-178 *)
  | Mdd_boolean m => reads_wrap (FMdd, m) (* 180-190 *)
  | Mdd_value_of m => writes_wrap (FMdd, m) (* 192-195 *)
  | Mdd_undet_boolean m => reads_wrap (FMdd, m) (* 197-200 *)
  | Mdd_undet_value m => reads_wrap (FMdd, m) (* 202-205 *)
  | Mdd_create_node m => writes_wrap (FMdd, m) (* 207-211 *)
  | Mdd_defvar m => defvar (FMdd, m) (* 213-228 *)
  | Mdd_get_varorder m => mdd_varorder m (* 230-240 *)
  | Mdd_rpn m => mdd_rpn m (* 297-470 *)
  | Mdd_and_all m => writes_wrap (FMdd, m) (* 472-482 *)
  | Mdd_or_all m => writes_wrap (FMdd, m) (* 484-494 *)
  | Mdd_min_all m => writes_wrap (FMdd, m) (* 496-506 *)
  | Mdd_max_all m => writes_wrap (FMdd, m) (* 508-518 *)
  | Mdd_clear_cache m => writes (FMdd, m) (* 520-523 *)
  | Mdd_clone m => pin (FMdd, m) (* 88-92 *)
  | Mdd_drop m => unpin (FMdd, m) (* 94-106 *)
  | Mdd_get_mgr _ => plain (* 530-532 *)
  | Mdd_get_node _ => plain (* 534-536 *)
  | Mdd_get_id _ => plain (* 538-543 *)
  | Mdd_get_id2 _ => plain (* 545-550 *)
  | Mdd_get_header m => reads (FMdd, m) (* 552-567 *)
  | Mdd_get_level m => reads (FMdd, m) (* 569-588 *)
  | Mdd_get_label m => reads (FMdd, m) (* 590-609 *)
  | Mdd_get_children m => children (FMdd, m) (* 611-660 *)
  | Mdd_is_boolean _ => plain (* 662-667 *)
  | Mdd_is_value _ => plain (* 669-674 *)
  | Mdd_is_zero m => Call (Either Step (reads (FMdd, m))) (* 676-691 *)
  | Mdd_is_one m => Call (Either Step (reads (FMdd, m))) (* 693-708 *)
  | Mdd_is_undet m => Call (Either Step (reads (FMdd, m))) (* 710-725 *)
  | Mdd_value m => Call (Either Step (reads (FMdd, m))) (* 727-740 *)
  | Mdd_dot m => reads (FMdd, m) (* 742-746 *)
  | Mdd_add m => op (FMdd, m) (* 748-754 *)
  | Mdd_sub m => op (FMdd, m) (* 756-762 *)
  | Mdd_mul m => op (FMdd, m) (* 764-770 *)
  | Mdd_div m => op (FMdd, m) (* 772-778 *)
  | Mdd_min m => op (FMdd, m) (* 780-786 *)
  | Mdd_max m => op (FMdd, m) (* 788-794 *)
  | Mdd_eq m => op (FMdd, m) (* 796-802 *)
  | Mdd_ne m => op (FMdd, m) (* 804-810 *)
  | Mdd_lt m => op (FMdd, m) (* 812-818 *)
  | Mdd_le m => op (FMdd, m) (* 820-826 *)
  | Mdd_gt m => op (FMdd, m) (* 828-834 *)
  | Mdd_ge m => op (FMdd, m) (* 836-842 *)
  | Mdd_and m => op (FMdd, m) (* 844-850 *)
  | Mdd_or m => op (FMdd, m) (* 852-858 *)
  | Mdd_xor m => op (FMdd, m) (* 860-866 *)
  | Mdd_not m => op (FMdd, m) (* 868-874 *)
  | Mdd_ite m => op (FMdd, m) (* 876-882 *)
  | Mdd_prob m => writes (FMdd, m) (* 884-898 *)
  | Mdd_bmeas m => writes (FMdd, m) (* 911-925 *)
  | Mdd_count m => reads (FMdd, m) (* 930-934 *)
  | Mdd_extract m => mdd_extract m (* 936-938; mss/src/mdd_path.rs 24-60 *)
  | Mdd_node_size m => reads (FMdd, m) (* 940-944 *)
  | Mdd_path_len m => Call (reads (FMdd, m)) (* mdd_path.rs 62-64 *)
  | Mdd_path_next m => Call (bdd_like_next (FMdd, m)) (* mdd_path.rs 73-82, 89-135, 137-188 *)
  | Mdd_path_drop m => unpin (FMdd, m) (* mdd_path.rs 11-18 *)
  (* ZMDD manager and handles (mss/src/zmdd.rs) *)
  | Zmdd_new _ => plain (* 53-62 *)
  | Zmdd_size y => reads (FZmdd, y) (* 108-110 *)
  | Zmdd_clear_cache y => writes (FZmdd, y) (* 112-114 *)
  | Zmdd_clone y => pin (FZmdd, y) (* 305-318 *)
  | Zmdd_drop y => unpin (FZmdd, y) (* 320-332 *)
  | Zmdd_get_mgr _ => plain (* 179-181 *)
  | Zmdd_get_id _ => plain (* 183-185 *)
  | Zmdd_is_cut _ => plain (* 190-192 *)
  | Zmdd_vars _ => plain (* 196-198 *)
  | Zmdd_labels y => reads (FZmdd, y) (* 204-223 *)
  | Zmdd_extract_level y => zmdd_extract_level y (* 234-255 *)
  | Zmdd_intersect y => op (FZmdd, y) (* 258-262 *)
  | Zmdd_setdiff y => op (FZmdd, y) (* 265-269 *)
  | Zmdd_count y => reads (FZmdd, y) (* 273-278 *)
  | Zmdd_dot y => reads (FZmdd, y) (* 283-287 *)
  | Zmdd_extract y => zmdd_extract y (* 300-302, 389-406 *)
  | Zmdd_path_next y => walk_next (FZmdd, y) (* 415-457 *)
  | Zmdd_path_drop y => unpin (FZmdd, y) (* 374-383 *)
  (* Both together (mss/src/mss.rs) *)
  | Mss_new _ _ => plain (* 66-71 *)
  | Mss_defvar m => Call (defvar (FMdd, m)) (* 85-87 *)
  | Mss_rpn m => Call (mdd_rpn m) (* 89-91 *)
  | Mss_value_of m => Call (writes_wrap (FMdd, m)) (* 93-95 *)
  | Mss_boolean m => Call (reads_wrap (FMdd, m)) (* 97-99 *)
  | Mss_undet_boolean m => Call (reads_wrap (FMdd, m)) (* 101-103 *)
  | Mss_undet_value m => Call (reads_wrap (FMdd, m)) (* 105-107 *)
  | Mss_create_node m => Call (writes_wrap (FMdd, m)) (* 109-111 *)
  | Mss_and_all m => Call (writes_wrap (FMdd, m)) (* 113-115 *)
  | Mss_or_all m => Call (writes_wrap (FMdd, m)) (* 117-119 *)
  | Mss_min_all m => Call (writes_wrap (FMdd, m)) (* 121-123 *)
  | Mss_max_all m => Call (writes_wrap (FMdd, m)) (* 125-127 *)
  | Mss_get_varorder m => Call (mdd_varorder m) (* 129-131 *)
  | Mss_size m => Call (reads (FMdd, m)) (* 133-135 *)
  | Mss_set_gc_threshold m => Call (set_threshold (FMdd, m)) (* 137-139 *)
  | Mss_live_node_count m => Call (reads (FMdd, m)) (* 141-143 *)
  | Mss_gc m => Call (collect (FMdd, m)) (* 145-147 *)
  | Mss_clear_cache m y => Call (writes (FMdd, m) ;> writes (FZmdd, y)) (* 149-152 *)
  | Mss_minpath m m' y => mss_minpath m m' y (* 170-180 *)
  | Mss_mincut m m' y => mss_minpath m m' y (* 200-210 *)
  end.
