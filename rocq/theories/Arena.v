(** Model of the node store shared (by copy) by all five managers: a vector of nodes addressed by id,
    a unique table, a free list, and a non-compacting mark-and-sweep collector.
    The managers' own source lines are cited where each manager instantiates these functions. *)
From Verif Require Import Prelude.

(** common/src/nodes.rs:35-51  NodeHeader *)
Record header := Header
  { h_id : nat; h_level : nat; h_label : String.string; h_edges : nat }.

(** bddcore/src/nodes.rs:12-57, mddcore/src/nodes.rs: a terminal carrying [T], or a non-terminal with its
    header id and child ids.  The node's own id field is not stored: it always equals its index
    (debug_assert, e.g. bddcore/src/bdd.rs:148). *)
Inductive node (T : Type) :=
  | Term (t : T)
  | NT (h : nat) (cs : list nat).
Arguments Term {T}.
Arguments NT {T}.

(** e.g. bddcore/src/bdd.rs:43-64.  [ar_free] lists the free list with the next slot to pop first. *)
Record arena (T : Type) := Arena
  { ar_headers : list header;
    ar_nodes : list (node T);
    ar_utable : gmap (nat * list nat) nat;
    ar_free : list nat }.
Arguments Arena {T}.
Arguments ar_headers {T}.
Arguments ar_nodes {T}.
Arguments ar_utable {T}.
Arguments ar_free {T}.

Section arena.
Context {T : Type}.
Implicit Types (a : arena T) (n : node T).

(** create_header, e.g. bddcore/src/bdd.rs:225-231 *)
Definition ar_create_header a (level : nat) (label : String.string) (edges : nat) : arena T * nat :=
  let hid := length (ar_headers a) in
  (Arena (ar_headers a ++ [Header hid level label edges]) (ar_nodes a) (ar_utable a) (ar_free a), hid).

(** new_nonterminal / alloc, e.g. bddcore/src/bdd.rs:136-150: recycle a free slot or push *)
Definition ar_alloc a n : arena T * nat :=
  match ar_free a with
  | slot :: rest =>
      (Arena (ar_headers a) (<[slot := n]> (ar_nodes a)) (ar_utable a) rest, slot)
  | [] =>
      (Arena (ar_headers a) (ar_nodes a ++ [n]) (ar_utable a) [], length (ar_nodes a))
  end.

(** The unique-table part of create_node, e.g. bddcore/src/bdd.rs:237-243 *)
Definition ar_hashcons a (h : nat) (cs : list nat) : arena T * nat :=
  match ar_utable a !! (h, cs) with
  | Some id => (a, id)
  | None =>
      let '(a', id) := ar_alloc a (NT h cs) in
      (Arena (ar_headers a') (ar_nodes a') (<[(h, cs) := id]> (ar_utable a')) (ar_free a'), id)
  end.

(** node_level, e.g. bddcore/src/bdd.rs:218-223.  The sentinel [Level::MAX] of terminals is the inner
    [None]; the outer [None] is an index panic. *)
Definition ar_node_level a (id : nat) : option (option nat) :=
  match ar_nodes a !! id with
  | None => None
  | Some (Term _) => Some None
  | Some (NT h _) => hd ← ar_headers a !! h; Some (Some (h_level hd))
  end.

(** ** gc, e.g. bddcore/src/bdd.rs:165-204 *)

Definition node_children n : list nat :=
  match n with Term _ => [] | NT _ cs => cs end.

(** The marking loop; the head of [stack] is the top of the Rust stack.
    [None] = index panic, or fuel exhausted. *)
Fixpoint ar_mark (fuel : nat) (ns : list (node T)) (live : list bool) (stack : list nat)
  : option (list bool) :=
  match stack with
  | [] => Some live
  | id :: rest =>
      match fuel with
      | O => None
      | S k =>
          b ← live !! id;
          if b : bool then ar_mark k ns live rest
          else n ← ns !! id;
               ar_mark k ns (<[id := true]> live) (rev (node_children n) ++ rest)
      end
  end.

Definition ar_mark_fuel (ns : list (node T)) (roots : list nat) : nat :=
  length roots + sum_list (length ∘ node_children <$> ns).

(** [utable.retain(|_, v| live\[v\])] *)
Definition ar_retain (live : list bool) (t : gmap (nat * list nat) nat)
  : option (gmap (nat * list nat) nat) :=
  if decide (map_Forall (λ _ v, v < length live) t)
  then Some (filter (λ kv, live !! kv.2 = Some true) t) else None.

(** the rebuilt free list in push order *)
Fixpoint dead_from (i : nat) (live : list bool) : list nat :=
  match live with
  | [] => []
  | b :: l => if b : bool then dead_from (S i) l else i :: dead_from (S i) l
  end.

(** gc; [base] are the always-live terminals.  Also returns the liveness vector (used to sweep the memo
    tables). *)
Definition ar_gc a (base roots : list nat) : option (arena T * list bool) :=
  let n := length (ar_nodes a) in
  let live := foldl (λ l b, <[b := true]> l) (replicate n false) base in
  let roots := filter (λ r, r < n) roots in
  live ← ar_mark (ar_mark_fuel (ar_nodes a) roots) (ar_nodes a) live (rev roots);
  ut ← ar_retain live (ar_utable a);
  Some (Arena (ar_headers a) (ar_nodes a) ut (rev (dead_from 0 live)), live).

(** live_node_count, e.g. bddcore/src/bdd.rs:208-210 *)
Definition ar_live_count a : nat := length (ar_nodes a) - length (ar_free a).

End arena.
