(** Model of the reference-counting wrapper BddMgr / BddNode.  Source: bss/src/bdd.rs.
    A handle (BddNode) is its node id; the weak back-pointers only matter once the manager
    itself has been dropped (Life.v). *)
From stdpp Require Import strings.
From Verif Require Import Prelude ComputeCache Arena Bdd BssAlg.

(** bdd.rs:15 *)
Definition GC_FLOOR : nat := Nat.pow 2 16.

(** bdd.rs:21-28 (GcState) and 56-60 (BddMgr).  Counters are unbounded ([u32] overflow needs 2^32 live
    handles of one node). *)
Record bmgr := BMgr
  { w_bdd : bdd; w_roots : gmap nat nat; w_thr : nat; w_floor : nat; w_vars : gmap string nat }.

Definition with_bdd (w : bmgr) (b : bdd) : bmgr := BMgr b (w_roots w) (w_thr w) (w_floor w) (w_vars w).

(** bdd.rs:122-132 *)
Definition w_new : bmgr := BMgr bdd_new ∅ GC_FLOOR GC_FLOOR ∅.

(** bdd.rs:83-85: [*roots.entry(node).or_insert(0) += 1] *)
Definition pin (r : gmap nat nat) (id : nat) : gmap nat nat := <[id := S (default 0 (r !! id))]> r.
(** bdd.rs:106-118: decrement and remove at zero.  (A stored count is never 0, so [pred] does not
    underflow.) *)
Definition unpin (r : gmap nat nat) (id : nat) : gmap nat nat :=
  match r !! id with
  | None => r
  | Some c => if Nat.pred c =? 0 then delete id r else <[id := Nat.pred c]> r
  end.
Definition w_pin (w : bmgr) (id : nat) : bmgr :=
  BMgr (w_bdd w) (pin (w_roots w) id) (w_thr w) (w_floor w) (w_vars w).
(** Clone for BddNode, bdd.rs:100-104 *)
Definition w_clone := w_pin.
(** Drop for BddNode, bdd.rs:106-118 *)
Definition w_drop (w : bmgr) (id : nat) : bmgr :=
  BMgr (w_bdd w) (unpin (w_roots w) id) (w_thr w) (w_floor w) (w_vars w).

(** [roots.keys().copied().collect()]; HashMap order is arbitrary, the collector's result does not
    depend on it (Arena.v marks a set). *)
Definition root_keys (r : gmap nat nat) : list nat := (map_to_list r).*1.

(** bdd.rs:35-47 ([saturating_mul] is plain multiplication here) *)
Definition maybe_gc (w : bmgr) : option bmgr :=
  if bdd_live_node_count (w_bdd w) <? w_thr w then Some w
  else
    '(b, _) ← bdd_gc (w_bdd w) (root_keys (w_roots w));
    Some (BMgr b (w_roots w) ((bdd_live_node_count b * 2) `max` w_floor w) (w_floor w) (w_vars w)).

(** wrap, bdd.rs:150-154, and rewrap, bdd.rs:91-97: pin the result, then let the collector run *)
Definition w_wrap (w : bmgr) (id : nat) : option (bmgr * nat) :=
  w ← maybe_gc (w_pin w id); Some (w, id).
(** run an operation on the inner manager and wrap its result *)
Definition w_op (w : bmgr) (r : option (bdd * nat)) : option (bmgr * nat) :=
  '(b, id) ← r; w_wrap (with_bdd w b) id.

(** bdd.rs:177-191 *)
Definition w_zero (w : bmgr) := w_wrap w bdd_zero.
Definition w_one (w : bmgr) := w_wrap w bdd_one.
Definition w_create_node (w : bmgr) (h x0 x1 : nat) := w_op w (Some (bdd_create_node (w_bdd w) h x0 x1)).
(** BddNode operators, bdd.rs:444-472 *)
Definition w_and (w : bmgr) (f g : nat) := w_op w (bdd_and (w_bdd w) f g).
Definition w_or (w : bmgr) (f g : nat) := w_op w (bdd_or (w_bdd w) f g).
Definition w_xor (w : bmgr) (f g : nat) := w_op w (bdd_xor (w_bdd w) f g).
Definition w_not (w : bmgr) (f : nat) := w_op w (bdd_not (w_bdd w) f).
Definition w_ite (w : bmgr) (f g h : nat) := w_op w (bdd_ite (w_bdd w) f g h).
(** bdd.rs:336-352 *)
Definition w_and_list (w : bmgr) (xs : list nat) := w_op w (kofn_and (w_bdd w) xs).
Definition w_or_list (w : bmgr) (xs : list nat) := w_op w (kofn_or (w_bdd w) xs).
Definition w_kofn (w : bmgr) (k : nat) (xs : list nat) := w_op w (kofn (w_bdd w) k xs).
(** bdd.rs:508-516 *)
Definition w_dual (w : bmgr) (f : nat) := w_op w (bdd_dual (w_bdd w) f).

(** bdd.rs:354-356 *)
Definition w_clear_cache (w : bmgr) : bmgr := with_bdd w (bdd_clear_cache (w_bdd w)).
(** bdd.rs:137-141 *)
Definition w_set_threshold (w : bmgr) (t : nat) : bmgr := BMgr (w_bdd w) (w_roots w) t t (w_vars w).
(** bdd.rs:168-174 *)
Definition w_gc (w : bmgr) (keep : list nat) : option (bmgr * nat) :=
  '(b, n) ← bdd_gc (w_bdd w) (root_keys (w_roots w) ++ keep); Some (with_bdd w b, n).

(** bdd.rs:393-406: inner [None] for a terminal *)
Definition w_children (w : bmgr) (f : nat) : option (bmgr * option (nat * nat)) :=
  n ← ar_nodes (b_ar (w_bdd w)) !! f;
  match n with
  | Term _ => Some (w, None)
  | NT _ cs => '(f0, f1) ← edges2 cs; Some (w_pin (w_pin w f0) f1, Some (f0, f1))
  end.
(** bdd.rs:383-391 *)
Definition w_label (w : bmgr) (f : nat) : option string :=
  n ← ar_nodes (b_ar (w_bdd w)) !! f;
  match n with
  | Term _ => None
  | NT h _ => hd ← ar_headers (b_ar (w_bdd w)) !! h; Some (h_label hd)
  end.

(** bdd.rs:194-209 *)
Definition w_defvar (w : bmgr) (x : string) : bmgr * nat :=
  match w_vars w !! x with
  | Some id => (w_pin w id, id)
  | None =>
      let level := size (w_vars w) in
      let '(b, h) := bdd_create_header (w_bdd w) level x in
      let '(b, id) := bdd_create_node b h bdd_zero bdd_one in
      (* bnode, and its clone stored in vars *)
      let r := pin (pin (w_roots w) id) id in
      (BMgr b r (w_thr w) (w_floor w) (<[x := id]> (w_vars w)), id)
  end.

(** bdd.rs:211-221; the map is visited in some order *)
Fixpoint varorder_go (b : bdd) (acc : list string) (vs : list (string * nat)) : option (list string) :=
  match vs with
  | [] => Some acc
  | (k, v) :: vs =>
      n ← ar_nodes (b_ar b) !! v;
      match n with
      | Term _ => None
      | NT h _ =>
          l ← hdr_level (b_ar b) h;
          if l <? length acc then varorder_go b (<[l := k]> acc) vs else None
      end
  end.
Definition w_varorder (w : bmgr) : option (list string) :=
  varorder_go (w_bdd w) (replicate (size (w_vars w)) "?"%string) (map_to_list (w_vars w)).

(** ** rpn, bdd.rs:264-334 *)
(** [split_whitespace]: maximal runs of non-white-space characters.  Characters are bytes; the
    non-ASCII Unicode white space that Rust also splits on is not modelled. *)
Definition is_white (c : Ascii.ascii) : bool :=
  let n := Ascii.nat_of_ascii c in (n =? 32) || ((9 <=? n) && (n <=? 13)).
Fixpoint split_go (s cur : string) : list string :=
  let flush := if String.eqb cur "" then [] else [cur] in
  match s with
  | EmptyString => flush
  | String c s => if is_white c then flush ++ split_go s "" else split_go s (cur +:+ String c "")
  end.
Definition split_whitespace (s : string) : list string := split_go s "".

(** [token.starts_with(p) && token.ends_with(")")], with the text in between
    ([&token\[5..token.len() - 1\]]) *)
Definition paren_arg (p token : string) : option string :=
  if String.prefix p token && (String.eqb (String.substring (String.length token - 1) 1 token) ")")
  then Some (String.substring 5 (String.length token - 1 - 5) token) else None.

Record rpn_st := RpnSt { rs_w : bmgr; rs_stack : list nat; rs_saved : gmap string nat }.

Inductive rpn_res (A : Type) := RpnOk (a : A) | RpnErr.
Arguments RpnOk {A}.
Arguments RpnErr {A}.

(** [stack.pop().unwrap()] twice, then push the result *)
Definition rpn_bin (s : rpn_st) (op : bdd → nat → nat → option (bdd * nat)) : option rpn_st :=
  match rs_stack s with
  | rhs :: lhs :: st =>
      '(b, r) ← op (w_bdd (rs_w s)) lhs rhs;
      Some (RpnSt (with_bdd (rs_w s) b) (r :: st) (rs_saved s))
  | _ => None
  end.

(** one loop iteration; outer [None] = panic, [RpnErr] = [return Err(..)] (manager as left by the
    earlier tokens) *)
Definition rpn_step (s : rpn_st) (token : string) : option (rpn_st * bool) :=
  let push s id := RpnSt (rs_w s) (id :: rs_stack s) (rs_saved s) in
  let ok (o : option rpn_st) := s ← o; Some (s, true) in
  if String.eqb token "0" || String.eqb token "False" then Some (push s bdd_zero, true)
  else if String.eqb token "1" || String.eqb token "True" then Some (push s bdd_one, true)
  else if String.eqb token "&" then ok (rpn_bin s bdd_and)
  else if String.eqb token "|" then ok (rpn_bin s bdd_or)
  else if String.eqb token "^" then ok (rpn_bin s bdd_xor)
  else if String.eqb token "~" then
    match rs_stack s with
    | x :: st => '(b, r) ← bdd_not (w_bdd (rs_w s)) x;
        Some (RpnSt (with_bdd (rs_w s) b) (r :: st) (rs_saved s), true)
    | _ => None
    end
  else if String.eqb token "?" then
    match rs_stack s with
    | else_ :: then_ :: cond :: st => '(b, r) ← bdd_ite (w_bdd (rs_w s)) cond then_ else_;
        Some (RpnSt (with_bdd (rs_w s) b) (r :: st) (rs_saved s), true)
    | _ => None
    end
  else match paren_arg "save(" token with
  | Some name =>
      match rs_stack s with
      | x :: st => Some (RpnSt (rs_w s) (x :: st) (<[name := x]> (rs_saved s)), true)
      | [] => Some (s, false)
      end
  | None =>
      match paren_arg "load(" token with
      | Some name =>
          match rs_saved s !! name with
          | Some x => Some (push s x, true)
          | None => Some (s, false)
          end
      | None =>
          (* [node], a fresh handle, is dropped at the end of the arm *)
          let '(w, id) := w_defvar (rs_w s) token in
          Some (RpnSt (w_drop w id) (id :: rs_stack s) (rs_saved s), true)
      end
  end.

Fixpoint rpn_loop (s : rpn_st) (tokens : list string) : option (rpn_st * bool) :=
  match tokens with
  | [] => Some (s, true)
  | t :: ts => '(s, go) ← rpn_step s t; if go : bool then rpn_loop s ts else Some (s, false)
  end.

Definition w_rpn_tokens (w : bmgr) (tokens : list string) : option (bmgr * rpn_res nat) :=
  '(s, go) ← rpn_loop (RpnSt w [] ∅) tokens;
  if go : bool then
    match rs_stack s with
    | [x] => '(w, id) ← w_wrap (rs_w s) x; Some (w, RpnOk id)
    | _ => Some (rs_w s, RpnErr)
    end
  else Some (rs_w s, RpnErr).

Definition w_rpn (w : bmgr) (expr : string) : option (bmgr * rpn_res nat) :=
  w_rpn_tokens w (split_whitespace expr).
