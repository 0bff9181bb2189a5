(** Model of the reference-counting wrapper ZddMgr / ZddNode and of the joint manager BssMgr.
    Sources: bss/src/zdd.rs, bss/src/bss.rs.
    A handle (ZddNode) is its node id; the weak back-pointers are not modelled.  [None] = panic. *)
From stdpp Require Import strings.
From Verif Require Import Prelude ComputeCache Arena Bdd BssAlg BssMgr Zdd ZddAlg.

(** zdd.rs:16-20 (GcState) and 45-51 (ZddMgr).  Counters are unbounded. *)
Record zmgr := ZMgr
  { y_zdd : zdd; y_roots : gmap nat nat; y_thr : nat; y_floor : nat; y_vars : gmap string nat }.
Definition with_zdd (w : zmgr) (z : zdd) : zmgr := ZMgr z (y_roots w) (y_thr w) (y_floor w) (y_vars w).

(** zdd.rs:54-64; GC_FLOOR (zdd.rs:11) is that of bdd.rs:15 *)
Definition y_new : zmgr := ZMgr zdd_new ∅ GC_FLOOR GC_FLOOR ∅.

(** from_weak, zdd.rs:167-176 *)
Definition y_pin (w : zmgr) (id : nat) : zmgr :=
  ZMgr (y_zdd w) (pin (y_roots w) id) (y_thr w) (y_floor w) (y_vars w).
(** Clone for ZddNode, zdd.rs:308-312 *)
Definition y_clone := y_pin.
(** Drop for ZddNode, zdd.rs:314-326 *)
Definition y_drop (w : zmgr) (id : nat) : zmgr :=
  ZMgr (y_zdd w) (unpin (y_roots w) id) (y_thr w) (y_floor w) (y_vars w).

(** maybe_gc, zdd.rs:22-34 *)
Definition y_maybe_gc (w : zmgr) : option zmgr :=
  if zdd_live_node_count (y_zdd w) <? y_thr w then Some w
  else
    '(z, _) ← zdd_gc (y_zdd w) (root_keys (y_roots w));
    Some (ZMgr z (y_roots w) ((zdd_live_node_count z * 2) `max` y_floor w) (y_floor w) (y_vars w)).
(** wrap, zdd.rs:119-123, and rewrap, zdd.rs:178-184 *)
Definition y_wrap (w : zmgr) (id : nat) : option (zmgr * nat) :=
  w ← y_maybe_gc (y_pin w id); Some (w, id).
Definition y_wrapped (w : zmgr) (r : option (zdd * nat)) : option (zmgr * nat) :=
  '(z, id) ← r; y_wrap (with_zdd w z) id.

(** zero / empty, zdd.rs:67-69, 139-142; one / base, zdd.rs:72-74, 144-147 *)
Definition y_empty (w : zmgr) := y_wrap w zdd_zero.
Definition y_base (w : zmgr) := y_wrap w zdd_one.
(** singleton, zdd.rs:78-95 *)
Definition y_singleton (w : zmgr) (x : string) : option (zmgr * nat) :=
  let '(w, hid) :=
    match y_vars w !! x with
    | Some h => (w, h)
    | None =>
        let '(z, h) := zdd_create_header (y_zdd w) (size (y_vars w)) x in
        (ZMgr z (y_roots w) (y_thr w) (y_floor w) (<[x := h]> (y_vars w)), h)
    end in
  y_wrapped w (Some (zdd_create_node (y_zdd w) hid zdd_zero zdd_one)).

(** union, intersect, setdiff, product, divide: zdd.rs:252-284 *)
Definition y_op (o : zop) (w : zmgr) (f g : nat) : option (zmgr * nat) :=
  y_wrapped w (match o with
    | ZIntersect => zdd_intersect (y_zdd w) f g | ZUnion => zdd_union (y_zdd w) f g
    | ZSetdiff => zdd_setdiff (y_zdd w) f g | ZProduct => zdd_product (y_zdd w) f g
    | ZDivision => zdd_divide (y_zdd w) f g end).

(** from_sets, zdd.rs:99-110.  An assignment drops the old handle after the new one is made; [single]
    is dropped at the end of its iteration, the last [fam] at the end of the outer one. *)
Fixpoint from_elems (w : zmgr) (fam : nat) (s : list string) : option (zmgr * nat) :=
  match s with
  | [] => Some (w, fam)
  | elem :: s =>
      '(w, single) ← y_singleton w elem;
      '(w, fam') ← y_op ZProduct w fam single;
      from_elems (y_drop (y_drop w fam) single) fam' s
  end.
Fixpoint from_sets_go (w : zmgr) (result : nat) (sets : list (list string)) : option (zmgr * nat) :=
  match sets with
  | [] => Some (w, result)
  | s :: sets =>
      '(w, fam) ← y_base w;
      '(w, fam) ← from_elems w fam s;
      '(w, result') ← y_op ZUnion w result fam;
      from_sets_go (y_drop (y_drop w result) fam) result' sets
  end.
Definition y_from_sets (w : zmgr) (sets : list (list string)) : option (zmgr * nat) :=
  '(w, result) ← y_empty w; from_sets_go w result sets.

(** zdd.rs:125-129 *)
Definition y_set_threshold (w : zmgr) (t : nat) : zmgr := ZMgr (y_zdd w) (y_roots w) t t (y_vars w).
(** zdd.rs:149-151 *)
Definition y_clear_cache (w : zmgr) : zmgr := with_zdd w (zdd_clear_cache (y_zdd w)).
(** get_children, zdd.rs:214-225: inner [None] for a terminal *)
Definition y_children (w : zmgr) (f : nat) : option (zmgr * option (nat * nat)) :=
  n ← ar_nodes (z_ar (y_zdd w)) !! f;
  match n with
  | Term _ => Some (w, None)
  | NT _ cs => '(f0, f1) ← edges2 cs; Some (y_pin (y_pin w f0) f1, Some (f0, f1))
  end.
(** get_label, zdd.rs:207-212 *)
Definition y_label (w : zmgr) (f : nat) : option string :=
  n ← ar_nodes (z_ar (y_zdd w)) !! f;
  match n with
  | Term _ => None
  | NT h _ => hd ← ar_headers (z_ar (y_zdd w)) !! h; Some (h_label hd)
  end.
(** is_zero, is_one: zdd.rs:227-237 *)
Definition y_is (t : tv) (w : zmgr) (f : nat) : option bool :=
  n ← ar_nodes (z_ar (y_zdd w)) !! f; Some (match n with Term t' => bool_decide (t = t') | NT _ _ => false end).
(** count, extract, size: zdd.rs:287-305 *)
Definition y_count (w : zmgr) (ss : list bool) (f : nat) := zdd_count (y_zdd w) ss f.
Definition y_extract (fuel : nat) (w : zmgr) (ss : list bool) (f : nat) := zdd_extract fuel (y_zdd w) ss f.

(** ** BssMgr, bss.rs:28-40 *)
Record bssmgr := BssM { s_bdd : bmgr; s_zdd : zmgr }.
Definition s_new : bssmgr := BssM w_new y_new.
(** minpath, bss.rs:109-128: the minimal-solution diagram is built without handles, the converted
    result is wrapped *)
Definition s_minpath (s : bssmgr) (node : nat) : option (bssmgr * option nat) :=
  '(b, z, r) ← minpath (w_bdd (s_bdd s)) (y_zdd (s_zdd s)) node;
  let w := with_bdd (s_bdd s) b in
  match r with
  | None => Some (BssM w (s_zdd s), None)
  | Some zid => '(y, zid) ← y_wrap (with_zdd (s_zdd s) z) zid; Some (BssM w y, Some zid)
  end.
(** mincut, bss.rs:134-136: the handle of the dual is a temporary, dropped at the end *)
Definition s_mincut (s : bssmgr) (node : nat) : option (bssmgr * option nat) :=
  '(w, d) ← w_dual (s_bdd s) node;
  '(s, r) ← s_minpath (BssM w (s_zdd s)) d;
  Some (BssM (w_drop (s_bdd s) d) (s_zdd s), r).
(** bss.rs:93-96 *)
Definition s_clear_cache (s : bssmgr) : bssmgr := BssM (w_clear_cache (s_bdd s)) (y_clear_cache (s_zdd s)).
