(** Model of the ZDD manager.  Sources: bddcore/src/zdd.rs, bddcore/src/zdd_ops.rs. *)
From Verif Require Import Prelude Arena Bdd.

(** zdd_ops.rs:5-12 *)
Inductive zop := ZIntersect | ZUnion | ZSetdiff | ZProduct | ZDivision.
Global Instance zop_eq_dec : EqDecision zop.
Proof. solve_decision. Defined.
Global Instance zop_countable : Countable zop.
Proof.
  refine (inj_countable'
    (λ o, match o with ZIntersect => 0 | ZUnion => 1 | ZSetdiff => 2 | ZProduct => 3 | ZDivision => 4 end)
    (λ n, match n with 0 => ZIntersect | 1 => ZUnion | 2 => ZSetdiff | 3 => ZProduct | _ => ZDivision end) _).
  by intros [].
Defined.

(** zdd.rs:28-41.  The operation cache is an exact hash map (BddHashMap). *)
Record zdd := Zdd { z_ar : arena tv; z_cache : gmap (zop * nat * nat) nat }.

(** zdd.rs:71-105; Node::id (nodes.rs:60-67) fixes zero = 0, one = 1, undet = 2 *)
Definition zdd_zero : nat := 0.
Definition zdd_one : nat := 1.
Definition zdd_undet : nat := 2.
Definition zdd_new : zdd := Zdd (Arena [] [Term TZero; Term TOne; Term TUndet] ∅ []) ∅.

Definition zwith_ar (m : zdd) (a : arena tv) : zdd := Zdd a (z_cache m).

(** zdd.rs:185-191: create_header, always with two edges *)
Definition zdd_create_header (m : zdd) (level : nat) (label : String.string) : zdd * nat :=
  let '(a, h) := ar_create_header (z_ar m) level label 2 in (zwith_ar m a, h).

(** zdd.rs:193-204: create_node, with the zero-suppression rule *)
Definition zdd_create_node (m : zdd) (h low high : nat) : zdd * nat :=
  if high =? zdd_zero then (m, low)
  else let '(a, id) := ar_hashcons (z_ar m) h [low; high] in (zwith_ar m a, id).

(** zdd.rs:226-236 *)
Definition zdd_cache_get (m : zdd) (o : zop) (f g : nat) : option nat := z_cache m !! (o, f, g).
Definition zdd_cache_put (m : zdd) (o : zop) (f g v : nat) : zdd :=
  Zdd (z_ar m) (<[(o, f, g) := v]> (z_cache m)).

(** zdd.rs:238-241 *)
Definition zdd_clear_cache (m : zdd) : zdd := Zdd (z_ar m) ∅.

(** [cache.retain(|k, v| live\[k.1\] && live\[k.2\] && live\[v\])], zdd.rs:153-156.  [&&] evaluates left
    to right, so an out-of-range index panics only if the ones before it are live. *)
Definition zdd_keep (lv : list bool) (kv : zop * nat * nat * nat) : Prop :=
  lv !! kv.1.1.2 = Some true ∧ lv !! kv.1.2 = Some true ∧ lv !! kv.2 = Some true.
Definition zdd_retain_panics (lv : list bool) (kv : zop * nat * nat * nat) : Prop :=
  lv !! kv.1.1.2 = None ∨ (lv !! kv.1.1.2 = Some true ∧ lv !! kv.1.2 = None) ∨
  (lv !! kv.1.1.2 = Some true ∧ lv !! kv.1.2 = Some true ∧ lv !! kv.2 = None).
Global Instance zdd_keep_dec lv kv : Decision (zdd_keep lv kv).
Proof. unfold zdd_keep. apply _. Defined.
Global Instance zdd_retain_panics_dec lv kv : Decision (zdd_retain_panics lv kv).
Proof. unfold zdd_retain_panics. apply _. Defined.

(** zdd.rs:132-164: gc *)
Definition zdd_gc (m : zdd) (roots : list nat) : option (zdd * nat) :=
  '(a, lv) ← ar_gc (z_ar m) [zdd_zero; zdd_one; zdd_undet] roots;
  if decide (map_Forall (λ k v, ¬ zdd_retain_panics lv (k, v)) (z_cache m)) then
    Some (Zdd a (filter (zdd_keep lv) (z_cache m)), length (ar_free a))
  else None.

(** zdd.rs:168-170 *)
Definition zdd_live_node_count (m : zdd) : nat := ar_live_count (z_ar m).

(** zdd_ops.rs:15-53.  [n] is recursion fuel: [None] also stands for running out of it; the proofs show
    it never does. *)
Fixpoint zdd_intersect_f (n : nat) (m : zdd) (f g : nat) : option (zdd * nat) :=
  match n with
  | O => None
  | S n =>
      if f =? g then Some (m, f) else
      match zdd_cache_get m ZIntersect f g with
      | Some x => Some (m, x)
      | None =>
          fn ← ar_nodes (z_ar m) !! f;
          gn ← ar_nodes (z_ar m) !! g;
          '(m, result) ←
            match fn, gn with
            | Term TUndet, _ => Some (m, g)
            | _, Term TUndet => Some (m, f)
            | Term TZero, _ => Some (m, zdd_zero)
            | _, Term TZero => Some (m, zdd_zero)
            | Term TOne, _ => Some (m, g)
            | _, Term TOne => Some (m, f)
            | NT hf fc, NT hg gc =>
                lf ← hdr_level (z_ar m) hf;
                lg ← hdr_level (z_ar m) hg;
                '(f0, f1) ← edges2 fc;
                '(g0, g1) ← edges2 gc;
                if lg <? lf then zdd_intersect_f n m f0 g
                else if lf <? lg then zdd_intersect_f n m f g0
                else
                  '(m, low) ← zdd_intersect_f n m f0 g0;
                  '(m, high) ← zdd_intersect_f n m f1 g1;
                  Some (zdd_create_node m hf low high)
            end;
          Some (zdd_cache_put m ZIntersect f g result, result)
      end
  end.

(** zdd_ops.rs:55-112 *)
Fixpoint zdd_union_f (n : nat) (m : zdd) (f g : nat) : option (zdd * nat) :=
  match n with
  | O => None
  | S n =>
      if f =? g then Some (m, f) else
      match zdd_cache_get m ZUnion f g with
      | Some x => Some (m, x)
      | None =>
          fn ← ar_nodes (z_ar m) !! f;
          gn ← ar_nodes (z_ar m) !! g;
          '(m, result) ←
            match fn, gn with
            | Term TUndet, _ => Some (m, f)
            | _, Term TUndet => Some (m, g)
            | Term TZero, _ => Some (m, g)
            | _, Term TZero => Some (m, f)
            | Term TOne, Term TOne => Some (m, zdd_one)
            | NT hf fc, Term TOne =>
                '(f0, f1) ← edges2 fc;
                '(m, low) ← zdd_union_f n m f0 zdd_one;
                Some (zdd_create_node m hf low f1)
            | Term TOne, NT hg gc =>
                '(g0, g1) ← edges2 gc;
                '(m, low) ← zdd_union_f n m zdd_one g0;
                Some (zdd_create_node m hg low g1)
            | NT hf fc, NT hg gc =>
                lf ← hdr_level (z_ar m) hf;
                lg ← hdr_level (z_ar m) hg;
                '(f0, f1) ← edges2 fc;
                '(g0, g1) ← edges2 gc;
                if lg <? lf then
                  '(m, low) ← zdd_union_f n m f0 g;
                  Some (zdd_create_node m hf low f1)
                else if lf <? lg then
                  '(m, low) ← zdd_union_f n m f g0;
                  Some (zdd_create_node m hg low g1)
                else
                  '(m, low) ← zdd_union_f n m f0 g0;
                  '(m, high) ← zdd_union_f n m f1 g1;
                  Some (zdd_create_node m hf low high)
            end;
          Some (zdd_cache_put m ZUnion f g result, result)
      end
  end.

(** zdd_ops.rs:114-170 *)
Fixpoint zdd_setdiff_f (n : nat) (m : zdd) (f g : nat) : option (zdd * nat) :=
  match n with
  | O => None
  | S n =>
      if f =? g then Some (m, if f =? zdd_undet then zdd_undet else zdd_zero) else
      match zdd_cache_get m ZSetdiff f g with
      | Some x => Some (m, x)
      | None =>
          fn ← ar_nodes (z_ar m) !! f;
          gn ← ar_nodes (z_ar m) !! g;
          '(m, result) ←
            match fn, gn with
            | Term TUndet, _ => Some (m, zdd_undet)
            | _, Term TUndet => Some (m, f)
            | Term TZero, _ => Some (m, zdd_zero)
            | _, Term TZero => Some (m, f)
            | Term TOne, Term TOne => Some (m, zdd_zero)
            | NT hf fc, Term TOne =>
                '(f0, f1) ← edges2 fc;
                '(m, low) ← zdd_setdiff_f n m f0 zdd_one;
                Some (zdd_create_node m hf low f1)
            | Term TOne, NT hg gc =>
                '(g0, g1) ← edges2 gc;
                zdd_setdiff_f n m zdd_one g0
            | NT hf fc, NT hg gc =>
                lf ← hdr_level (z_ar m) hf;
                lg ← hdr_level (z_ar m) hg;
                '(f0, f1) ← edges2 fc;
                '(g0, g1) ← edges2 gc;
                if lg <? lf then
                  '(m, low) ← zdd_setdiff_f n m f0 g;
                  Some (zdd_create_node m hf low f1)
                else if lf <? lg then zdd_setdiff_f n m f g0
                else
                  '(m, low) ← zdd_setdiff_f n m f0 g0;
                  '(m, high) ← zdd_setdiff_f n m f1 g1;
                  Some (zdd_create_node m hf low high)
            end;
          Some (zdd_cache_put m ZSetdiff f g result, result)
      end
  end.

(** Recursion fuel of the API functions: more than the number of levels a diagram can have. *)
Definition zdd_intersect (m : zdd) (f g : nat) := zdd_intersect_f (ar_fuel (z_ar m)) m f g.
Definition zdd_union (m : zdd) (f g : nat) := zdd_union_f (ar_fuel (z_ar m)) m f g.
Definition zdd_setdiff (m : zdd) (f g : nat) := zdd_setdiff_f (ar_fuel (z_ar m)) m f g.

(** zdd_ops.rs:172-217 *)
Fixpoint zdd_product_f (n : nat) (m : zdd) (f g : nat) : option (zdd * nat) :=
  match n with
  | O => None
  | S n =>
      match zdd_cache_get m ZProduct f g with
      | Some x => Some (m, x)
      | None =>
          fn ← ar_nodes (z_ar m) !! f;
          gn ← ar_nodes (z_ar m) !! g;
          '(m, result) ←
            match fn, gn with
            | Term TUndet, _ => Some (m, zdd_undet)
            | _, Term TUndet => Some (m, zdd_undet)
            | Term TZero, _ => Some (m, zdd_zero)
            | _, Term TZero => Some (m, zdd_zero)
            | _, Term TOne => Some (m, f)
            | Term TOne, _ => Some (m, g)
            | NT hf fc, NT hg gc =>
                lf ← hdr_level (z_ar m) hf;
                lg ← hdr_level (z_ar m) hg;
                '(f0, f1) ← edges2 fc;
                '(g0, g1) ← edges2 gc;
                if lg <? lf then
                  '(m, low) ← zdd_product_f n m f0 g;
                  '(m, high) ← zdd_product_f n m f1 g;
                  Some (zdd_create_node m hf low high)
                else if lf <? lg then
                  '(m, low) ← zdd_product_f n m f g0;
                  '(m, high) ← zdd_product_f n m f g1;
                  Some (zdd_create_node m hg low high)
                else
                  '(m, low) ← zdd_product_f n m f0 g0;
                  '(m, high) ← zdd_product_f n m f1 g1;
                  '(m, tmp) ← zdd_product_f n m f1 g0;
                  '(m, high) ← zdd_union m high tmp;
                  '(m, tmp) ← zdd_product_f n m f0 g1;
                  '(m, high) ← zdd_union m high tmp;
                  Some (zdd_create_node m hf low high)
            end;
          Some (zdd_cache_put m ZProduct f g result, result)
      end
  end.

(** zdd_ops.rs:219-252 *)
Fixpoint zdd_divide_f (n : nat) (m : zdd) (f g : nat) : option (zdd * nat) :=
  match n with
  | O => None
  | S n =>
      match zdd_cache_get m ZDivision f g with
      | Some x => Some (m, x)
      | None =>
          fn ← ar_nodes (z_ar m) !! f;
          gn ← ar_nodes (z_ar m) !! g;
          '(m, result) ←
            match fn, gn with
            | Term TUndet, _ => Some (m, zdd_undet)
            | _, Term TUndet => Some (m, zdd_undet)
            | _, Term TZero => Some (m, zdd_undet)
            | _, Term TOne => Some (m, f)
            | Term TZero, _ => Some (m, zdd_zero)
            | Term TOne, _ => Some (m, g)
            | NT hf fc, NT hg gc =>
                lf ← hdr_level (z_ar m) hf;
                lg ← hdr_level (z_ar m) hg;
                '(f0, f1) ← edges2 fc;
                '(g0, g1) ← edges2 gc;
                if lg <? lf then zdd_divide_f n m f0 g
                else if lf <? lg then Some (m, zdd_undet)
                else
                  '(m, x) ← zdd_divide_f n m f0 g0;
                  '(m, y) ← zdd_divide_f n m f1 g1;
                  zdd_intersect m x y
            end;
          Some (zdd_cache_put m ZDivision f g result, result)
      end
  end.

Definition zdd_product (m : zdd) (f g : nat) := zdd_product_f (ar_fuel (z_ar m)) m f g.
Definition zdd_divide (m : zdd) (f g : nat) := zdd_divide_f (ar_fuel (z_ar m)) m f g.
