(** The ZDD manager with its stored ids narrowed to [w] bits (32 in the source); the functions repeat Zdd.v with
    the casts written in.  Sources: bddcore/src/zdd.rs, zdd_ops.rs, nodes.rs. *)
From Verif Require Import Prelude Arena Bdd Zdd SpecZdd Bdd32.

(** zdd.rs:193-204 *)
Definition nz_create_node (w : N) (m : zdd) (h low high : nat) : zdd * nat :=
  if high =? zdd_zero then (m, low)
  else let '(a, id) := n_hashcons w (z_ar m) h [low; high] in (zwith_ar m a, id).

(** zdd.rs:226-236, keys narrowed at zdd_ops.rs:19, 59, 123, 173, 220 *)
Definition nz_cache_get (w : N) (m : zdd) (o : zop) (f g : nat) : option nat :=
  zdd_cache_get m o (narrow w f) (narrow w g).
Definition nz_cache_put (w : N) (m : zdd) (o : zop) (f g v : nat) : zdd :=
  zdd_cache_put m o (narrow w f) (narrow w g) (narrow w v).

(** zdd_ops.rs:15-53 *)
Fixpoint nz_intersect_f (w : N) (n : nat) (m : zdd) (f g : nat) : option (zdd * nat) :=
  match n with
  | O => None
  | S n =>
      if f =? g then Some (m, f) else
      match nz_cache_get w m ZIntersect f g with
      | Some x => Some (m, x)
      | None =>
          fn ← ar_nodes (z_ar m) !! f;
          gn ← ar_nodes (z_ar m) !! g;
          '(m, result) ←
            match fn, gn with
            | Term TUndet, _ => Some (m, g)
            | _, Term TUndet => Some (m, f)
            | Term TZero, _ => Some (m, zdd_zero)
            | _, Term TZero => Some (m, zdd_zero)
            | Term TOne, _ => Some (m, g)
            | _, Term TOne => Some (m, f)
            | NT hf fc, NT hg gc =>
                lf ← hdr_level (z_ar m) hf;
                lg ← hdr_level (z_ar m) hg;
                '(f0, f1) ← edges2 fc;
                '(g0, g1) ← edges2 gc;
                if lg <? lf then nz_intersect_f w n m f0 g
                else if lf <? lg then nz_intersect_f w n m f g0
                else
                  '(m, low) ← nz_intersect_f w n m f0 g0;
                  '(m, high) ← nz_intersect_f w n m f1 g1;
                  Some (nz_create_node w m hf low high)
            end;
          Some (nz_cache_put w m ZIntersect f g result, result)
      end
  end.

(** zdd_ops.rs:55-112 *)
Fixpoint nz_union_f (w : N) (n : nat) (m : zdd) (f g : nat) : option (zdd * nat) :=
  match n with
  | O => None
  | S n =>
      if f =? g then Some (m, f) else
      match nz_cache_get w m ZUnion f g with
      | Some x => Some (m, x)
      | None =>
          fn ← ar_nodes (z_ar m) !! f;
          gn ← ar_nodes (z_ar m) !! g;
          '(m, result) ←
            match fn, gn with
            | Term TUndet, _ => Some (m, f)
            | _, Term TUndet => Some (m, g)
            | Term TZero, _ => Some (m, g)
            | _, Term TZero => Some (m, f)
            | Term TOne, Term TOne => Some (m, zdd_one)
            | NT hf fc, Term TOne =>
                '(f0, f1) ← edges2 fc;
                '(m, low) ← nz_union_f w n m f0 zdd_one;
                Some (nz_create_node w m hf low f1)
            | Term TOne, NT hg gc =>
                '(g0, g1) ← edges2 gc;
                '(m, low) ← nz_union_f w n m zdd_one g0;
                Some (nz_create_node w m hg low g1)
            | NT hf fc, NT hg gc =>
                lf ← hdr_level (z_ar m) hf;
                lg ← hdr_level (z_ar m) hg;
                '(f0, f1) ← edges2 fc;
                '(g0, g1) ← edges2 gc;
                if lg <? lf then
                  '(m, low) ← nz_union_f w n m f0 g;
                  Some (nz_create_node w m hf low f1)
                else if lf <? lg then
                  '(m, low) ← nz_union_f w n m f g0;
                  Some (nz_create_node w m hg low g1)
                else
                  '(m, low) ← nz_union_f w n m f0 g0;
                  '(m, high) ← nz_union_f w n m f1 g1;
                  Some (nz_create_node w m hf low high)
            end;
          Some (nz_cache_put w m ZUnion f g result, result)
      end
  end.

(** zdd_ops.rs:114-170 *)
Fixpoint nz_setdiff_f (w : N) (n : nat) (m : zdd) (f g : nat) : option (zdd * nat) :=
  match n with
  | O => None
  | S n =>
      if f =? g then Some (m, if f =? zdd_undet then zdd_undet else zdd_zero) else
      match nz_cache_get w m ZSetdiff f g with
      | Some x => Some (m, x)
      | None =>
          fn ← ar_nodes (z_ar m) !! f;
          gn ← ar_nodes (z_ar m) !! g;
          '(m, result) ←
            match fn, gn with
            | Term TUndet, _ => Some (m, zdd_undet)
            | _, Term TUndet => Some (m, f)
            | Term TZero, _ => Some (m, zdd_zero)
            | _, Term TZero => Some (m, f)
            | Term TOne, Term TOne => Some (m, zdd_zero)
            | NT hf fc, Term TOne =>
                '(f0, f1) ← edges2 fc;
                '(m, low) ← nz_setdiff_f w n m f0 zdd_one;
                Some (nz_create_node w m hf low f1)
            | Term TOne, NT hg gc =>
                '(g0, g1) ← edges2 gc;
                nz_setdiff_f w n m zdd_one g0
            | NT hf fc, NT hg gc =>
                lf ← hdr_level (z_ar m) hf;
                lg ← hdr_level (z_ar m) hg;
                '(f0, f1) ← edges2 fc;
                '(g0, g1) ← edges2 gc;
                if lg <? lf then
                  '(m, low) ← nz_setdiff_f w n m f0 g;
                  Some (nz_create_node w m hf low f1)
                else if lf <? lg then nz_setdiff_f w n m f g0
                else
                  '(m, low) ← nz_setdiff_f w n m f0 g0;
                  '(m, high) ← nz_setdiff_f w n m f1 g1;
                  Some (nz_create_node w m hf low high)
            end;
          Some (nz_cache_put w m ZSetdiff f g result, result)
      end
  end.

(** Recursion fuel of the API functions: more than the number of levels a diagram can have. *)
Definition nz_intersect (w : N) (m : zdd) (f g : nat) := nz_intersect_f w (ar_fuel (z_ar m)) m f g.
Definition nz_union (w : N) (m : zdd) (f g : nat) := nz_union_f w (ar_fuel (z_ar m)) m f g.
Definition nz_setdiff (w : N) (m : zdd) (f g : nat) := nz_setdiff_f w (ar_fuel (z_ar m)) m f g.

(** zdd_ops.rs:172-217 *)
Fixpoint nz_product_f (w : N) (n : nat) (m : zdd) (f g : nat) : option (zdd * nat) :=
  match n with
  | O => None
  | S n =>
      match nz_cache_get w m ZProduct f g with
      | Some x => Some (m, x)
      | None =>
          fn ← ar_nodes (z_ar m) !! f;
          gn ← ar_nodes (z_ar m) !! g;
          '(m, result) ←
            match fn, gn with
            | Term TUndet, _ => Some (m, zdd_undet)
            | _, Term TUndet => Some (m, zdd_undet)
            | Term TZero, _ => Some (m, zdd_zero)
            | _, Term TZero => Some (m, zdd_zero)
            | _, Term TOne => Some (m, f)
            | Term TOne, _ => Some (m, g)
            | NT hf fc, NT hg gc =>
                lf ← hdr_level (z_ar m) hf;
                lg ← hdr_level (z_ar m) hg;
                '(f0, f1) ← edges2 fc;
                '(g0, g1) ← edges2 gc;
                if lg <? lf then
                  '(m, low) ← nz_product_f w n m f0 g;
                  '(m, high) ← nz_product_f w n m f1 g;
                  Some (nz_create_node w m hf low high)
                else if lf <? lg then
                  '(m, low) ← nz_product_f w n m f g0;
                  '(m, high) ← nz_product_f w n m f g1;
                  Some (nz_create_node w m hg low high)
                else
                  '(m, low) ← nz_product_f w n m f0 g0;
                  '(m, high) ← nz_product_f w n m f1 g1;
                  '(m, tmp) ← nz_product_f w n m f1 g0;
                  '(m, high) ← nz_union w m high tmp;
                  '(m, tmp) ← nz_product_f w n m f0 g1;
                  '(m, high) ← nz_union w m high tmp;
                  Some (nz_create_node w m hf low high)
            end;
          Some (nz_cache_put w m ZProduct f g result, result)
      end
  end.

(** zdd_ops.rs:219-252 *)
Fixpoint nz_divide_f (w : N) (n : nat) (m : zdd) (f g : nat) : option (zdd * nat) :=
  match n with
  | O => None
  | S n =>
      match nz_cache_get w m ZDivision f g with
      | Some x => Some (m, x)
      | None =>
          fn ← ar_nodes (z_ar m) !! f;
          gn ← ar_nodes (z_ar m) !! g;
          '(m, result) ←
            match fn, gn with
            | Term TUndet, _ => Some (m, zdd_undet)
            | _, Term TUndet => Some (m, zdd_undet)
            | _, Term TZero => Some (m, zdd_undet)
            | _, Term TOne => Some (m, f)
            | Term TZero, _ => Some (m, zdd_zero)
            | Term TOne, _ => Some (m, g)
            | NT hf fc, NT hg gc =>
                lf ← hdr_level (z_ar m) hf;
                lg ← hdr_level (z_ar m) hg;
                '(f0, f1) ← edges2 fc;
                '(g0, g1) ← edges2 gc;
                if lg <? lf then nz_divide_f w n m f0 g
                else if lf <? lg then Some (m, zdd_undet)
                else
                  '(m, x) ← nz_divide_f w n m f0 g0;
                  '(m, y) ← nz_divide_f w n m f1 g1;
                  nz_intersect w m x y
            end;
          Some (nz_cache_put w m ZDivision f g result, result)
      end
  end.

Definition nz_product (w : N) (m : zdd) (f g : nat) := nz_product_f w (ar_fuel (z_ar m)) m f g.
Definition nz_divide (w : N) (m : zdd) (f g : nat) := nz_divide_f w (ar_fuel (z_ar m)) m f g.

(** zdd.rs:132-164, the free list narrowed at 160 *)
Definition nz_gc (w : N) (m : zdd) (roots : list nat) : option (zdd * nat) :=
  '(m, k) ← zdd_gc m roots; Some (zwith_ar m (n_free w (z_ar m)), k).

(** The calls of SpecZdd.v on the narrowed manager *)
Definition nz_op (w : N) (o : zop) : zdd → nat → nat → option (zdd * nat) :=
  match o with
  | ZIntersect => nz_intersect w | ZUnion => nz_union w | ZSetdiff => nz_setdiff w
  | ZProduct => nz_product w | ZDivision => nz_divide w
  end.
Definition nz_exec (w : N) (m : zdd) (c : zdd_call) : option (zdd * nat) :=
  match c with
  | ZHeader l s => Some (zdd_create_header m l s)
  | ZNode h lo hi => Some (nz_create_node w m h lo hi)
  | ZOp o f g => nz_op w o m f g
  | ZGc roots => nz_gc w m roots
  | ZClear => Some (zdd_clear_cache m, 0)
  end.
