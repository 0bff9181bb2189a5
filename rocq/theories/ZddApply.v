(** How much work an operation of ZddManager does: the same recursions as in Zdd, which also list the calls of the operation that are
    evaluated, that is, the calls that are neither answered at once nor by the table of computed results.  ZddApplyProofs shows that
    leaving the list out gives the modelled functions back. *)
From Verif Require Import Prelude Arena Bdd Zdd.

(** The result for two equal operands: zdd_ops.rs:16-18, 56-58, 115-121 *)
Definition zap_same (o : zop) (f g : nat) : option nat :=
  match o with
  | ZIntersect | ZUnion => if f =? g then Some f else None
  | ZSetdiff => if f =? g then Some (if f =? zdd_undet then zdd_undet else zdd_zero) else None
  | ZProduct | ZDivision => None
  end.

(** What an evaluated call does: return a node; make one call; make one call for the low edge and keep the high edge; make two calls
    and create a node; the calls of product and of divide for equal levels *)
Inductive zplan :=
  | PDone (r : nat)
  | PCall (f g : nat)
  | PLow (h f g hi : nat)
  | PNode (h f0 g0 f1 g1 : nat)
  | PProd (h f0 f1 g0 g1 : nat)
  | PDiv (f0 f1 g0 g1 : nat).

(** The arms: zdd_ops.rs:24-49, 64-108, 127-166, 177-213, 224-248 *)
Definition zap_plan (o : zop) (m : zdd) (f g : nat) (fn gn : node tv) : option zplan :=
  match o with
  | ZIntersect =>
      match fn, gn with
      | Term TUndet, _ => Some (PDone g)
      | _, Term TUndet => Some (PDone f)
      | Term TZero, _ => Some (PDone zdd_zero)
      | _, Term TZero => Some (PDone zdd_zero)
      | Term TOne, _ => Some (PDone g)
      | _, Term TOne => Some (PDone f)
      | NT hf fc, NT hg gc =>
          lf ← hdr_level (z_ar m) hf;
          lg ← hdr_level (z_ar m) hg;
          '(f0, f1) ← edges2 fc;
          '(g0, g1) ← edges2 gc;
          if lg <? lf then Some (PCall f0 g)
          else if lf <? lg then Some (PCall f g0)
          else Some (PNode hf f0 g0 f1 g1)
      end
  | ZUnion =>
      match fn, gn with
      | Term TUndet, _ => Some (PDone f)
      | _, Term TUndet => Some (PDone g)
      | Term TZero, _ => Some (PDone g)
      | _, Term TZero => Some (PDone f)
      | Term TOne, Term TOne => Some (PDone zdd_one)
      | NT hf fc, Term TOne => '(f0, f1) ← edges2 fc; Some (PLow hf f0 zdd_one f1)
      | Term TOne, NT hg gc => '(g0, g1) ← edges2 gc; Some (PLow hg zdd_one g0 g1)
      | NT hf fc, NT hg gc =>
          lf ← hdr_level (z_ar m) hf;
          lg ← hdr_level (z_ar m) hg;
          '(f0, f1) ← edges2 fc;
          '(g0, g1) ← edges2 gc;
          if lg <? lf then Some (PLow hf f0 g f1)
          else if lf <? lg then Some (PLow hg f g0 g1)
          else Some (PNode hf f0 g0 f1 g1)
      end
  | ZSetdiff =>
      match fn, gn with
      | Term TUndet, _ => Some (PDone zdd_undet)
      | _, Term TUndet => Some (PDone f)
      | Term TZero, _ => Some (PDone zdd_zero)
      | _, Term TZero => Some (PDone f)
      | Term TOne, Term TOne => Some (PDone zdd_zero)
      | NT hf fc, Term TOne => '(f0, f1) ← edges2 fc; Some (PLow hf f0 zdd_one f1)
      | Term TOne, NT hg gc => '(g0, g1) ← edges2 gc; Some (PCall zdd_one g0)
      | NT hf fc, NT hg gc =>
          lf ← hdr_level (z_ar m) hf;
          lg ← hdr_level (z_ar m) hg;
          '(f0, f1) ← edges2 fc;
          '(g0, g1) ← edges2 gc;
          if lg <? lf then Some (PLow hf f0 g f1)
          else if lf <? lg then Some (PCall f g0)
          else Some (PNode hf f0 g0 f1 g1)
      end
  | ZProduct =>
      match fn, gn with
      | Term TUndet, _ => Some (PDone zdd_undet)
      | _, Term TUndet => Some (PDone zdd_undet)
      | Term TZero, _ => Some (PDone zdd_zero)
      | _, Term TZero => Some (PDone zdd_zero)
      | _, Term TOne => Some (PDone f)
      | Term TOne, _ => Some (PDone g)
      | NT hf fc, NT hg gc =>
          lf ← hdr_level (z_ar m) hf;
          lg ← hdr_level (z_ar m) hg;
          '(f0, f1) ← edges2 fc;
          '(g0, g1) ← edges2 gc;
          if lg <? lf then Some (PNode hf f0 g f1 g)
          else if lf <? lg then Some (PNode hg f g0 f g1)
          else Some (PProd hf f0 f1 g0 g1)
      end
  | ZDivision =>
      match fn, gn with
      | Term TUndet, _ => Some (PDone zdd_undet)
      | _, Term TUndet => Some (PDone zdd_undet)
      | _, Term TZero => Some (PDone zdd_undet)
      | _, Term TOne => Some (PDone f)
      | Term TZero, _ => Some (PDone zdd_zero)
      | Term TOne, _ => Some (PDone g)
      | NT hf fc, NT hg gc =>
          lf ← hdr_level (z_ar m) hf;
          lg ← hdr_level (z_ar m) hg;
          '(f0, f1) ← edges2 fc;
          '(g0, g1) ← edges2 gc;
          if lg <? lf then Some (PCall f0 g)
          else if lf <? lg then Some (PDone zdd_undet)
          else Some (PDiv f0 f1 g0 g1)
      end
  end.

(** zdd_ops.rs:15-252, listing the evaluated pairs of the operation [o] itself: the unions made by product and the intersections made by
    divide are not listed. *)
Fixpoint zdd_ap_tf (o : zop) (n : nat) (m : zdd) (f g : nat) : option (zdd * nat * list (nat * nat)) :=
  match n with
  | O => None
  | S n =>
      match zap_same o f g with
      | Some r => Some (m, r, [])
      | None =>
          match zdd_cache_get m o f g with
          | Some x => Some (m, x, [])
          | None =>
              fn ← ar_nodes (z_ar m) !! f;
              gn ← ar_nodes (z_ar m) !! g;
              p ← zap_plan o m f g fn gn;
              '(m, result, tr) ←
                match p with
                | PDone r => Some (m, r, [])
                | PCall f' g' => zdd_ap_tf o n m f' g'
                | PLow h f' g' hi =>
                    '(m, low, t0) ← zdd_ap_tf o n m f' g';
                    let '(m, r) := zdd_create_node m h low hi in Some (m, r, t0)
                | PNode h f0 g0 f1 g1 =>
                    '(m, low, t0) ← zdd_ap_tf o n m f0 g0;
                    '(m, high, t1) ← zdd_ap_tf o n m f1 g1;
                    let '(m, r) := zdd_create_node m h low high in Some (m, r, t0 ++ t1)
                | PProd h f0 f1 g0 g1 =>
                    '(m, low, t0) ← zdd_ap_tf o n m f0 g0;
                    '(m, high, t1) ← zdd_ap_tf o n m f1 g1;
                    '(m, tmp, t2) ← zdd_ap_tf o n m f1 g0;
                    '(m, high) ← zdd_union m high tmp;
                    '(m, tmp, t3) ← zdd_ap_tf o n m f0 g1;
                    '(m, high) ← zdd_union m high tmp;
                    let '(m, r) := zdd_create_node m h low high in Some (m, r, t0 ++ t1 ++ t2 ++ t3)
                | PDiv f0 f1 g0 g1 =>
                    '(m, x, t0) ← zdd_ap_tf o n m f0 g0;
                    '(m, y, t1) ← zdd_ap_tf o n m f1 g1;
                    '(m, r) ← zdd_intersect m x y;
                    Some (m, r, t0 ++ t1)
                end;
              Some (zdd_cache_put m o f g result, result, tr ++ [(f, g)])
          end
      end
  end.

Definition zdd_ap_t (o : zop) (m : zdd) (f g : nat) := zdd_ap_tf o (ar_fuel (z_ar m)) m f g.
