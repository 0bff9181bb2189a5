(** How much work an operation of BddManager does: the same recursions as in Bdd, which also list the calls
    that are evaluated, that is, the calls that are neither answered at once nor by the table of computed results, in the order in
    which their results are stored.  Every call that is not evaluated takes a bounded number of steps, and an evaluated one makes at
    most two more calls for the connectives.  ApplyProofs shows that leaving the list out gives the modelled functions back. *)
From Verif Require Import Prelude ComputeCache Arena Bdd.

(** bdd_ops.rs:27-46, listing the evaluated nodes *)
Fixpoint bdd_not_tf (n : nat) (m : bdd) (f : nat) : option (bdd * nat * list (bop * nat * nat)) :=
  match n with
  | O => None
  | S n =>
      hit ← bdd_cache_get m OpNot f 0;
      match hit with
      | Some x => Some (m, x, [])
      | None =>
          fn ← ar_nodes (b_ar m) !! f;
          '(m, result, tr) ←
            match fn with
            | NT hf fc =>
                '(f0, f1) ← edges2 fc;
                '(m, low, t0) ← bdd_not_tf n m f0;
                '(m, high, t1) ← bdd_not_tf n m f1;
                let '(m, r) := bdd_create_node m hf low high in
                Some (m, r, t0 ++ t1)
            | Term TZero => Some (m, bdd_one, [])
            | Term TOne => Some (m, bdd_zero, [])
            | Term TUndet => Some (m, bdd_undet, [])
            end;
          m ← bdd_cache_put m OpNot f 0 result;
          Some (m, result, tr ++ [(OpNot, f, 0)])
      end
  end.

(** The result for two equal operands: bdd_ops.rs:50, 101, 150-155 *)
Definition ap_same (o : bop) (f : nat) : nat :=
  match o with OpXOr => if f =? bdd_undet then bdd_undet else bdd_zero | _ => f end.

(** The arms with a terminal: bdd_ops.rs:84-91, 135-140, 184-194.  Only xor makes further calls, those of [not]. *)
Definition ap_leaf (o : bop) (n : nat) (m : bdd) (fn gn : node tv) (f g : nat) : option (bdd * nat * list (bop * nat * nat)) :=
  match o with
  | OpAnd =>
      match fn, gn with
      | Term TOne, _ => Some (m, g, [])
      | _, Term TOne => Some (m, f, [])
      | Term TZero, _ => Some (m, bdd_zero, [])
      | _, Term TZero => Some (m, bdd_zero, [])
      | _, _ => Some (m, bdd_undet, [])
      end
  | OpOr =>
      match fn, gn with
      | Term TZero, _ => Some (m, g, [])
      | _, Term TZero => Some (m, f, [])
      | Term TOne, _ => Some (m, bdd_one, [])
      | _, Term TOne => Some (m, bdd_one, [])
      | _, _ => Some (m, bdd_undet, [])
      end
  | OpXOr =>
      match fn, gn with
      | Term TZero, _ => Some (m, g, [])
      | _, Term TZero => Some (m, f, [])
      | Term TOne, _ => bdd_not_tf (S n) m g
      | _, Term TOne => bdd_not_tf (S n) m f
      | _, _ => Some (m, bdd_undet, [])
      end
  | OpNot => None
  end.

(** bdd_ops.rs:48-200: and, or, xor in one, listing the evaluated pairs *)
Fixpoint bdd_ap_tf (o : bop) (n : nat) (m : bdd) (f g : nat) : option (bdd * nat * list (bop * nat * nat)) :=
  match n with
  | O => None
  | S n =>
      if f =? g then Some (m, ap_same o f, []) else
      let '(f, g) := if g <? f then (g, f) else (f, g) in
      hit ← bdd_cache_get m o f g;
      match hit with
      | Some x => Some (m, x, [])
      | None =>
          fn ← ar_nodes (b_ar m) !! f;
          gn ← ar_nodes (b_ar m) !! g;
          '(m, result, tr) ←
            match fn, gn with
            | NT hf fc, NT hg gc =>
                lf ← hdr_level (b_ar m) hf;
                lg ← hdr_level (b_ar m) hg;
                '(f0, f1) ← edges2 fc;
                '(g0, g1) ← edges2 gc;
                if lg <? lf then
                  '(m, low, t0) ← bdd_ap_tf o n m f0 g;
                  '(m, high, t1) ← bdd_ap_tf o n m f1 g;
                  let '(m, r) := bdd_create_node m hf low high in Some (m, r, t0 ++ t1)
                else if lf <? lg then
                  '(m, low, t0) ← bdd_ap_tf o n m f g0;
                  '(m, high, t1) ← bdd_ap_tf o n m f g1;
                  let '(m, r) := bdd_create_node m hg low high in Some (m, r, t0 ++ t1)
                else
                  '(m, low, t0) ← bdd_ap_tf o n m f0 g0;
                  '(m, high, t1) ← bdd_ap_tf o n m f1 g1;
                  let '(m, r) := bdd_create_node m hf low high in Some (m, r, t0 ++ t1)
            | _, _ => ap_leaf o n m fn gn f g
            end;
          m ← bdd_cache_put m o f g result;
          Some (m, result, tr ++ [(o, f, g)])
      end
  end.

(** bdd_ops.rs:230-267, listing the evaluated triples *)
Fixpoint bdd_ite_tf (n : nat) (m : bdd) (f g h : nat) : option (bdd * nat * list (nat * nat * nat)) :=
  match n with
  | O => None
  | S n =>
      fn ← ar_nodes (b_ar m) !! f;
      match fn with
      | Term TOne => Some (m, g, [])
      | Term TZero => Some (m, h, [])
      | Term TUndet => Some (m, bdd_undet, [])
      | NT hf _ =>
          if g =? h then Some (m, g, []) else
          hit ← bdd_ite_get m f g h;
          match hit with
          | Some x => Some (m, x, [])
          | None =>
              top ← hdr_level (b_ar m) hf;
              top ← bdd_top_step m top g;
              top ← bdd_top_step m top h;
              '(f0, f1) ← bdd_cofactor m f top;
              '(g0, g1) ← bdd_cofactor m g top;
              '(h0, h1) ← bdd_cofactor m h top;
              hid ← bdd_top_header m [f; g; h] top;
              '(m, low, t0) ← bdd_ite_tf n m f0 g0 h0;
              '(m, high, t1) ← bdd_ite_tf n m f1 g1 h1;
              let '(m, result) := bdd_create_node m hid low high in
              m ← bdd_ite_put m f g h result;
              Some (m, result, t0 ++ t1 ++ [(f, g, h)])
          end
      end
  end.

Definition bdd_not_t (m : bdd) (f : nat) := bdd_not_tf (ar_fuel (b_ar m)) m f.
Definition bdd_ap_t (o : bop) (m : bdd) (f g : nat) := bdd_ap_tf o (ar_fuel (b_ar m)) m f g.
Definition bdd_ite_t (m : bdd) (f g h : nat) := bdd_ite_tf (ar_fuel (b_ar m)) m f g h.
