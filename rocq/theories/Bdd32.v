(** The BDD manager with the width of its stored numbers made explicit: every place where the source narrows
    an id with [as u32] reduces it modulo [2 ^ w] here; [w] is 32 in the source.  The functions repeat Bdd.v
    with the casts written in.  Node ids and header ids are [usize] outside the stored fields, hence
    unbounded here.  Sources: bddcore/src/bdd.rs, bdd_ops.rs, nodes.rs. *)
From Verif Require Import Prelude ComputeCache Arena Bdd SpecBdd.

(** [x as u32], with 32 replaced by [w] *)
Definition narrow (w : N) (x : nat) : nat := N.to_nat (N.of_nat x mod 2 ^ w)%N.

(** create_node's table part: the key is narrowed (bdd.rs:237), the stored node keeps narrowed header and
    edges (nodes.rs:12-26), the table stores the narrowed id (bdd.rs:242), the caller gets the wide one. *)
Definition n_hashcons {T} (w : N) (a : arena T) (h : nat) (cs : list nat) : arena T * nat :=
  let key := (narrow w h, narrow w <$> cs) in
  match ar_utable a !! key with
  | Some id => (a, id)
  | None =>
      let '(a', id) := ar_alloc a (NT (narrow w h) (narrow w <$> cs)) in
      (Arena (ar_headers a') (ar_nodes a') (<[key := narrow w id]> (ar_utable a')) (ar_free a'), id)
  end.

(** bdd.rs:233-244; [low == high] compares the wide ids *)
Definition n_create_node (w : N) (m : bdd) (h low high : nat) : bdd * nat :=
  if low =? high then (m, low)
  else let '(a, id) := n_hashcons w (b_ar m) h [low; high] in (with_ar m a, id).

(** bdd.rs:268-276 with the keys narrowed at bdd_ops.rs:28, 57, 106, 160 *)
Definition n_cache_get (w : N) (m : bdd) (o : bop) (f g : nat) : option (option nat) :=
  bdd_cache_get m o (narrow w f) (narrow w g).
Definition n_cache_put (w : N) (m : bdd) (o : bop) (f g v : nat) : option bdd :=
  bdd_cache_put m o (narrow w f) (narrow w g) (narrow w v).
(** bdd.rs:280-291 *)
Definition n_ite_get (w : N) (m : bdd) (f g h : nat) : option (option nat) :=
  bdd_ite_get m (narrow w f) (narrow w g) (narrow w h).
Definition n_ite_put (w : N) (m : bdd) (f g h v : nat) : option bdd :=
  bdd_ite_put m (narrow w f) (narrow w g) (narrow w h) (narrow w v).

(** bdd_ops.rs:27-46 *)
Fixpoint n_not_f (w : N) (n : nat) (m : bdd) (f : nat) : option (bdd * nat) :=
  match n with
  | O => None
  | S n =>
      hit ← n_cache_get w m OpNot f 0;
      match hit with
      | Some x => Some (m, x)
      | None =>
          fn ← ar_nodes (b_ar m) !! f;
          '(m, result) ←
            match fn with
            | NT hf fc =>
                '(f0, f1) ← edges2 fc;
                '(m, low) ← n_not_f w n m f0;
                '(m, high) ← n_not_f w n m f1;
                Some (n_create_node w m hf low high)
            | Term TZero => Some (m, bdd_one)
            | Term TOne => Some (m, bdd_zero)
            | Term TUndet => Some (m, bdd_undet)
            end;
          m ← n_cache_put w m OpNot f 0 result;
          Some (m, result)
      end
  end.

(** bdd_ops.rs:48-97 *)
Fixpoint n_and_f (w : N) (n : nat) (m : bdd) (f g : nat) : option (bdd * nat) :=
  match n with
  | O => None
  | S n =>
      if f =? g then Some (m, f) else
      let '(f, g) := if g <? f then (g, f) else (f, g) in
      hit ← n_cache_get w m OpAnd f g;
      match hit with
      | Some x => Some (m, x)
      | None =>
          fn ← ar_nodes (b_ar m) !! f;
          gn ← ar_nodes (b_ar m) !! g;
          '(m, result) ←
            match fn, gn with
            | NT hf fc, NT hg gc =>
                lf ← hdr_level (b_ar m) hf;
                lg ← hdr_level (b_ar m) hg;
                '(f0, f1) ← edges2 fc;
                '(g0, g1) ← edges2 gc;
                if lg <? lf then
                  '(m, low) ← n_and_f w n m f0 g;
                  '(m, high) ← n_and_f w n m f1 g;
                  Some (n_create_node w m hf low high)
                else if lf <? lg then
                  '(m, low) ← n_and_f w n m f g0;
                  '(m, high) ← n_and_f w n m f g1;
                  Some (n_create_node w m hg low high)
                else
                  '(m, low) ← n_and_f w n m f0 g0;
                  '(m, high) ← n_and_f w n m f1 g1;
                  Some (n_create_node w m hf low high)
            | Term TOne, _ => Some (m, g)
            | _, Term TOne => Some (m, f)
            | Term TZero, _ => Some (m, bdd_zero)
            | _, Term TZero => Some (m, bdd_zero)
            | Term TUndet, _ => Some (m, bdd_undet)
            | _, Term TUndet => Some (m, bdd_undet)
            end;
          m ← n_cache_put w m OpAnd f g result;
          Some (m, result)
      end
  end.

(** bdd_ops.rs:99-146 *)
Fixpoint n_or_f (w : N) (n : nat) (m : bdd) (f g : nat) : option (bdd * nat) :=
  match n with
  | O => None
  | S n =>
      if f =? g then Some (m, f) else
      let '(f, g) := if g <? f then (g, f) else (f, g) in
      hit ← n_cache_get w m OpOr f g;
      match hit with
      | Some x => Some (m, x)
      | None =>
          fn ← ar_nodes (b_ar m) !! f;
          gn ← ar_nodes (b_ar m) !! g;
          '(m, result) ←
            match fn, gn with
            | NT hf fc, NT hg gc =>
                lf ← hdr_level (b_ar m) hf;
                lg ← hdr_level (b_ar m) hg;
                '(f0, f1) ← edges2 fc;
                '(g0, g1) ← edges2 gc;
                if lg <? lf then
                  '(m, low) ← n_or_f w n m f0 g;
                  '(m, high) ← n_or_f w n m f1 g;
                  Some (n_create_node w m hf low high)
                else if lf <? lg then
                  '(m, low) ← n_or_f w n m f g0;
                  '(m, high) ← n_or_f w n m f g1;
                  Some (n_create_node w m hg low high)
                else
                  '(m, low) ← n_or_f w n m f0 g0;
                  '(m, high) ← n_or_f w n m f1 g1;
                  Some (n_create_node w m hf low high)
            | Term TZero, _ => Some (m, g)
            | _, Term TZero => Some (m, f)
            | Term TOne, _ => Some (m, bdd_one)
            | _, Term TOne => Some (m, bdd_one)
            | Term TUndet, _ => Some (m, bdd_undet)
            | _, Term TUndet => Some (m, bdd_undet)
            end;
          m ← n_cache_put w m OpOr f g result;
          Some (m, result)
      end
  end.

(** bdd_ops.rs:148-200 *)
Fixpoint n_xor_f (w : N) (n : nat) (m : bdd) (f g : nat) : option (bdd * nat) :=
  match n with
  | O => None
  | S n =>
      if f =? g then Some (m, if f =? bdd_undet then bdd_undet else bdd_zero) else
      let '(f, g) := if g <? f then (g, f) else (f, g) in
      hit ← n_cache_get w m OpXOr f g;
      match hit with
      | Some x => Some (m, x)
      | None =>
          fn ← ar_nodes (b_ar m) !! f;
          gn ← ar_nodes (b_ar m) !! g;
          '(m, result) ←
            match fn, gn with
            | NT hf fc, NT hg gc =>
                lf ← hdr_level (b_ar m) hf;
                lg ← hdr_level (b_ar m) hg;
                '(f0, f1) ← edges2 fc;
                '(g0, g1) ← edges2 gc;
                if lg <? lf then
                  '(m, low) ← n_xor_f w n m f0 g;
                  '(m, high) ← n_xor_f w n m f1 g;
                  Some (n_create_node w m hf low high)
                else if lf <? lg then
                  '(m, low) ← n_xor_f w n m f g0;
                  '(m, high) ← n_xor_f w n m f g1;
                  Some (n_create_node w m hg low high)
                else
                  '(m, low) ← n_xor_f w n m f0 g0;
                  '(m, high) ← n_xor_f w n m f1 g1;
                  Some (n_create_node w m hf low high)
            | Term TZero, _ => Some (m, g)
            | _, Term TZero => Some (m, f)
            | Term TOne, _ => n_not_f w (S n) m g
            | _, Term TOne => n_not_f w (S n) m f
            | Term TUndet, _ => Some (m, bdd_undet)
            | _, Term TUndet => Some (m, bdd_undet)
            end;
          m ← n_cache_put w m OpXOr f g result;
          Some (m, result)
      end
  end.

(** bdd_ops.rs:230-267 *)
Fixpoint n_ite_f (w : N) (n : nat) (m : bdd) (f g h : nat) : option (bdd * nat) :=
  match n with
  | O => None
  | S n =>
      fn ← ar_nodes (b_ar m) !! f;
      match fn with
      | Term TOne => Some (m, g)
      | Term TZero => Some (m, h)
      | Term TUndet => Some (m, bdd_undet)
      | NT hf _ =>
          if g =? h then Some (m, g) else
          hit ← n_ite_get w m f g h;
          match hit with
          | Some x => Some (m, x)
          | None =>
              top ← hdr_level (b_ar m) hf;
              top ← bdd_top_step m top g;
              top ← bdd_top_step m top h;
              '(f0, f1) ← bdd_cofactor m f top;
              '(g0, g1) ← bdd_cofactor m g top;
              '(h0, h1) ← bdd_cofactor m h top;
              hid ← bdd_top_header m [f; g; h] top;
              '(m, low) ← n_ite_f w n m f0 g0 h0;
              '(m, high) ← n_ite_f w n m f1 g1 h1;
              let '(m, result) := n_create_node w m hid low high in
              m ← n_ite_put w m f g h result;
              Some (m, result)
          end
      end
  end.

Definition n_not (w : N) (m : bdd) (f : nat) := n_not_f w (ar_fuel (b_ar m)) m f.
Definition n_and (w : N) (m : bdd) (f g : nat) := n_and_f w (ar_fuel (b_ar m)) m f g.
Definition n_or (w : N) (m : bdd) (f g : nat) := n_or_f w (ar_fuel (b_ar m)) m f g.
Definition n_xor (w : N) (m : bdd) (f g : nat) := n_xor_f w (ar_fuel (b_ar m)) m f g.
Definition n_ite (w : N) (m : bdd) (f g h : nat) := n_ite_f w (ar_fuel (b_ar m)) m f g h.

(** bdd_ops.rs:202-205 *)
Definition n_imp (w : N) (m : bdd) (f g : nat) : option (bdd * nat) :=
  '(m, tmp) ← n_not w m f; n_or w m tmp g.
(** bdd_ops.rs:207-210 *)
Definition n_nand (w : N) (m : bdd) (f g : nat) : option (bdd * nat) :=
  '(m, tmp) ← n_and w m f g; n_not w m tmp.
(** bdd_ops.rs:212-215 *)
Definition n_nor (w : N) (m : bdd) (f g : nat) : option (bdd * nat) :=
  '(m, tmp) ← n_or w m f g; n_not w m tmp.
(** bdd_ops.rs:217-220 *)
Definition n_xnor (w : N) (m : bdd) (f g : nat) : option (bdd * nat) :=
  '(m, tmp) ← n_xor w m f g; n_not w m tmp.


(** [self.freelist.push(id as u32)], e.g. bdd.rs:200 *)
Definition n_free {T} (w : N) (a : arena T) : arena T :=
  Arena (ar_headers a) (ar_nodes a) (ar_utable a) (narrow w <$> ar_free a).
(** bdd.rs:165-204 *)
Definition n_gc (w : N) (m : bdd) (roots : list nat) : option (bdd * nat) :=
  '(m, k) ← bdd_gc m roots; Some (with_ar m (n_free w (b_ar m)), k).

(** The calls of SpecBdd.v on the narrowed manager *)
Definition n_conn (w : N) (c : conn) (m : bdd) (f g : nat) : option (bdd * nat) :=
  match c with
  | And => n_and w m f g
  | Or => n_or w m f g
  | Xor => n_xor w m f g
  | Imp => n_imp w m f g
  | Nand => n_nand w m f g
  | Nor => n_nor w m f g
  | Xnor => n_xnor w m f g
  end.
Definition n_exec (w : N) (m : bdd) (c : bdd_call) : option (bdd * nat) :=
  match c with
  | CHeader l s => Some (bdd_create_header m l s)
  | CNode h lo hi => Some (n_create_node w m h lo hi)
  | CNot f => n_not w m f
  | CConn c f g => n_conn w c m f g
  | CIte f g h => n_ite w m f g h
  | CGc roots => n_gc w m roots
  | CClear => Some (bdd_clear_cache m, 0)
  end.
