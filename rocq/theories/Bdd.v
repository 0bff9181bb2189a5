(** Model of the BDD manager.  Sources: bddcore/src/bdd.rs, bddcore/src/bdd_ops.rs. *)
From Verif Require Import Prelude ComputeCache Arena.

(** bddcore/src/nodes.rs:51-57: the three terminal variants *)
Inductive tv := TZero | TOne | TUndet.
Global Instance tv_eq_dec : EqDecision tv.
Proof. solve_decision. Defined.

(** bdd.rs:43-64.  [utable] keys [(header, low, high)] are the arena's [(header, \[low; high\])]. *)
Record bdd := Bdd { b_ar : arena tv; b_cache : ccache; b_ite : ccache }.

(** bdd.rs:96-134; Node::id, nodes.rs:60-67, fixes zero = 0, one = 1, undet = 2 *)
Definition bdd_zero : nat := 0.
Definition bdd_one : nat := 1.
Definition bdd_undet : nat := 2.
Definition bdd_new : bdd :=
  Bdd (Arena [] [Term TZero; Term TOne; Term TUndet] ∅ []) cc_new cc_new.

Definition with_ar (m : bdd) (a : arena tv) : bdd := Bdd a (b_cache m) (b_ite m).

(** bdd.rs:225-231: create_header, always with two edges *)
Definition bdd_create_header (m : bdd) (level : nat) (label : String.string) : bdd * nat :=
  let '(a, h) := ar_create_header (b_ar m) level label 2 in (with_ar m a, h).

(** bdd.rs:233-244: create_node *)
Definition bdd_create_node (m : bdd) (h low high : nat) : bdd * nat :=
  if low =? high then (m, low)
  else let '(a, id) := ar_hashcons (b_ar m) h [low; high] in (with_ar m a, id).

(** bdd.rs:218-223 on a non-terminal: level of header [h] *)
Definition hdr_level {T} (a : arena T) (h : nat) : option nat :=
  hd ← ar_headers a !! h; Some (h_level hd).

(** NonTerminalBDD stores exactly two edges (nodes.rs:12-17) *)
Definition edges2 (cs : list nat) : option (nat * nat) :=
  match cs with [lo; hi] => Some (lo, hi) | _ => None end.

(** bdd_ops.rs:5-24 *)
Inductive bop := OpAnd | OpOr | OpXOr | OpNot.
Definition bop_code (o : bop) : N :=
  match o with OpAnd => 0%N | OpOr => 1%N | OpXOr => 2%N | OpNot => 3%N end.

(** bdd.rs:268-276 (outer [None] = panic) *)
Definition bdd_cache_get (m : bdd) (o : bop) (f g : nat) : option (option nat) :=
  r ← cc_get (b_cache m) (bop_code o) (N.of_nat f) (N.of_nat g); Some (option_map N.to_nat r).
Definition bdd_cache_put (m : bdd) (o : bop) (f g v : nat) : option bdd :=
  c ← cc_put (b_cache m) (bop_code o) (N.of_nat f) (N.of_nat g) (N.of_nat v);
  Some (Bdd (b_ar m) c (b_ite m)).

(** bdd.rs:280-291 *)
Definition bdd_ite_get (m : bdd) (f g h : nat) : option (option nat) :=
  r ← cc_get (b_ite m) (N.of_nat f) (N.of_nat g) (N.of_nat h); Some (option_map N.to_nat r).
Definition bdd_ite_put (m : bdd) (f g h v : nat) : option bdd :=
  c ← cc_put (b_ite m) (N.of_nat f) (N.of_nat g) (N.of_nat h) (N.of_nat v);
  Some (Bdd (b_ar m) (b_cache m) c).

(** bdd_ops.rs:27-46 *)
Fixpoint bdd_not_f (n : nat) (m : bdd) (f : nat) : option (bdd * nat) :=
  match n with
  | O => None
  | S n =>
      hit ← bdd_cache_get m OpNot f 0;
      match hit with
      | Some x => Some (m, x)
      | None =>
          fn ← ar_nodes (b_ar m) !! f;
          '(m, result) ←
            match fn with
            | NT hf fc =>
                '(f0, f1) ← edges2 fc;
                '(m, low) ← bdd_not_f n m f0;
                '(m, high) ← bdd_not_f n m f1;
                Some (bdd_create_node m hf low high)
            | Term TZero => Some (m, bdd_one)
            | Term TOne => Some (m, bdd_zero)
            | Term TUndet => Some (m, bdd_undet)
            end;
          m ← bdd_cache_put m OpNot f 0 result;
          Some (m, result)
      end
  end.

(** bdd_ops.rs:48-97 *)
Fixpoint bdd_and_f (n : nat) (m : bdd) (f g : nat) : option (bdd * nat) :=
  match n with
  | O => None
  | S n =>
      if f =? g then Some (m, f) else
      let '(f, g) := if g <? f then (g, f) else (f, g) in
      hit ← bdd_cache_get m OpAnd f g;
      match hit with
      | Some x => Some (m, x)
      | None =>
          fn ← ar_nodes (b_ar m) !! f;
          gn ← ar_nodes (b_ar m) !! g;
          '(m, result) ←
            match fn, gn with
            | NT hf fc, NT hg gc =>
                lf ← hdr_level (b_ar m) hf;
                lg ← hdr_level (b_ar m) hg;
                '(f0, f1) ← edges2 fc;
                '(g0, g1) ← edges2 gc;
                if lg <? lf then
                  '(m, low) ← bdd_and_f n m f0 g;
                  '(m, high) ← bdd_and_f n m f1 g;
                  Some (bdd_create_node m hf low high)
                else if lf <? lg then
                  '(m, low) ← bdd_and_f n m f g0;
                  '(m, high) ← bdd_and_f n m f g1;
                  Some (bdd_create_node m hg low high)
                else
                  '(m, low) ← bdd_and_f n m f0 g0;
                  '(m, high) ← bdd_and_f n m f1 g1;
                  Some (bdd_create_node m hf low high)
            | Term TOne, _ => Some (m, g)
            | _, Term TOne => Some (m, f)
            | Term TZero, _ => Some (m, bdd_zero)
            | _, Term TZero => Some (m, bdd_zero)
            | Term TUndet, _ => Some (m, bdd_undet)
            | _, Term TUndet => Some (m, bdd_undet)
            end;
          m ← bdd_cache_put m OpAnd f g result;
          Some (m, result)
      end
  end.

(** bdd_ops.rs:99-146 *)
Fixpoint bdd_or_f (n : nat) (m : bdd) (f g : nat) : option (bdd * nat) :=
  match n with
  | O => None
  | S n =>
      if f =? g then Some (m, f) else
      let '(f, g) := if g <? f then (g, f) else (f, g) in
      hit ← bdd_cache_get m OpOr f g;
      match hit with
      | Some x => Some (m, x)
      | None =>
          fn ← ar_nodes (b_ar m) !! f;
          gn ← ar_nodes (b_ar m) !! g;
          '(m, result) ←
            match fn, gn with
            | NT hf fc, NT hg gc =>
                lf ← hdr_level (b_ar m) hf;
                lg ← hdr_level (b_ar m) hg;
                '(f0, f1) ← edges2 fc;
                '(g0, g1) ← edges2 gc;
                if lg <? lf then
                  '(m, low) ← bdd_or_f n m f0 g;
                  '(m, high) ← bdd_or_f n m f1 g;
                  Some (bdd_create_node m hf low high)
                else if lf <? lg then
                  '(m, low) ← bdd_or_f n m f g0;
                  '(m, high) ← bdd_or_f n m f g1;
                  Some (bdd_create_node m hg low high)
                else
                  '(m, low) ← bdd_or_f n m f0 g0;
                  '(m, high) ← bdd_or_f n m f1 g1;
                  Some (bdd_create_node m hf low high)
            | Term TZero, _ => Some (m, g)
            | _, Term TZero => Some (m, f)
            | Term TOne, _ => Some (m, bdd_one)
            | _, Term TOne => Some (m, bdd_one)
            | Term TUndet, _ => Some (m, bdd_undet)
            | _, Term TUndet => Some (m, bdd_undet)
            end;
          m ← bdd_cache_put m OpOr f g result;
          Some (m, result)
      end
  end.

(** bdd_ops.rs:148-200 *)
Fixpoint bdd_xor_f (n : nat) (m : bdd) (f g : nat) : option (bdd * nat) :=
  match n with
  | O => None
  | S n =>
      if f =? g then Some (m, if f =? bdd_undet then bdd_undet else bdd_zero) else
      let '(f, g) := if g <? f then (g, f) else (f, g) in
      hit ← bdd_cache_get m OpXOr f g;
      match hit with
      | Some x => Some (m, x)
      | None =>
          fn ← ar_nodes (b_ar m) !! f;
          gn ← ar_nodes (b_ar m) !! g;
          '(m, result) ←
            match fn, gn with
            | NT hf fc, NT hg gc =>
                lf ← hdr_level (b_ar m) hf;
                lg ← hdr_level (b_ar m) hg;
                '(f0, f1) ← edges2 fc;
                '(g0, g1) ← edges2 gc;
                if lg <? lf then
                  '(m, low) ← bdd_xor_f n m f0 g;
                  '(m, high) ← bdd_xor_f n m f1 g;
                  Some (bdd_create_node m hf low high)
                else if lf <? lg then
                  '(m, low) ← bdd_xor_f n m f g0;
                  '(m, high) ← bdd_xor_f n m f g1;
                  Some (bdd_create_node m hg low high)
                else
                  '(m, low) ← bdd_xor_f n m f0 g0;
                  '(m, high) ← bdd_xor_f n m f1 g1;
                  Some (bdd_create_node m hf low high)
            | Term TZero, _ => Some (m, g)
            | _, Term TZero => Some (m, f)
            | Term TOne, _ => bdd_not_f (S n) m g
            | _, Term TOne => bdd_not_f (S n) m f
            | Term TUndet, _ => Some (m, bdd_undet)
            | _, Term TUndet => Some (m, bdd_undet)
            end;
          m ← bdd_cache_put m OpXOr f g result;
          Some (m, result)
      end
  end.

(** bdd_ops.rs:273-280 *)
Definition bdd_cofactor (m : bdd) (id top : nat) : option (nat * nat) :=
  lv ← ar_node_level (b_ar m) id;
  if decide (lv = Some top) then
    n ← ar_nodes (b_ar m) !! id;
    match n with NT _ cs => edges2 cs | Term _ => Some (id, id) end
  else Some (id, id).

(** bdd_ops.rs:285-294; [None] at the end = unreachable!() *)
Fixpoint bdd_top_header (m : bdd) (xs : list nat) (top : nat) : option nat :=
  match xs with
  | [] => None
  | x :: xs =>
      lv ← ar_node_level (b_ar m) x;
      if decide (lv = Some top) then
        n ← ar_nodes (b_ar m) !! x;
        match n with NT h _ => Some h | Term _ => bdd_top_header m xs top end
      else bdd_top_header m xs top
  end.

(** bdd_ops.rs:250-256: one step of the [for x in \[g, h\]] maximum *)
Definition bdd_top_step (m : bdd) (top x : nat) : option nat :=
  lx ← ar_node_level (b_ar m) x;
  Some (match lx with Some l => if top <? l then l else top | None => top end).

(** bdd_ops.rs:230-267 *)
Fixpoint bdd_ite_f (n : nat) (m : bdd) (f g h : nat) : option (bdd * nat) :=
  match n with
  | O => None
  | S n =>
      fn ← ar_nodes (b_ar m) !! f;
      match fn with
      | Term TOne => Some (m, g)
      | Term TZero => Some (m, h)
      | Term TUndet => Some (m, bdd_undet)
      | NT hf _ =>
          if g =? h then Some (m, g) else
          hit ← bdd_ite_get m f g h;
          match hit with
          | Some x => Some (m, x)
          | None =>
              top ← hdr_level (b_ar m) hf;
              top ← bdd_top_step m top g;
              top ← bdd_top_step m top h;
              '(f0, f1) ← bdd_cofactor m f top;
              '(g0, g1) ← bdd_cofactor m g top;
              '(h0, h1) ← bdd_cofactor m h top;
              hid ← bdd_top_header m [f; g; h] top;
              '(m, low) ← bdd_ite_f n m f0 g0 h0;
              '(m, high) ← bdd_ite_f n m f1 g1 h1;
              let '(m, result) := bdd_create_node m hid low high in
              m ← bdd_ite_put m f g h result;
              Some (m, result)
          end
      end
  end.

(** Recursion depth bound used by the API entry points: one more than the highest rank. *)
Definition ar_fuel {T} (a : arena T) : nat := S (max_list_with (λ hd, S (h_level hd)) (ar_headers a)).

Definition bdd_not (m : bdd) (f : nat) := bdd_not_f (ar_fuel (b_ar m)) m f.
Definition bdd_and (m : bdd) (f g : nat) := bdd_and_f (ar_fuel (b_ar m)) m f g.
Definition bdd_or (m : bdd) (f g : nat) := bdd_or_f (ar_fuel (b_ar m)) m f g.
Definition bdd_xor (m : bdd) (f g : nat) := bdd_xor_f (ar_fuel (b_ar m)) m f g.
Definition bdd_ite (m : bdd) (f g h : nat) := bdd_ite_f (ar_fuel (b_ar m)) m f g h.

(** bdd_ops.rs:202-205 *)
Definition bdd_imp (m : bdd) (f g : nat) : option (bdd * nat) :=
  '(m, tmp) ← bdd_not m f; bdd_or m tmp g.
(** bdd_ops.rs:207-210 *)
Definition bdd_nand (m : bdd) (f g : nat) : option (bdd * nat) :=
  '(m, tmp) ← bdd_and m f g; bdd_not m tmp.
(** bdd_ops.rs:212-215 *)
Definition bdd_nor (m : bdd) (f g : nat) : option (bdd * nat) :=
  '(m, tmp) ← bdd_or m f g; bdd_not m tmp.
(** bdd_ops.rs:217-220 *)
Definition bdd_xnor (m : bdd) (f g : nat) : option (bdd * nat) :=
  '(m, tmp) ← bdd_xor m f g; bdd_not m tmp.

(** bdd.rs:165-204; returns the number of free slots *)
Definition bdd_gc (m : bdd) (roots : list nat) : option (bdd * nat) :=
  '(a, lv) ← ar_gc (b_ar m) [bdd_zero; bdd_one; bdd_undet] roots;
  c ← cc_retain_live (b_cache m) lv;
  i ← cc_retain_live3 (b_ite m) lv;
  Some (Bdd a c i, length (ar_free a)).

(** bdd.rs:294-297 *)
Definition bdd_clear_cache (m : bdd) : bdd :=
  Bdd (b_ar m) (cc_clear (b_cache m)) (cc_clear (b_ite m)).

(** bdd.rs:208-210 *)
Definition bdd_live_node_count (m : bdd) : nat := ar_live_count (b_ar m).
(** bdd.rs:247-249 *)
Definition bdd_size (m : bdd) : nat * nat * N :=
  (length (ar_headers (b_ar m)), length (ar_nodes (b_ar m)), cc_len (b_cache m)).
