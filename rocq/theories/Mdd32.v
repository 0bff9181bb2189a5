(** The MDD manager with its stored ids narrowed to [w] bits (32 in the source); the functions repeat Mdd.v with
    the casts written in.  Sources: mddcore/src/mdd.rs, mdd_ops.rs, nodes.rs:20-30. *)
From Verif Require Import Prelude ComputeCache Arena Bdd SpecBdd Mdd MtMdd SpecMdd Bdd32.

(** mdd.rs:191-204 *)
Definition nm_create_node (w : N) (m : mdd) (h : nat) (cs : list nat) : mdd * nat :=
  match all_same cs with
  | Some x => (m, x)
  | None => let '(a, id) := n_hashcons w (d_ar m) h cs in (mdd_with_ar m a, id)
  end.

(** mdd.rs:228-239 *)
Definition nm_cache_get (w : N) (m : mdd) (o : mop) (f g : nat) : option (option nat) :=
  mdd_cache_get m o (narrow w f) (narrow w g).
Definition nm_cache_put (w : N) (m : mdd) (o : mop) (f g v : nat) : option mdd :=
  mdd_cache_put m o (narrow w f) (narrow w g) (narrow w v).
(** mdd.rs:243-254 *)
Definition nm_ite_get (w : N) (m : mdd) (f g h : nat) : option (option nat) :=
  mdd_ite_get m (narrow w f) (narrow w g) (narrow w h).
Definition nm_ite_put (w : N) (m : mdd) (f g h v : nat) : option mdd :=
  mdd_ite_put m (narrow w f) (narrow w g) (narrow w h) (narrow w v).

(** mdd_ops.rs:29-47 *)
Fixpoint nm_not_f (w : N) (n : nat) (m : mdd) (f : nat) : option (mdd * nat) :=
  match n with
  | O => None
  | S n =>
      hit ← nm_cache_get w m MNot f 0;
      match hit with
      | Some x => Some (m, x)
      | None =>
          fn ← ar_nodes (d_ar m) !! f;
          '(m, result) ←
            match fn with
            | Term TUndet => Some (m, mdd_undet)
            | Term TZero => Some (m, mdd_one)
            | Term TOne => Some (m, mdd_zero)
            | NT hf fc =>
                '(m, ns) ← mapst (λ m f, nm_not_f w n m f) m fc;
                Some (nm_create_node w m hf ns)
            end;
          m ← nm_cache_put w m MNot f 0 result;
          Some (m, result)
      end
  end.

(** mdd_ops.rs:49-195, 288-340 (see Mdd.v) *)
Fixpoint nm_bin_f (w : N) (o : mop) (n : nat) (m : mdd) (f g : nat) : option (mdd * nat) :=
  match n with
  | O => None
  | S n =>
      let '(f, g) := if mop_swap o && (g <? f) then (g, f) else (f, g) in
      hit ← nm_cache_get w m o f g;
      match hit with
      | Some x => Some (m, x)
      | None =>
          fn ← ar_nodes (d_ar m) !! f;
          gn ← ar_nodes (d_ar m) !! g;
          '(m, result) ←
            match mop_arm o f g fn gn with
            | ARet x => Some (m, x)
            | ANeg x => nm_not_f w (S n) m x
            | ARec =>
                '(h, ps) ← expand false (d_ar m) (d_ar m) f g fn gn;
                '(m, ns) ← mapst (λ m p, nm_bin_f w o n m p.1 p.2) m ps;
                Some (nm_create_node w m h ns)
            end;
          m ← nm_cache_put w m o f g result;
          Some (m, result)
      end
  end.

(** mdd_ops.rs:226-258 *)
Fixpoint nm_ite_f (w : N) (n : nat) (m : mdd) (f g h : nat) : option (mdd * nat) :=
  match n with
  | O => None
  | S n =>
      fn ← ar_nodes (d_ar m) !! f;
      match fn with
      | Term TOne => Some (m, g)
      | Term TZero => Some (m, h)
      | Term TUndet => Some (m, mdd_undet)
      | NT hf _ =>
          if g =? h then Some (m, g) else
          hit ← nm_ite_get w m f g h;
          match hit with
          | Some x => Some (m, x)
          | None =>
              top ← hdr_level (d_ar m) hf;
              top ← ite_top_step (d_ar m) top g;
              top ← ite_top_step (d_ar m) top h;
              '(hid, k) ← ite_top_header (d_ar m) [f; g; h] top;
              fc ← ite_cofactor (d_ar m) f top k;
              gc ← ite_cofactor (d_ar m) g top k;
              hc ← ite_cofactor (d_ar m) h top k;
              ts ← ite_triples k fc gc hc;
              '(m, ns) ← mapst (λ m t, nm_ite_f w n m t.1.1 t.1.2 t.2) m ts;
              let '(m, result) := nm_create_node w m hid ns in
              m ← nm_ite_put w m f g h result;
              Some (m, result)
          end
      end
  end.

Definition nm_not (w : N) (m : mdd) (f : nat) := nm_not_f w (ar_fuel (d_ar m)) m f.
(** mdd_ops.rs:49-97 *)
Definition nm_and (w : N) (m : mdd) (f g : nat) := nm_bin_f w MAnd (ar_fuel (d_ar m)) m f g.
(** mdd_ops.rs:99-145 *)
Definition nm_or (w : N) (m : mdd) (f g : nat) := nm_bin_f w MOr (ar_fuel (d_ar m)) m f g.
(** mdd_ops.rs:147-195 *)
Definition nm_xor (w : N) (m : mdd) (f g : nat) := nm_bin_f w MXOr (ar_fuel (d_ar m)) m f g.
(** mdd_ops.rs:288-340 *)
Definition nm_replace (w : N) (m : mdd) (f g : nat) := nm_bin_f w MReplace (ar_fuel (d_ar m)) m f g.
Definition nm_ite (w : N) (m : mdd) (f g h : nat) := nm_ite_f w (ar_fuel (d_ar m)) m f g h.

(** mdd_ops.rs:197-200 *)
Definition nm_imp (w : N) (m : mdd) (f g : nat) : option (mdd * nat) :=
  '(m, tmp) ← nm_not w m f; nm_or w m tmp g.
(** mdd_ops.rs:202-205 *)
Definition nm_nand (w : N) (m : mdd) (f g : nat) : option (mdd * nat) :=
  '(m, tmp) ← nm_and w m f g; nm_not w m tmp.
(** mdd_ops.rs:207-210 *)
Definition nm_nor (w : N) (m : mdd) (f g : nat) : option (mdd * nat) :=
  '(m, tmp) ← nm_or w m f g; nm_not w m tmp.
(** mdd_ops.rs:212-215 *)
Definition nm_xnor (w : N) (m : mdd) (f g : nat) : option (mdd * nat) :=
  '(m, tmp) ← nm_xor w m f g; nm_not w m tmp.


(** mdd.rs:142-175, the free list narrowed at 171 *)
Definition nm_gc (w : N) (m : mdd) (roots : list nat) : option (mdd * nat) :=
  '(m, k) ← mdd_gc m roots; Some (mdd_with_ar m (n_free w (d_ar m)), k).

(** The calls of SpecMdd.v on the narrowed manager *)
Definition nm_conn (w : N) (c : conn) : mdd → nat → nat → option (mdd * nat) :=
  match c with
  | And => nm_and w | Or => nm_or w | Xor => nm_xor w | Imp => nm_imp w
  | Nand => nm_nand w | Nor => nm_nor w | Xnor => nm_xnor w
  end.
Definition nm_exec (w : N) (m : mdd) (c : mdd_call) : option (mdd * nat) :=
  match c with
  | DHeader l s e => Some (mdd_create_header m l s e)
  | DNode h cs => Some (nm_create_node w m h cs)
  | DNot f => nm_not w m f
  | DConn c f g => nm_conn w c m f g
  | DReplace f g => nm_replace w m f g
  | DIte f g h => nm_ite w m f g h
  | DGc roots => nm_gc w m roots
  | DClear => Some (mdd_clear_cache m, 0)
  end.
