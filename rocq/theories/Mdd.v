(** Model of the (boolean, multi-valued) MDD manager.  Sources: mddcore/src/mdd.rs, mddcore/src/mdd_ops.rs. *)
From Verif Require Import Prelude ComputeCache Arena Bdd.

(** [xs.iter().map(|x| self.op(x)).collect()] where [op] mutates the manager; [None] = panic *)
Fixpoint mapst {S A B} (F : S → A → option (S * B)) (s : S) (l : list A) : option (S * list B) :=
  match l with
  | [] => Some (s, [])
  | x :: l => '(s, y) ← F s x; '(s, ys) ← mapst F s l; Some (s, y :: ys)
  end.

(** mdd.rs:32-50.  The three terminal variants are those of the BDD. *)
Record mdd := Mdd { d_ar : arena tv; d_cache : ccache; d_ite : ccache }.

(** mdd.rs:82-120; Node::id, mdd.rs:14-21, fixes zero = 0, one = 1, undet = 2 *)
Definition mdd_zero : nat := 0.
Definition mdd_one : nat := 1.
Definition mdd_undet : nat := 2.
Definition mdd_new : mdd :=
  Mdd (Arena [] [Term TZero; Term TOne; Term TUndet] ∅ []) cc_new cc_new.

Definition mdd_with_ar (m : mdd) (a : arena tv) : mdd := Mdd a (d_cache m) (d_ite m).

(** mdd.rs:183-189 *)
Definition mdd_create_header (m : mdd) (level : nat) (label : String.string) (edges : nat) : mdd * nat :=
  let '(a, h) := ar_create_header (d_ar m) level label edges in (mdd_with_ar m a, h).

(** [nodes.first()] is some [x] and [nodes.iter().all(|&y| x == y)], mdd.rs:192-196, mtmdd.rs:218-222 *)
Definition all_same (cs : list nat) : option nat :=
  match cs with
  | [] => None
  | x :: _ => if forallb (Nat.eqb x) cs then Some x else None
  end.

(** mdd.rs:191-204 *)
Definition mdd_create_node (m : mdd) (h : nat) (cs : list nat) : mdd * nat :=
  match all_same cs with
  | Some x => (m, x)
  | None => let '(a, id) := ar_hashcons (d_ar m) h cs in (mdd_with_ar m a, id)
  end.

(** mdd_ops.rs:5-26 *)
Inductive mop := MNot | MAnd | MOr | MXOr | MReplace.
Definition mop_code (o : mop) : N :=
  match o with MNot => 0%N | MAnd => 1%N | MOr => 2%N | MXOr => 3%N | MReplace => 4%N end.

(** mdd.rs:228-239 *)
Definition mdd_cache_get (m : mdd) (o : mop) (f g : nat) : option (option nat) :=
  r ← cc_get (d_cache m) (mop_code o) (N.of_nat f) (N.of_nat g); Some (option_map N.to_nat r).
Definition mdd_cache_put (m : mdd) (o : mop) (f g v : nat) : option mdd :=
  c ← cc_put (d_cache m) (mop_code o) (N.of_nat f) (N.of_nat g) (N.of_nat v);
  Some (Mdd (d_ar m) c (d_ite m)).
(** mdd.rs:243-254 *)
Definition mdd_ite_get (m : mdd) (f g h : nat) : option (option nat) :=
  r ← cc_get (d_ite m) (N.of_nat f) (N.of_nat g) (N.of_nat h); Some (option_map N.to_nat r).
Definition mdd_ite_put (m : mdd) (f g h v : nat) : option mdd :=
  c ← cc_put (d_ite m) (N.of_nat f) (N.of_nat g) (N.of_nat h) (N.of_nat v);
  Some (Mdd (d_ar m) (d_cache m) c).

(** mdd_ops.rs:29-47 *)
Fixpoint mdd_not_f (n : nat) (m : mdd) (f : nat) : option (mdd * nat) :=
  match n with
  | O => None
  | S n =>
      hit ← mdd_cache_get m MNot f 0;
      match hit with
      | Some x => Some (m, x)
      | None =>
          fn ← ar_nodes (d_ar m) !! f;
          '(m, result) ←
            match fn with
            | Term TUndet => Some (m, mdd_undet)
            | Term TZero => Some (m, mdd_one)
            | Term TOne => Some (m, mdd_zero)
            | NT hf fc =>
                '(m, ns) ← mapst (λ m f, mdd_not_f n m f) m fc;
                Some (mdd_create_node m hf ns)
            end;
          m ← mdd_cache_put m MNot f 0 result;
          Some (m, result)
      end
  end.

(** The arms of the binary operations that recurse into children, written once: which header the result
    gets and which operand pairs are visited.  Operands may live in two different forests (MtMdd2).
    mdd_ops.rs:61-87 (and), 109-135 (or), 159-185 (xor), 298-336 (replace); the last arm takes the header
    of [g] in mdd_ops.rs and of [f] in mtmdd_ops.rs / mtmdd2_ops.rs ([left]). *)
Definition expand {T1 T2} (left : bool) (a1 : arena T1) (a2 : arena T2) (f g : nat)
  (fn : node T1) (gn : node T2) : option (nat * list (nat * nat)) :=
  match fn, gn with
  | NT hf fc, NT hg gc =>
      lf ← hdr_level a1 hf;
      lg ← hdr_level a2 hg;
      if lg <? lf then Some (hf, map (λ c, (c, g)) fc)
      else if lf <? lg then Some (hg, map (λ c, (f, c)) gc)
      else Some (if left then hf else hg, zip fc gc)
  | NT hf fc, Term _ => Some (hf, map (λ c, (c, g)) fc)
  | Term _, NT hg gc => Some (hg, map (λ c, (f, c)) gc)
  | Term _, Term _ => None
  end.

(** Outcome of matching on the two operand nodes *)
Inductive arm := ARet (id : nat) | ANeg (id : nat) | ARec.

(** mdd_ops.rs:60-93 *)
Definition mdd_and_arm (f g : nat) (fn gn : node tv) : arm :=
  match fn, gn with
  | NT _ _, NT _ _ => if f =? g then ARet f else ARec
  | Term TUndet, _ => ARet mdd_undet
  | _, Term TUndet => ARet mdd_undet
  | Term TZero, _ => ARet mdd_zero
  | Term TOne, _ => ARet g
  | _, Term TZero => ARet mdd_zero
  | _, Term TOne => ARet f
  end.
(** mdd_ops.rs:108-141 *)
Definition mdd_or_arm (f g : nat) (fn gn : node tv) : arm :=
  match fn, gn with
  | NT _ _, NT _ _ => if f =? g then ARet f else ARec
  | Term TUndet, _ => ARet mdd_undet
  | _, Term TUndet => ARet mdd_undet
  | Term TZero, _ => ARet g
  | Term TOne, _ => ARet mdd_one
  | _, Term TZero => ARet f
  | _, Term TOne => ARet mdd_one
  end.
(** mdd_ops.rs:156-191 *)
Definition mdd_xor_arm (f g : nat) (fn gn : node tv) : arm :=
  match fn, gn with
  | NT _ _, NT _ _ => if f =? g then ARet mdd_zero else ARec
  | Term TUndet, _ => ARet mdd_undet
  | _, Term TUndet => ARet mdd_undet
  | Term TZero, _ => ARet g
  | Term TOne, _ => ANeg g
  | _, Term TZero => ARet f
  | _, Term TOne => ANeg f
  end.
(** mdd_ops.rs:294-336 *)
Definition mdd_replace_arm (f g : nat) (fn gn : node tv) : arm :=
  match fn, gn with
  | Term TUndet, _ => ARet g
  | _, Term TUndet => ARet f
  | Term TZero, _ => ARet mdd_zero
  | Term TOne, _ => ARet mdd_one
  | NT _ _, _ => ARec
  end.

(** The binary operations, mdd_ops.rs:49-195, 288-340: they differ in the operand swap ([replace] has
    none), the cache code and the terminal arms.  ([MNot] is not a binary operation; its entry is unused.) *)
Definition mop_swap (o : mop) : bool := match o with MAnd | MOr | MXOr => true | _ => false end.
Definition mop_arm (o : mop) : nat → nat → node tv → node tv → arm :=
  match o with
  | MAnd => mdd_and_arm | MOr => mdd_or_arm | MXOr => mdd_xor_arm | MReplace => mdd_replace_arm
  | MNot => λ f _ _ _, ANeg f
  end.

Fixpoint mdd_bin_f (o : mop) (n : nat) (m : mdd) (f g : nat) : option (mdd * nat) :=
  match n with
  | O => None
  | S n =>
      let '(f, g) := if mop_swap o && (g <? f) then (g, f) else (f, g) in
      hit ← mdd_cache_get m o f g;
      match hit with
      | Some x => Some (m, x)
      | None =>
          fn ← ar_nodes (d_ar m) !! f;
          gn ← ar_nodes (d_ar m) !! g;
          '(m, result) ←
            match mop_arm o f g fn gn with
            | ARet x => Some (m, x)
            | ANeg x => mdd_not_f (S n) m x
            | ARec =>
                '(h, ps) ← expand false (d_ar m) (d_ar m) f g fn gn;
                '(m, ns) ← mapst (λ m p, mdd_bin_f o n m p.1 p.2) m ps;
                Some (mdd_create_node m h ns)
            end;
          m ← mdd_cache_put m o f g result;
          Some (m, result)
      end
  end.

(** mdd_ops.rs:265-272, mtmdd2_ops.rs:413-432 *)
Definition ite_cofactor {T} (a : arena T) (id top k : nat) : option (list nat) :=
  lv ← ar_node_level a id;
  if decide (lv = Some top) then
    n ← ar_nodes a !! id;
    match n with NT _ cs => Some cs | Term _ => Some (replicate k id) end
  else Some (replicate k id).

(** mdd_ops.rs:277-286; [None] at the end = unreachable!() *)
Fixpoint ite_top_header {T} (a : arena T) (xs : list nat) (top : nat) : option (nat * nat) :=
  match xs with
  | [] => None
  | x :: xs =>
      lv ← ar_node_level a x;
      if decide (lv = Some top) then
        n ← ar_nodes a !! x;
        match n with NT h cs => Some (h, length cs) | Term _ => ite_top_header a xs top end
      else ite_top_header a xs top
  end.

(** mdd_ops.rs:243-249: one step of the maximum *)
Definition ite_top_step {T} (a : arena T) (top x : nat) : option nat :=
  lx ← ar_node_level a x;
  Some (match lx with Some l => if top <? l then l else top | None => top end).

(** [(0..k)] with [fc\[i\]], [gc\[i\]], [hc\[i\]], mdd_ops.rs:254; [None] = index panic *)
Definition ite_triples (k : nat) (fc gc hc : list nat) : option (list (nat * nat * nat)) :=
  mapM (λ i, x ← fc !! i; y ← gc !! i; z ← hc !! i; Some (x, y, z)) (seq 0 k).

(** mdd_ops.rs:226-258 *)
Fixpoint mdd_ite_f (n : nat) (m : mdd) (f g h : nat) : option (mdd * nat) :=
  match n with
  | O => None
  | S n =>
      fn ← ar_nodes (d_ar m) !! f;
      match fn with
      | Term TOne => Some (m, g)
      | Term TZero => Some (m, h)
      | Term TUndet => Some (m, mdd_undet)
      | NT hf _ =>
          if g =? h then Some (m, g) else
          hit ← mdd_ite_get m f g h;
          match hit with
          | Some x => Some (m, x)
          | None =>
              top ← hdr_level (d_ar m) hf;
              top ← ite_top_step (d_ar m) top g;
              top ← ite_top_step (d_ar m) top h;
              '(hid, k) ← ite_top_header (d_ar m) [f; g; h] top;
              fc ← ite_cofactor (d_ar m) f top k;
              gc ← ite_cofactor (d_ar m) g top k;
              hc ← ite_cofactor (d_ar m) h top k;
              ts ← ite_triples k fc gc hc;
              '(m, ns) ← mapst (λ m t, mdd_ite_f n m t.1.1 t.1.2 t.2) m ts;
              let '(m, result) := mdd_create_node m hid ns in
              m ← mdd_ite_put m f g h result;
              Some (m, result)
          end
      end
  end.

Definition mdd_not (m : mdd) (f : nat) := mdd_not_f (ar_fuel (d_ar m)) m f.
(** mdd_ops.rs:49-97 *)
Definition mdd_and (m : mdd) (f g : nat) := mdd_bin_f MAnd (ar_fuel (d_ar m)) m f g.
(** mdd_ops.rs:99-145 *)
Definition mdd_or (m : mdd) (f g : nat) := mdd_bin_f MOr (ar_fuel (d_ar m)) m f g.
(** mdd_ops.rs:147-195 *)
Definition mdd_xor (m : mdd) (f g : nat) := mdd_bin_f MXOr (ar_fuel (d_ar m)) m f g.
(** mdd_ops.rs:288-340 *)
Definition mdd_replace (m : mdd) (f g : nat) := mdd_bin_f MReplace (ar_fuel (d_ar m)) m f g.
Definition mdd_ite (m : mdd) (f g h : nat) := mdd_ite_f (ar_fuel (d_ar m)) m f g h.

(** mdd_ops.rs:197-200 *)
Definition mdd_imp (m : mdd) (f g : nat) : option (mdd * nat) :=
  '(m, tmp) ← mdd_not m f; mdd_or m tmp g.
(** mdd_ops.rs:202-205 *)
Definition mdd_nand (m : mdd) (f g : nat) : option (mdd * nat) :=
  '(m, tmp) ← mdd_and m f g; mdd_not m tmp.
(** mdd_ops.rs:207-210 *)
Definition mdd_nor (m : mdd) (f g : nat) : option (mdd * nat) :=
  '(m, tmp) ← mdd_or m f g; mdd_not m tmp.
(** mdd_ops.rs:212-215 *)
Definition mdd_xnor (m : mdd) (f g : nat) : option (mdd * nat) :=
  '(m, tmp) ← mdd_xor m f g; mdd_not m tmp.

(** mdd.rs:142-175; returns the number of free slots *)
Definition mdd_gc (m : mdd) (roots : list nat) : option (mdd * nat) :=
  '(a, lv) ← ar_gc (d_ar m) [mdd_zero; mdd_one; mdd_undet] roots;
  c ← cc_retain_live (d_cache m) lv;
  i ← cc_retain_live3 (d_ite m) lv;
  Some (Mdd a c i, length (ar_free a)).

(** mdd.rs:257-260 *)
Definition mdd_clear_cache (m : mdd) : mdd :=
  Mdd (d_ar m) (cc_clear (d_cache m)) (cc_clear (d_ite m)).
(** mdd.rs:179-181 *)
Definition mdd_live_node_count (m : mdd) : nat := ar_live_count (d_ar m).
