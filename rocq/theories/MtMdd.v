(** Model of the multi-terminal MDD manager.  Sources: mddcore/src/mtmdd.rs, mddcore/src/mtmdd_ops.rs. *)
From Verif Require Import Prelude ComputeCache Arena Bdd Mdd.

(** mtmdd.rs:35-39: the terminal variants *)
Inductive vt := VUndet | VVal (z : Z).
Global Instance vt_eq_dec : EqDecision vt.
Proof. solve_decision. Defined.

(** mddcore/src/nodes.rs:68-86, MddValue.  Values are unbounded [Z]; what the machine type does with a result
    out of range is the parameter [vi_ovf] ([None] = panic, as in a build with overflow checks; wrapping
    is [Some] of the wrapped value).  [vi_min] is the type's least value: [MIN / -1] and [MIN % -1] panic in
    every build. *)
Record vint := VInt { vi_min : Z; vi_ovf : Z → option Z }.

(** mtmdd.rs:62-73 *)
Record mt := Mt { t_ar : arena vt; t_vtab : gmap Z nat; t_cache : ccache }.

(** mtmdd.rs:111-133; undet = 0 *)
Definition mt_undet : nat := 0.
Definition mt_new : mt := Mt (Arena [] [Term VUndet] ∅ []) ∅ cc_new.
Definition mt_with_ar (m : mt) (a : arena vt) : mt := Mt a (t_vtab m) (t_cache m).

(** mtmdd.rs:200-206 *)
Definition mt_create_header (m : mt) (level : nat) (label : String.string) (edges : nat) : mt * nat :=
  let '(a, h) := ar_create_header (t_ar m) level label edges in (mt_with_ar m a, h).

(** mtmdd.rs:208-215 (alloc, new_terminal: mtmdd.rs:135-155) *)
Definition mt_value (m : mt) (z : Z) : mt * nat :=
  match t_vtab m !! z with
  | Some x => (m, x)
  | None =>
      let '(a, id) := ar_alloc (t_ar m) (Term (VVal z)) in
      (Mt a (<[z := id]> (t_vtab m)) (t_cache m), id)
  end.

(** mtmdd.rs:217-230 *)
Definition mt_create_node (m : mt) (h : nat) (cs : list nat) : mt * nat :=
  match all_same cs with
  | Some x => (m, x)
  | None => let '(a, id) := ar_hashcons (t_ar m) h cs in (mt_with_ar m a, id)
  end.

(** mtmdd_ops.rs:7-33 *)
Inductive vop := VAdd | VSub | VMul | VDiv | VRem | VMin | VMax | VReplace.
Definition vop_code (o : vop) : N :=
  match o with
  | VAdd => 0%N | VSub => 1%N | VMul => 2%N | VDiv => 3%N | VRem => 4%N | VMin => 5%N | VMax => 6%N
  | VReplace => 7%N
  end.

(** mtmdd.rs:247-260 *)
Definition mt_cache_get (m : mt) (o : vop) (f g : nat) : option (option nat) :=
  r ← cc_get (t_cache m) (vop_code o) (N.of_nat f) (N.of_nat g); Some (option_map N.to_nat r).
Definition mt_cache_put (m : mt) (o : vop) (f g v : nat) : option mt :=
  c ← cc_put (t_cache m) (vop_code o) (N.of_nat f) (N.of_nat g) (N.of_nat v);
  Some (Mt (t_ar m) (t_vtab m) c).

(** [if f > g { swap }]: in add, mul, min, max only *)
Definition vop_swap (o : vop) : bool :=
  match o with VAdd | VMul | VMin | VMax => true | _ => false end.

(** Outcome of matching on the two operand nodes.  [VQuit] is the early [return self.undet()] of
    div and rem, which skips the cache; [VPanic] an arithmetic panic. *)
Inductive varm := VRet (id : nat) | VNum (z : Z) | VQuit | VPanic | VRec.

Definition varm_of (r : option Z) : varm := match r with Some z => VNum z | None => VPanic end.

(** Terminal x Terminal: mtmdd_ops.rs add 53-55, sub 108-110, mul 166-168, div 221-226, rem 279-284,
    min 340-342, max 398-400 *)
Definition vop_num (I : vint) (o : vop) (a b : Z) : varm :=
  match o with
  | VAdd => varm_of (vi_ovf I (a + b))
  | VSub => varm_of (vi_ovf I (a - b))
  | VMul => varm_of (vi_ovf I (a * b))
  | VDiv => if (b =? 0)%Z then VQuit
            else if (a =? vi_min I)%Z && (b =? -1)%Z then VPanic else VNum (Z.quot a b)
  | VRem => if (b =? 0)%Z then VQuit
            else if (a =? vi_min I)%Z && (b =? -1)%Z then VPanic else VNum (Z.rem a b)
  | VMin => VNum (Z.min a b)
  | VMax => VNum (Z.max a b)
  | VReplace => VPanic
  end.

(** mtmdd_ops.rs: the match arms (add 50-94); replace 450-487 *)
Definition vop_arm (I : vint) (o : vop) (f g : nat) (fn gn : node vt) : varm :=
  match o with
  | VReplace =>
      match fn, gn with
      | Term VUndet, _ => VRet g
      | _, Term VUndet => VRet f
      | Term _, _ => VRet f
      | _, _ => VRec
      end
  | _ =>
      match fn, gn with
      | Term VUndet, _ => VRet mt_undet
      | _, Term VUndet => VRet mt_undet
      | Term (VVal a), Term (VVal b) => vop_num I o a b
      | _, _ => VRec
      end
  end.

(** The binary operations (textual copies of one another up to swap, cache code and terminal arms):
    mtmdd_ops.rs add 40-98, sub 100-153, mul 155-211, div 213-269, rem 271-327, min 329-385,
    max 387-443, replace 445-490 *)
Fixpoint mt_bin_f (I : vint) (o : vop) (n : nat) (m : mt) (f g : nat) : option (mt * nat) :=
  match n with
  | O => None
  | S n =>
      let '(f, g) := if vop_swap o && (g <? f) then (g, f) else (f, g) in
      hit ← mt_cache_get m o f g;
      match hit with
      | Some x => Some (m, x)
      | None =>
          fn ← ar_nodes (t_ar m) !! f;
          gn ← ar_nodes (t_ar m) !! g;
          let finish (r : mt * nat) : option (mt * nat) :=
            m ← mt_cache_put r.1 o f g r.2; Some (m, r.2) in
          match vop_arm I o f g fn gn with
          | VRet x => finish (m, x)
          | VNum z => finish (mt_value m z)
          | VQuit => Some (m, mt_undet)
          | VPanic => None
          | VRec =>
              '(h, ps) ← expand true (t_ar m) (t_ar m) f g fn gn;
              '(m, ns) ← mapst (λ m p, mt_bin_f I o n m p.1 p.2) m ps;
              finish (mt_create_node m h ns)
          end
      end
  end.
Definition mt_bin (I : vint) (o : vop) (m : mt) (f g : nat) := mt_bin_f I o (ar_fuel (t_ar m)) m f g.

(** [vtable.retain(|_, v| live\[v\])], mtmdd.rs:179 *)
Definition mt_retain (live : list bool) (t : gmap Z nat) : option (gmap Z nat) :=
  if decide (map_Forall (λ _ v, v < length live) t)
  then Some (filter (λ kv, live !! kv.2 = Some true) t) else None.

(** mtmdd.rs:162-192 *)
Definition mt_gc (m : mt) (roots : list nat) : option (mt * nat) :=
  '(a, lv) ← ar_gc (t_ar m) [mt_undet] roots;
  vt ← mt_retain lv (t_vtab m);
  c ← cc_retain_live (t_cache m) lv;
  Some (Mt a vt c, length (ar_free a)).

(** mtmdd.rs:263-265 *)
Definition mt_clear_cache (m : mt) : mt := Mt (t_ar m) (t_vtab m) (cc_clear (t_cache m)).
(** mtmdd.rs:196-198 *)
Definition mt_live_node_count (m : mt) : nat := ar_live_count (t_ar m).
