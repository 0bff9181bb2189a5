(** Model of the combined manager: a value forest and a boolean forest over the same variables.
    Sources: mddcore/src/mtmdd2.rs, mddcore/src/mtmdd2_ops.rs. *)
From Verif Require Import Prelude ComputeCache Arena Bdd Mdd MtMdd.

(** mtmdd2.rs:7-11 *)
Inductive mnode := NVal (id : nat) | NBool (id : nat).
Global Instance mnode_eq_dec : EqDecision mnode.
Proof. solve_decision. Defined.

(** mtmdd2.rs:14-25 *)
Record mm := MM { mm_b : mdd; mm_v : mt; mm_bc : ccache; mm_vc : ccache; mm_vite : ccache }.

(** mtmdd2.rs:31-39 *)
Definition mm_new : mm := MM mdd_new mt_new cc_new cc_new cc_new.
Definition mm_with_b (m : mm) (b : mdd) : mm := MM b (mm_v m) (mm_bc m) (mm_vc m) (mm_vite m).
Definition mm_with_v (m : mm) (v : mt) : mm := MM (mm_b m) v (mm_bc m) (mm_vc m) (mm_vite m).

(** mtmdd2.rs:74-96.  [undet_boolean] wraps the id of the {e value} forest's undetermined terminal. *)
Definition mm_one : mnode := NBool mdd_one.
Definition mm_zero : mnode := NBool mdd_zero.
Definition mm_value (m : mm) (z : Z) : mm * mnode :=
  let '(v, x) := mt_value (mm_v m) z in (mm_with_v m v, NVal x).
Definition mm_undet_boolean : mnode := NBool mt_undet.
Definition mm_undet_value : mnode := NVal mt_undet.

(** mtmdd2.rs:99-104; [None] = assert_eq! failure *)
Definition mm_create_header (m : mm) (level : nat) (label : String.string) (edges : nat) : option (mm * nat) :=
  let '(v, h1) := mt_create_header (mm_v m) level label edges in
  let '(b, h2) := mdd_create_header (mm_b m) level label edges in
  if h1 =? h2 then Some (MM b v (mm_bc m) (mm_vc m) (mm_vite m), h1) else None.

(** mtmdd2.rs:106-118; [None] = index panic on an empty slice *)
Definition node_id (x : mnode) : nat := match x with NVal f => f | NBool f => f end.
Definition mm_create_node (m : mm) (h : nat) (xs : list mnode) : option (mm * mnode) :=
  let elem := map node_id xs in
  match xs with
  | [] => None
  | NVal _ :: _ => let '(v, x) := mt_create_node (mm_v m) h elem in Some (mm_with_v m v, NVal x)
  | NBool _ :: _ => let '(b, x) := mdd_create_node (mm_b m) h elem in Some (mm_with_b m b, NBool x)
  end.

(** mtmdd2_ops.rs:10-30 *)
Inductive cop := CEq | CLt.
Definition cop_code (o : cop) : N := match o with CEq => 0%N | CLt => 1%N end.
Definition vif_code : N := 2%N.

(** mtmdd2.rs:134-144 *)
Definition mm_bc_get (m : mm) (o : cop) (f g : nat) : option (option nat) :=
  r ← cc_get (mm_bc m) (cop_code o) (N.of_nat f) (N.of_nat g); Some (option_map N.to_nat r).
Definition mm_bc_put (m : mm) (o : cop) (f g v : nat) : option mm :=
  c ← cc_put (mm_bc m) (cop_code o) (N.of_nat f) (N.of_nat g) (N.of_nat v);
  Some (MM (mm_b m) (mm_v m) c (mm_vc m) (mm_vite m)).
(** mtmdd2.rs:121-131 *)
Definition mm_vc_get (m : mm) (f g : nat) : option (option nat) :=
  r ← cc_get (mm_vc m) vif_code (N.of_nat f) (N.of_nat g); Some (option_map N.to_nat r).
Definition mm_vc_put (m : mm) (f g v : nat) : option mm :=
  c ← cc_put (mm_vc m) vif_code (N.of_nat f) (N.of_nat g) (N.of_nat v);
  Some (MM (mm_b m) (mm_v m) (mm_bc m) c (mm_vite m)).
(** mtmdd2.rs:149-160 *)
Definition mm_vite_get (m : mm) (f g h : nat) : option (option nat) :=
  r ← cc_get (mm_vite m) (N.of_nat f) (N.of_nat g) (N.of_nat h); Some (option_map N.to_nat r).
Definition mm_vite_put (m : mm) (f g h v : nat) : option mm :=
  c ← cc_put (mm_vite m) (N.of_nat f) (N.of_nat g) (N.of_nat h) (N.of_nat v);
  Some (MM (mm_b m) (mm_v m) (mm_bc m) (mm_vc m) c).

(** mtmdd2_ops.rs:131-136, 208-213 *)
Definition cop_test (o : cop) (a b : Z) : bool := match o with CEq => (a =? b)%Z | CLt => (a <? b)%Z end.
Definition cop_arm (o : cop) (fn gn : node vt) : option nat :=
  match fn, gn with
  | Term VUndet, _ => Some mdd_zero
  | _, Term VUndet => Some mdd_zero
  | Term (VVal a), Term (VVal b) => Some (if cop_test o a b then mdd_one else mdd_zero)
  | _, _ => None
  end.

(** veq, mtmdd2_ops.rs:122-179; vlt, mtmdd2_ops.rs:199-256 (equal up to cache code and comparison) *)
Fixpoint mm_cmp_f (o : cop) (n : nat) (m : mm) (f g : nat) : option (mm * nat) :=
  match n with
  | O => None
  | S n =>
      hit ← mm_bc_get m o f g;
      match hit with
      | Some x => Some (m, x)
      | None =>
          fn ← ar_nodes (t_ar (mm_v m)) !! f;
          gn ← ar_nodes (t_ar (mm_v m)) !! g;
          '(m, result) ←
            match cop_arm o fn gn with
            | Some x => Some (m, x)
            | None =>
                '(h, ps) ← expand true (t_ar (mm_v m)) (t_ar (mm_v m)) f g fn gn;
                '(m, ns) ← mapst (λ m p, mm_cmp_f o n m p.1 p.2) m ps;
                let '(b, x) := mdd_create_node (mm_b m) h ns in
                Some (mm_with_b m b, x)
            end;
          m ← mm_bc_put m o f g result;
          Some (m, result)
      end
  end.
Definition mm_veq (m : mm) (f g : nat) := mm_cmp_f CEq (ar_fuel (t_ar (mm_v m))) m f g.
Definition mm_vlt (m : mm) (f g : nat) := mm_cmp_f CLt (ar_fuel (t_ar (mm_v m))) m f g.

(** mtmdd2_ops.rs:323-326: the terminal arms of vif *)
Definition vif_arm (g : nat) (fn : node tv) (gn : node vt) : option nat :=
  match fn, gn with
  | Term TUndet, _ => Some mt_undet
  | _, Term VUndet => Some mt_undet
  | Term TZero, _ => Some mt_undet
  | Term TOne, _ => Some g
  | NT _ _, _ => None
  end.
(** vif, mtmdd2_ops.rs:314-363: [g] where [f] holds, undetermined elsewhere *)
Fixpoint mm_vif_f (n : nat) (m : mm) (f g : nat) : option (mm * nat) :=
  match n with
  | O => None
  | S n =>
      hit ← mm_vc_get m f g;
      match hit with
      | Some x => Some (m, x)
      | None =>
          fn ← ar_nodes (d_ar (mm_b m)) !! f;
          gn ← ar_nodes (t_ar (mm_v m)) !! g;
          '(m, result) ←
            match vif_arm g fn gn with
            | Some x => Some (m, x)
            | None =>
                '(h, ps) ← expand true (d_ar (mm_b m)) (t_ar (mm_v m)) f g fn gn;
                '(m, ns) ← mapst (λ m p, mm_vif_f n m p.1 p.2) m ps;
                let '(v, x) := mt_create_node (mm_v m) h ns in
                Some (mm_with_v m v, x)
            end;
          m ← mm_vc_put m f g result;
          Some (m, result)
      end
  end.
Definition mm_vif (m : mm) (f g : nat) := mm_vif_f (ar_fuel (d_ar (mm_b m))) m f g.

(** mtmdd2_ops.rs:437-451 *)
Definition vite_top_header (m : mm) (f g h top : nat) : option (nat * nat) :=
  lv ← ar_node_level (d_ar (mm_b m)) f;
  if decide (lv = Some top) then
    n ← ar_nodes (d_ar (mm_b m)) !! f;
    match n with NT h cs => Some (h, length cs) | Term _ => ite_top_header (t_ar (mm_v m)) [g; h] top end
  else ite_top_header (t_ar (mm_v m)) [g; h] top.

(** vite, mtmdd2_ops.rs:373-408 *)
Fixpoint mm_vite_f (n : nat) (m : mm) (f g h : nat) : option (mm * nat) :=
  match n with
  | O => None
  | S n =>
      fn ← ar_nodes (d_ar (mm_b m)) !! f;
      match fn with
      | Term TOne => Some (m, g)
      | Term TZero => Some (m, h)
      | Term TUndet => Some (m, mt_undet)
      | NT hf _ =>
          if g =? h then Some (m, g) else
          hit ← mm_vite_get m f g h;
          match hit with
          | Some x => Some (m, x)
          | None =>
              top ← hdr_level (d_ar (mm_b m)) hf;
              top ← ite_top_step (t_ar (mm_v m)) top g;
              top ← ite_top_step (t_ar (mm_v m)) top h;
              '(hid, k) ← vite_top_header m f g h top;
              fc ← ite_cofactor (d_ar (mm_b m)) f top k;
              gc ← ite_cofactor (t_ar (mm_v m)) g top k;
              hc ← ite_cofactor (t_ar (mm_v m)) h top k;
              ts ← ite_triples k fc gc hc;
              '(m, ns) ← mapst (λ m t, mm_vite_f n m t.1.1 t.1.2 t.2) m ts;
              let '(v, result) := mt_create_node (mm_v m) hid ns in
              m ← mm_vite_put (mm_with_v m v) f g h result;
              Some (m, result)
          end
      end
  end.
Definition mm_vite_op (m : mm) (f g h : nat) := mm_vite_f (ar_fuel (d_ar (mm_b m))) m f g h.

(** ** The tagged operations *)

Definition on_b (m : mm) (r : option (mdd * nat)) : option (mm * mnode) :=
  '(b, x) ← r; Some (mm_with_b m b, NBool x).
Definition on_v (m : mm) (r : option (mt * nat)) : option (mm * mnode) :=
  '(v, x) ← r; Some (mm_with_v m v, NVal x).
Definition as_bool (r : option (mm * nat)) : option (mm * mnode) := '(m, x) ← r; Some (m, NBool x).
Definition as_val (r : option (mm * nat)) : option (mm * mnode) := '(m, x) ← r; Some (m, NVal x).

(** mtmdd2_ops.rs:36-55 *)
Definition mm_logic (o : mop) (m : mm) (f g : mnode) : option (mm * mnode) :=
  match f, g with
  | NBool f, NBool g => on_b m (mdd_bin_f o (ar_fuel (d_ar (mm_b m))) (mm_b m) f g)
  | _, _ => Some (m, NBool mdd_undet)
  end.
Definition mm_and := mm_logic MAnd.
Definition mm_or := mm_logic MOr.
Definition mm_xor := mm_logic MXOr.
(** mtmdd2_ops.rs:57-62 *)
Definition mm_not (m : mm) (f : mnode) : option (mm * mnode) :=
  match f with
  | NBool f => on_b m (mdd_not (mm_b m) f)
  | _ => Some (m, NBool mdd_undet)
  end.
(** mtmdd2_ops.rs:64-104: add, sub, mul, div, max, min *)
Definition mm_arith (I : vint) (o : vop) (m : mm) (f g : mnode) : option (mm * mnode) :=
  match f, g with
  | NVal f, NVal g => on_v m (mt_bin I o (mm_v m) f g)
  | _, _ => Some (m, NVal mt_undet)
  end.
(** mtmdd2_ops.rs:111-120 *)
Definition mm_eq (m : mm) (f g : mnode) : option (mm * mnode) :=
  match f, g with
  | NBool f, NBool g =>
      on_b m ('(b, tmp) ← mdd_xor (mm_b m) f g; mdd_not b tmp)
  | NVal f, NVal g => as_bool (mm_veq m f g)
  | _, _ => Some (m, NBool mdd_undet)
  end.
(** mtmdd2_ops.rs:181-190 *)
Definition mm_neq (m : mm) (f g : mnode) : option (mm * mnode) :=
  match f, g with
  | NBool f, NBool g => on_b m (mdd_xor (mm_b m) f g)
  | NVal f, NVal g => '(m, tmp) ← mm_veq m f g; on_b m (mdd_not (mm_b m) tmp)
  | _, _ => Some (m, NBool mdd_undet)
  end.
(** mtmdd2_ops.rs:192-197 *)
Definition mm_lt (m : mm) (f g : mnode) : option (mm * mnode) :=
  match f, g with
  | NVal f, NVal g => as_bool (mm_vlt m f g)
  | _, _ => Some (m, NBool mdd_undet)
  end.
(** mtmdd2_ops.rs:258-270 *)
Definition mm_lte (m : mm) (f g : mnode) : option (mm * mnode) :=
  match f, g with
  | NVal f, NVal g =>
      '(m, resulteq) ← mm_veq m f g;
      if resulteq =? mdd_one then Some (m, NBool mdd_one)
      else as_bool (mm_vlt m f g)
  | _, _ => Some (m, NBool mdd_undet)
  end.
(** mtmdd2_ops.rs:272-280 *)
Definition mm_gt (m : mm) (f g : mnode) : option (mm * mnode) :=
  match f, g with
  | NVal f, NVal g => as_bool (mm_vlt m g f)
  | _, _ => Some (m, NBool mdd_undet)
  end.
(** mtmdd2_ops.rs:282-291 *)
Definition mm_gte (m : mm) (f g : mnode) : option (mm * mnode) :=
  match f, g with
  | NVal f, NVal g => '(m, resultlt) ← mm_vlt m f g; on_b m (mdd_not (mm_b m) resultlt)
  | _, _ => Some (m, NBool mdd_undet)
  end.
(** mtmdd2_ops.rs:293-312; [None] in the last case = panic!() *)
Definition mm_ite (m : mm) (f g h : mnode) : option (mm * mnode) :=
  match f, g, h with
  | NBool f, NVal g, NVal h => as_val (mm_vite_op m f g h)
  | NBool f, NBool g, NBool h => on_b m (mdd_ite (mm_b m) f g h)
  | _, NVal _, NVal _ => Some (m, NVal mt_undet)
  | _, NBool _, NBool _ => Some (m, NBool mdd_undet)
  | _, _, _ => None
  end.

(** mtmdd2.rs:178-193 *)
Definition vroots (roots : list mnode) : list nat := omap (λ r, match r with NVal f => Some f | _ => None end) roots.
Definition broots (roots : list mnode) : list nat := omap (λ r, match r with NBool f => Some f | _ => None end) roots.
Definition mm_gc (m : mm) (roots : list mnode) : option (mm * (nat * nat)) :=
  '(v, nv) ← mt_gc (mm_v m) (vroots roots);
  '(b, nb) ← mdd_gc (mm_b m) (broots roots);
  Some (MM b v (cc_clear (mm_bc m)) (cc_clear (mm_vc m)) (cc_clear (mm_vite m)), (nv, nb)).

(** mtmdd2.rs:163-169 *)
Definition mm_clear_cache (m : mm) : mm :=
  MM (mdd_clear_cache (mm_b m)) (mt_clear_cache (mm_v m))
     (cc_clear (mm_bc m)) (cc_clear (mm_vc m)) (cc_clear (mm_vite m)).
(** mtmdd2.rs:197-199 *)
Definition mm_live_node_count (m : mm) : nat :=
  mt_live_node_count (mm_v m) + mdd_live_node_count (mm_b m).
