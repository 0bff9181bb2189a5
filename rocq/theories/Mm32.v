(** The combined manager with the stored ids narrowed to [w] bits (32 in the source), in both forests and in its
    own three memo tables; the functions repeat MtMdd2.v with the casts written in.
    Sources: mddcore/src/mtmdd2.rs, mddcore/src/mtmdd2_ops.rs. *)
From Verif Require Import Prelude ComputeCache Arena Bdd Mdd MtMdd MtMdd2 SpecMdd Bdd32 Mdd32 Mt32.

(** The calls of SpecMdd.v with what they answer. *)
Inductive mm_ans := RNode (x : mnode) | RNum (n : nat) | RPair (a b : nat) | RUnit.
Definition mnd (r : option (mm * mnode)) : option (mm * mm_ans) := '(m, x) ← r; Some (m, RNode x).
Definition mnum (r : option (mm * nat)) : option (mm * mm_ans) := '(m, x) ← r; Some (m, RNum x).
Definition mm_answer (I : vint) (m : mm) (c : mm_call) : option (mm * mm_ans) :=
  match c with
  | XHeader l s e => mnum (mm_create_header m l s e)
  | XValue z => mnd (Some (mm_value m z))
  | XNode h xs => mnd (mm_create_node m h xs)
  | XNot f => mnd (mm_not m f)
  | XGate o f g => mnd (mm_gate o m f g)
  | XArith o f g => mnd (mm_arith I o m f g)
  | XCmp c f g => mnd (mm_cmp c m f g)
  | XIte f g h => mnd (mm_ite m f g h)
  | XVif f g => mnd (as_val (mm_vif m f g))
  | XGc roots => '(m, (a, b)) ← mm_gc m roots; Some (m, RPair a b)
  | XClear => Some (mm_clear_cache m, RUnit)
  end.

(** mtmdd2.rs:120-144: casts at 123, 130, 137, 143 *)
Definition nmm_bc_get (w : N) (m : mm) (o : cop) (f g : nat) : option (option nat) := mm_bc_get m o (narrow w f) (narrow w g).
Definition nmm_bc_put (w : N) (m : mm) (o : cop) (f g v : nat) : option mm :=
  mm_bc_put m o (narrow w f) (narrow w g) (narrow w v).
Definition nmm_vc_get (w : N) (m : mm) (f g : nat) : option (option nat) := mm_vc_get m (narrow w f) (narrow w g).
Definition nmm_vc_put (w : N) (m : mm) (f g v : nat) : option mm := mm_vc_put m (narrow w f) (narrow w g) (narrow w v).
(** mtmdd2.rs:149-160 *)
Definition nmm_vite_get (w : N) (m : mm) (f g h : nat) : option (option nat) :=
  mm_vite_get m (narrow w f) (narrow w g) (narrow w h).
Definition nmm_vite_put (w : N) (m : mm) (f g h v : nat) : option mm :=
  mm_vite_put m (narrow w f) (narrow w g) (narrow w h) (narrow w v).

(** mtmdd2.rs:74-96 *)
Definition nmm_value (w : N) (m : mm) (z : Z) : mm * mnode :=
  let '(v, x) := nt_value w (mm_v m) z in (mm_with_v m v, NVal x).
(** mtmdd2.rs:106-118 *)
Definition nmm_create_node (w : N) (m : mm) (h : nat) (xs : list mnode) : option (mm * mnode) :=
  let elem := map node_id xs in
  match xs with
  | [] => None
  | NVal _ :: _ => let '(v, x) := nt_create_node w (mm_v m) h elem in Some (mm_with_v m v, NVal x)
  | NBool _ :: _ => let '(b, x) := nm_create_node w (mm_b m) h elem in Some (mm_with_b m b, NBool x)
  end.

(** veq, mtmdd2_ops.rs:122-179; vlt, mtmdd2_ops.rs:199-256 (equal up to cache code and comparison) *)
Fixpoint nmm_cmp_f (w : N) (o : cop) (n : nat) (m : mm) (f g : nat) : option (mm * nat) :=
  match n with
  | O => None
  | S n =>
      hit ← nmm_bc_get w m o f g;
      match hit with
      | Some x => Some (m, x)
      | None =>
          fn ← ar_nodes (t_ar (mm_v m)) !! f;
          gn ← ar_nodes (t_ar (mm_v m)) !! g;
          '(m, result) ←
            match cop_arm o fn gn with
            | Some x => Some (m, x)
            | None =>
                '(h, ps) ← expand true (t_ar (mm_v m)) (t_ar (mm_v m)) f g fn gn;
                '(m, ns) ← mapst (λ m p, nmm_cmp_f w o n m p.1 p.2) m ps;
                let '(b, x) := nm_create_node w (mm_b m) h ns in
                Some (mm_with_b m b, x)
            end;
          m ← nmm_bc_put w m o f g result;
          Some (m, result)
      end
  end.
Definition nmm_veq (w : N) (m : mm) (f g : nat) := nmm_cmp_f w CEq (ar_fuel (t_ar (mm_v m))) m f g.
Definition nmm_vlt (w : N) (m : mm) (f g : nat) := nmm_cmp_f w CLt (ar_fuel (t_ar (mm_v m))) m f g.

(** vif, mtmdd2_ops.rs:314-363: [g] where [f] holds, undetermined elsewhere *)
Fixpoint nmm_vif_f (w : N) (n : nat) (m : mm) (f g : nat) : option (mm * nat) :=
  match n with
  | O => None
  | S n =>
      hit ← nmm_vc_get w m f g;
      match hit with
      | Some x => Some (m, x)
      | None =>
          fn ← ar_nodes (d_ar (mm_b m)) !! f;
          gn ← ar_nodes (t_ar (mm_v m)) !! g;
          '(m, result) ←
            match vif_arm g fn gn with
            | Some x => Some (m, x)
            | None =>
                '(h, ps) ← expand true (d_ar (mm_b m)) (t_ar (mm_v m)) f g fn gn;
                '(m, ns) ← mapst (λ m p, nmm_vif_f w n m p.1 p.2) m ps;
                let '(v, x) := nt_create_node w (mm_v m) h ns in
                Some (mm_with_v m v, x)
            end;
          m ← nmm_vc_put w m f g result;
          Some (m, result)
      end
  end.
Definition nmm_vif (w : N) (m : mm) (f g : nat) := nmm_vif_f w (ar_fuel (d_ar (mm_b m))) m f g.

(** vite, mtmdd2_ops.rs:373-408 *)
Fixpoint nmm_vite_f (w : N) (n : nat) (m : mm) (f g h : nat) : option (mm * nat) :=
  match n with
  | O => None
  | S n =>
      fn ← ar_nodes (d_ar (mm_b m)) !! f;
      match fn with
      | Term TOne => Some (m, g)
      | Term TZero => Some (m, h)
      | Term TUndet => Some (m, mt_undet)
      | NT hf _ =>
          if g =? h then Some (m, g) else
          hit ← nmm_vite_get w m f g h;
          match hit with
          | Some x => Some (m, x)
          | None =>
              top ← hdr_level (d_ar (mm_b m)) hf;
              top ← ite_top_step (t_ar (mm_v m)) top g;
              top ← ite_top_step (t_ar (mm_v m)) top h;
              '(hid, k) ← vite_top_header m f g h top;
              fc ← ite_cofactor (d_ar (mm_b m)) f top k;
              gc ← ite_cofactor (t_ar (mm_v m)) g top k;
              hc ← ite_cofactor (t_ar (mm_v m)) h top k;
              ts ← ite_triples k fc gc hc;
              '(m, ns) ← mapst (λ m t, nmm_vite_f w n m t.1.1 t.1.2 t.2) m ts;
              let '(v, result) := nt_create_node w (mm_v m) hid ns in
              m ← nmm_vite_put w (mm_with_v m v) f g h result;
              Some (m, result)
          end
      end
  end.
Definition nmm_vite_op (w : N) (m : mm) (f g h : nat) := nmm_vite_f w (ar_fuel (d_ar (mm_b m))) m f g h.

(** mtmdd2_ops.rs:36-55 *)
Definition nmm_logic (w : N) (o : mop) (m : mm) (f g : mnode) : option (mm * mnode) :=
  match f, g with
  | NBool f, NBool g => on_b m (nm_bin_f w o (ar_fuel (d_ar (mm_b m))) (mm_b m) f g)
  | _, _ => Some (m, NBool mdd_undet)
  end.
Definition nmm_and (w : N) := nmm_logic w MAnd.
Definition nmm_or (w : N) := nmm_logic w MOr.
Definition nmm_xor (w : N) := nmm_logic w MXOr.
(** mtmdd2_ops.rs:57-62 *)
Definition nmm_not (w : N) (m : mm) (f : mnode) : option (mm * mnode) :=
  match f with
  | NBool f => on_b m (nm_not w (mm_b m) f)
  | _ => Some (m, NBool mdd_undet)
  end.
(** mtmdd2_ops.rs:64-104: add, sub, mul, div, max, min *)
Definition nmm_arith (w : N) (I : vint) (o : vop) (m : mm) (f g : mnode) : option (mm * mnode) :=
  match f, g with
  | NVal f, NVal g => on_v m (nt_bin w I o (mm_v m) f g)
  | _, _ => Some (m, NVal mt_undet)
  end.
(** mtmdd2_ops.rs:111-120 *)
Definition nmm_eq (w : N) (m : mm) (f g : mnode) : option (mm * mnode) :=
  match f, g with
  | NBool f, NBool g =>
      on_b m ('(b, tmp) ← nm_xor w (mm_b m) f g; nm_not w b tmp)
  | NVal f, NVal g => as_bool (nmm_veq w m f g)
  | _, _ => Some (m, NBool mdd_undet)
  end.
(** mtmdd2_ops.rs:181-190 *)
Definition nmm_neq (w : N) (m : mm) (f g : mnode) : option (mm * mnode) :=
  match f, g with
  | NBool f, NBool g => on_b m (nm_xor w (mm_b m) f g)
  | NVal f, NVal g => '(m, tmp) ← nmm_veq w m f g; on_b m (nm_not w (mm_b m) tmp)
  | _, _ => Some (m, NBool mdd_undet)
  end.
(** mtmdd2_ops.rs:192-197 *)
Definition nmm_lt (w : N) (m : mm) (f g : mnode) : option (mm * mnode) :=
  match f, g with
  | NVal f, NVal g => as_bool (nmm_vlt w m f g)
  | _, _ => Some (m, NBool mdd_undet)
  end.
(** mtmdd2_ops.rs:258-270 *)
Definition nmm_lte (w : N) (m : mm) (f g : mnode) : option (mm * mnode) :=
  match f, g with
  | NVal f, NVal g =>
      '(m, resulteq) ← nmm_veq w m f g;
      if resulteq =? mdd_one then Some (m, NBool mdd_one)
      else as_bool (nmm_vlt w m f g)
  | _, _ => Some (m, NBool mdd_undet)
  end.
(** mtmdd2_ops.rs:272-280 *)
Definition nmm_gt (w : N) (m : mm) (f g : mnode) : option (mm * mnode) :=
  match f, g with
  | NVal f, NVal g => as_bool (nmm_vlt w m g f)
  | _, _ => Some (m, NBool mdd_undet)
  end.
(** mtmdd2_ops.rs:282-291 *)
Definition nmm_gte (w : N) (m : mm) (f g : mnode) : option (mm * mnode) :=
  match f, g with
  | NVal f, NVal g => '(m, resultlt) ← nmm_vlt w m f g; on_b m (nm_not w (mm_b m) resultlt)
  | _, _ => Some (m, NBool mdd_undet)
  end.
(** mtmdd2_ops.rs:293-312; [None] in the last case = panic!() *)
Definition nmm_ite (w : N) (m : mm) (f g h : mnode) : option (mm * mnode) :=
  match f, g, h with
  | NBool f, NVal g, NVal h => as_val (nmm_vite_op w m f g h)
  | NBool f, NBool g, NBool h => on_b m (nm_ite w (mm_b m) f g h)
  | _, NVal _, NVal _ => Some (m, NVal mt_undet)
  | _, NBool _, NBool _ => Some (m, NBool mdd_undet)
  | _, _, _ => None
  end.

(** mtmdd2.rs:178-193 *)
Definition nmm_gc (w : N) (m : mm) (roots : list mnode) : option (mm * (nat * nat)) :=
  '(v, nv) ← nt_gc w (mm_v m) (vroots roots);
  '(b, nb) ← nm_gc w (mm_b m) (broots roots);
  Some (MM b v (cc_clear (mm_bc m)) (cc_clear (mm_vc m)) (cc_clear (mm_vite m)), (nv, nb)).

(** The calls of SpecMdd.v on the narrowed manager, with their answers *)
Definition nmm_cmp (w : N) (c : cmp) : mm → mnode → mnode → option (mm * mnode) :=
  match c with
  | Eq => nmm_eq w | Neq => nmm_neq w | Lt => nmm_lt w | Lte => nmm_lte w | Gt => nmm_gt w | Gte => nmm_gte w
  end.
Definition nmm_gate (w : N) (o : gate) : mm → mnode → mnode → option (mm * mnode) :=
  match o with GAnd => nmm_and w | GOr => nmm_or w | GXor => nmm_xor w end.
Definition nmm_answer (w : N) (I : vint) (m : mm) (c : mm_call) : option (mm * mm_ans) :=
  match c with
  | XHeader l s e => mnum (mm_create_header m l s e)
  | XValue z => mnd (Some (nmm_value w m z))
  | XNode h xs => mnd (nmm_create_node w m h xs)
  | XNot f => mnd (nmm_not w m f)
  | XGate o f g => mnd (nmm_gate w o m f g)
  | XArith o f g => mnd (nmm_arith w I o m f g)
  | XCmp c f g => mnd (nmm_cmp w c m f g)
  | XIte f g h => mnd (nmm_ite w m f g h)
  | XVif f g => mnd (as_val (nmm_vif w m f g))
  | XGc roots => '(m, (a, b)) ← nmm_gc w m roots; Some (m, RPair a b)
  | XClear => Some (mm_clear_cache m, RUnit)
  end.
