(** The multi-terminal MDD manager and the ZMDD manager with their stored ids narrowed to [w] bits (32 in the
    source); the functions repeat MtMdd.v and Zmdd.v with the casts written in.  Sources: mddcore/src/mtmdd.rs,
    mtmdd_ops.rs, zmdd.rs, zmdd_ops.rs, nodes.rs:20-30. *)
From Verif Require Import Prelude ComputeCache Arena Bdd Mdd MtMdd Zmdd SpecMdd SpecZmdd Bdd32.

(** mtmdd.rs:208-215, zmdd.rs:150-157: the value table stores the narrowed id, the caller gets the wide one *)
Definition nt_value (w : N) (m : mt) (z : Z) : mt * nat :=
  match t_vtab m !! z with
  | Some x => (m, x)
  | None =>
      let '(a, id) := ar_alloc (t_ar m) (Term (VVal z)) in
      (Mt a (<[z := narrow w id]> (t_vtab m)) (t_cache m), id)
  end.
(** mtmdd.rs:217-230 *)
Definition nt_create_node (w : N) (m : mt) (h : nat) (cs : list nat) : mt * nat :=
  match all_same cs with
  | Some x => (m, x)
  | None => let '(a, id) := n_hashcons w (t_ar m) h cs in (mt_with_ar m a, id)
  end.
(** mtmdd.rs:247-260 *)
Definition nt_cache_get (w : N) (m : mt) (o : vop) (f g : nat) : option (option nat) :=
  mt_cache_get m o (narrow w f) (narrow w g).
Definition nt_cache_put (w : N) (m : mt) (o : vop) (f g v : nat) : option mt :=
  mt_cache_put m o (narrow w f) (narrow w g) (narrow w v).
(** mtmdd_ops.rs:40-490 (see MtMdd.v) *)
Fixpoint nt_bin_f (w : N) (I : vint) (o : vop) (n : nat) (m : mt) (f g : nat) : option (mt * nat) :=
  match n with
  | O => None
  | S n =>
      let '(f, g) := if vop_swap o && (g <? f) then (g, f) else (f, g) in
      hit ← nt_cache_get w m o f g;
      match hit with
      | Some x => Some (m, x)
      | None =>
          fn ← ar_nodes (t_ar m) !! f;
          gn ← ar_nodes (t_ar m) !! g;
          let finish (r : mt * nat) : option (mt * nat) :=
            m ← nt_cache_put w r.1 o f g r.2; Some (m, r.2) in
          match vop_arm I o f g fn gn with
          | VRet x => finish (m, x)
          | VNum z => finish (nt_value w m z)
          | VQuit => Some (m, mt_undet)
          | VPanic => None
          | VRec =>
              '(h, ps) ← expand true (t_ar m) (t_ar m) f g fn gn;
              '(m, ns) ← mapst (λ m p, nt_bin_f w I o n m p.1 p.2) m ps;
              finish (nt_create_node w m h ns)
          end
      end
  end.
Definition nt_bin (w : N) (I : vint) (o : vop) (m : mt) (f g : nat) := nt_bin_f w I o (ar_fuel (t_ar m)) m f g.

(** mtmdd.rs:162-192, zmdd.rs:109-134: the free list narrowed *)
Definition nt_gc (w : N) (m : mt) (roots : list nat) : option (mt * nat) :=
  '(m, k) ← mt_gc m roots; Some (mt_with_ar m (n_free w (t_ar m)), k).
(** The calls of SpecMdd.v on the narrowed manager *)
Definition nt_exec (w : N) (I : vint) (m : mt) (c : mt_call) : option (mt * nat) :=
  match c with
  | THeader l s e => Some (mt_create_header m l s e)
  | TValue z => Some (nt_value w m z)
  | TNode h cs => Some (nt_create_node w m h cs)
  | TBin o f g => nt_bin w I o m f g
  | TGc roots => nt_gc w m roots
  | TClear => Some (mt_clear_cache m, 0)
  end.

(** ** ZMDD *)
(** zmdd.rs:163-174 *)
Definition nzm_create_node (w : N) (m : mt) (h : nat) (cs : list nat) : option (mt * nat) :=
  match cs with
  | [] => None
  | c :: cs' =>
      if forallb (Nat.eqb zm_undet) cs' then Some (m, c)
      else let '(a, id) := n_hashcons w (t_ar m) h cs in Some (mt_with_ar m a, id)
  end.
(** zmdd.rs:213-223 *)
Definition nzm_cache_get (w : N) (m : mt) (o : zop) (f g : nat) : option (option nat) :=
  zm_cache_get m o (narrow w f) (narrow w g).
Definition nzm_cache_put (w : N) (m : mt) (o : zop) (f g v : nat) : option mt :=
  zm_cache_put m o (narrow w f) (narrow w g) (narrow w v).
(** zmdd.rs:195-206; [n] bounds the recursion depth *)
Fixpoint nzm_set_baseline_f (w : N) (n : nat) (m : mt) (id : nat) (v : Z) : option (mt * nat) :=
  match n with
  | O => None
  | S n =>
      nd ← ar_nodes (t_ar m) !! id;
      match nd with
      | Term VUndet => Some (nt_value w m v)
      | Term (VVal _) => Some (m, id)
      | NT h cs =>
          match cs with
          | [] => None
          | c :: cs => '(m, r) ← nzm_set_baseline_f w n m c v; nzm_create_node w m h (r :: cs)
          end
      end
  end.
Definition nzm_set_baseline (w : N) (m : mt) (id : nat) (v : Z) := nzm_set_baseline_f w (ar_fuel (t_ar m)) m id v.

(** zmdd_ops.rs:38-88 *)
Fixpoint nzm_intersect_f (w : N) (n : nat) (m : mt) (f g : nat) : option (mt * nat) :=
  match n with
  | O => None
  | S n =>
      let '(f, g) := if g <? f then (g, f) else (f, g) in
      hit ← nzm_cache_get w m ZInter f g;
      match hit with
      | Some x => Some (m, x)
      | None =>
          fn ← ar_nodes (t_ar m) !! f;
          gn ← ar_nodes (t_ar m) !! g;
          '(m, r) ←
            match fn, gn with
            | Term VUndet, _ => Some (m, zm_undet)
            | _, Term VUndet => Some (m, zm_undet)
            | Term (VVal a), Term (VVal b) => if (a =? b)%Z then Some (nt_value w m a) else Some (m, zm_undet)
            | NT _ fc, Term (VVal _) => f0 ← fc !! 0; nzm_intersect_f w n m f0 g
            | Term (VVal _), NT _ gc => g0 ← gc !! 0; nzm_intersect_f w n m f g0
            | NT hf fc, NT hg gc =>
                lf ← hdr_level (t_ar m) hf;
                lg ← hdr_level (t_ar m) hg;
                if lg <? lf then f0 ← fc !! 0; nzm_intersect_f w n m f0 g
                else if lf <? lg then g0 ← gc !! 0; nzm_intersect_f w n m f g0
                else '(m, cs) ← zm_zip (nzm_intersect_f w n) m fc gc; nzm_create_node w m hf cs
            end;
          m ← nzm_cache_put w m ZInter f g r;
          Some (m, r)
      end
  end.
Definition nzm_intersect (w : N) (m : mt) (f g : nat) := nzm_intersect_f w (ar_fuel (t_ar m)) m f g.

(** zmdd_ops.rs:92-144 *)
Fixpoint nzm_setdiff_f (w : N) (n : nat) (m : mt) (f g : nat) : option (mt * nat) :=
  match n with
  | O => None
  | S n =>
      hit ← nzm_cache_get w m ZDiff f g;
      match hit with
      | Some x => Some (m, x)
      | None =>
          fn ← ar_nodes (t_ar m) !! f;
          gn ← ar_nodes (t_ar m) !! g;
          let skip (m : mt) (h : nat) (fc : list nat) : option (mt * nat) :=
            match fc with
            | [] => None
            | f0 :: fc => '(m, r) ← nzm_setdiff_f w n m f0 g; nzm_create_node w m h (r :: fc)
            end in
          '(m, r) ←
            match fn, gn with
            | Term VUndet, _ => Some (m, zm_undet)
            | _, Term VUndet => Some (m, f)
            | Term (VVal a), Term (VVal b) => if (a =? b)%Z then Some (m, zm_undet) else Some (nt_value w m a)
            | NT hf fc, Term (VVal _) => skip m hf fc
            | Term (VVal _), NT _ gc => g0 ← gc !! 0; nzm_setdiff_f w n m f g0
            | NT hf fc, NT hg gc =>
                lf ← hdr_level (t_ar m) hf;
                lg ← hdr_level (t_ar m) hg;
                if lg <? lf then skip m hf fc
                else if lf <? lg then g0 ← gc !! 0; nzm_setdiff_f w n m f g0
                else '(m, cs) ← zm_zip (nzm_setdiff_f w n) m fc gc; nzm_create_node w m hf cs
            end;
          m ← nzm_cache_put w m ZDiff f g r;
          Some (m, r)
      end
  end.
Definition nzm_setdiff (w : N) (m : mt) (f g : nat) := nzm_setdiff_f w (ar_fuel (t_ar m)) m f g.
(** The calls of SpecZmdd.v on the narrowed manager *)
Definition nzm_exec (w : N) (m : mt) (c : zm_call) : option (mt * nat) :=
  match c with
  | ZHeader l s e => Some (zm_create_header m l s e)
  | ZValue z => Some (nt_value w m z)
  | ZNode h cs => nzm_create_node w m h cs
  | ZIntersect f g => nzm_intersect w m f g
  | ZSetdiff f g => nzm_setdiff w m f g
  | ZBaseline f z => nzm_set_baseline w m f z
  | ZGc roots => nt_gc w m roots
  | ZClear => Some (zm_clear_cache m, 0)
  end.
