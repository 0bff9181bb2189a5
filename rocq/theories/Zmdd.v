(** Model of the zero-suppressed multi-terminal MDD manager.  Sources: mddcore/src/zmdd.rs, mddcore/src/zmdd_ops.rs.
    The struct (zmdd.rs:19-27) has the fields of the MTMDD manager and copies its new, alloc, value,
    create_header, gc, live_node_count and clear_cache line by line, so those parts of the model are shared: *)
From Verif Require Import Prelude ComputeCache Arena Bdd Mdd MtMdd.

(** zmdd.rs:65-84 *)
Definition zm_new : mt := mt_new.
Definition zm_undet : nat := mt_undet.
(** zmdd.rs:142-148 *)
Definition zm_create_header : mt → nat → String.string → nat → mt * nat := mt_create_header.
(** zmdd.rs:150-157 (alloc 86-98, new_terminal 104-106) *)
Definition zm_value : mt → Z → mt * nat := mt_value.
(** zmdd.rs:108-135; live_node_count 138-140; clear_cache 226-228 *)
Definition zm_gc : mt → list nat → option (mt * nat) := mt_gc.
Definition zm_live_node_count : mt → nat := mt_live_node_count.
Definition zm_clear_cache : mt → mt := mt_clear_cache.

(** zmdd.rs:163-174: the 0-edge if every other edge is the empty family; [nodes\[1..\]] panics on no edges *)
Definition zm_create_node (m : mt) (h : nat) (cs : list nat) : option (mt * nat) :=
  match cs with
  | [] => None
  | c :: cs' =>
      if forallb (Nat.eqb zm_undet) cs' then Some (m, c)
      else let '(a, id) := ar_hashcons (t_ar m) h cs in Some (mt_with_ar m a, id)
  end.

(** zmdd.rs:176-184: headers, nodes, values, memo entries *)
Definition zm_size (m : mt) : nat * nat * nat * N :=
  (length (ar_headers (t_ar m)), length (ar_nodes (t_ar m)), size (t_vtab m), cc_len (t_cache m)).

(** zmdd.rs:195-206; [n] bounds the recursion depth *)
Fixpoint zm_set_baseline_f (n : nat) (m : mt) (id : nat) (v : Z) : option (mt * nat) :=
  match n with
  | O => None
  | S n =>
      nd ← ar_nodes (t_ar m) !! id;
      match nd with
      | Term VUndet => Some (zm_value m v)
      | Term (VVal _) => Some (m, id)
      | NT h cs =>
          match cs with
          | [] => None
          | c :: cs => '(m, r) ← zm_set_baseline_f n m c v; zm_create_node m h (r :: cs)
          end
      end
  end.
Definition zm_set_baseline (m : mt) (id : nat) (v : Z) := zm_set_baseline_f (ar_fuel (t_ar m)) m id v.

(** zmdd_ops.rs:17-31 *)
Inductive zop := ZInter | ZDiff.
Definition zop_code (o : zop) : N := match o with ZInter => 0%N | ZDiff => 1%N end.

(** zmdd.rs:213-223 *)
Definition zm_cache_get (m : mt) (o : zop) (f g : nat) : option (option nat) :=
  r ← cc_get (t_cache m) (zop_code o) (N.of_nat f) (N.of_nat g); Some (option_map N.to_nat r).
Definition zm_cache_put (m : mt) (o : zop) (f g v : nat) : option mt :=
  c ← cc_put (t_cache m) (zop_code o) (N.of_nat f) (N.of_nat g) (N.of_nat v);
  Some (Mt (t_ar m) (t_vtab m) c).

(** [zip] of the two child lists, [f] applied left to right *)
Definition zm_zip (F : mt → nat → nat → option (mt * nat)) (m : mt) (fc gc : list nat) : option (mt * list nat) :=
  mapst (λ m p, F m p.1 p.2) m (zip fc gc).

(** zmdd_ops.rs:38-88 *)
Fixpoint zm_intersect_f (n : nat) (m : mt) (f g : nat) : option (mt * nat) :=
  match n with
  | O => None
  | S n =>
      let '(f, g) := if g <? f then (g, f) else (f, g) in
      hit ← zm_cache_get m ZInter f g;
      match hit with
      | Some x => Some (m, x)
      | None =>
          fn ← ar_nodes (t_ar m) !! f;
          gn ← ar_nodes (t_ar m) !! g;
          '(m, r) ←
            match fn, gn with
            | Term VUndet, _ => Some (m, zm_undet)
            | _, Term VUndet => Some (m, zm_undet)
            | Term (VVal a), Term (VVal b) => if (a =? b)%Z then Some (zm_value m a) else Some (m, zm_undet)
            | NT _ fc, Term (VVal _) => f0 ← fc !! 0; zm_intersect_f n m f0 g
            | Term (VVal _), NT _ gc => g0 ← gc !! 0; zm_intersect_f n m f g0
            | NT hf fc, NT hg gc =>
                lf ← hdr_level (t_ar m) hf;
                lg ← hdr_level (t_ar m) hg;
                if lg <? lf then f0 ← fc !! 0; zm_intersect_f n m f0 g
                else if lf <? lg then g0 ← gc !! 0; zm_intersect_f n m f g0
                else '(m, cs) ← zm_zip (zm_intersect_f n) m fc gc; zm_create_node m hf cs
            end;
          m ← zm_cache_put m ZInter f g r;
          Some (m, r)
      end
  end.
Definition zm_intersect (m : mt) (f g : nat) := zm_intersect_f (ar_fuel (t_ar m)) m f g.

(** zmdd_ops.rs:92-144 *)
Fixpoint zm_setdiff_f (n : nat) (m : mt) (f g : nat) : option (mt * nat) :=
  match n with
  | O => None
  | S n =>
      hit ← zm_cache_get m ZDiff f g;
      match hit with
      | Some x => Some (m, x)
      | None =>
          fn ← ar_nodes (t_ar m) !! f;
          gn ← ar_nodes (t_ar m) !! g;
          let skip (m : mt) (h : nat) (fc : list nat) : option (mt * nat) :=
            match fc with
            | [] => None
            | f0 :: fc => '(m, r) ← zm_setdiff_f n m f0 g; zm_create_node m h (r :: fc)
            end in
          '(m, r) ←
            match fn, gn with
            | Term VUndet, _ => Some (m, zm_undet)
            | _, Term VUndet => Some (m, f)
            | Term (VVal a), Term (VVal b) => if (a =? b)%Z then Some (m, zm_undet) else Some (zm_value m a)
            | NT hf fc, Term (VVal _) => skip m hf fc
            | Term (VVal _), NT _ gc => g0 ← gc !! 0; zm_setdiff_f n m f g0
            | NT hf fc, NT hg gc =>
                lf ← hdr_level (t_ar m) hf;
                lg ← hdr_level (t_ar m) hg;
                if lg <? lf then skip m hf fc
                else if lf <? lg then g0 ← gc !! 0; zm_setdiff_f n m f g0
                else '(m, cs) ← zm_zip (zm_setdiff_f n) m fc gc; zm_create_node m hf cs
            end;
          m ← zm_cache_put m ZDiff f g r;
          Some (m, r)
      end
  end.
Definition zm_setdiff (m : mt) (f g : nat) := zm_setdiff_f (ar_fuel (t_ar m)) m f g.
