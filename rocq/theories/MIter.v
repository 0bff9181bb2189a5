(** The multi-state solution iterators as objects that live beside the manager. *)
From stdpp Require Import strings.
From Verif Require Import Prelude ComputeCache Arena Bdd Mdd MtMdd MtMdd2 Zmdd ZmddAlg BssMgr MssMgr MssAlg Iter.

(** ** MddPath *)
(** mdd_path.rs:11-18 *)
Record giter := GIter { gi_p : mdpath; gi_node : mnode; gi_tab : list (string * nat); gi_ss : list Z }.
(** mdd_path.rs:24-60 as called by mdd.rs:936-938: the handle is cloned (pinned) *)
Definition giter_start (w : mmgr) (x : mnode) (ss : list Z) : option (mmgr * giter) :=
  let nh := length (ar_headers (t_ar (mm_v (g_mm w)))) in
  tab ← match x with
        | NVal _ => path_tables nh (t_ar (mm_v (g_mm w)))
        | NBool _ => path_tables nh (d_ar (mm_b (g_mm w)))
        end;
  Some (g_clone w x, GIter (MDPath [DSNode (g_level w x) (node_id x)] ∅) x tab ss).
(** mdd_path.rs:73-82, 89-135 and 137-188 *)
Definition giter_next (fuel : nat) (w : mmgr) (it : giter) : option (giter * option (gmap string nat)) :=
  let run {T} (hit : T → option bool) (a : arena T) :=
    '(p, out) ← iter_next (λ p, match dp_stack p with [] => true | _ :: _ => false end)
      (mdpath_step hit a (gi_tab it)) fuel (gi_p it);
    Some (GIter p (gi_node it) (gi_tab it) (gi_ss it), out) in
  match gi_node it with
  | NVal _ => run (vhit (gi_ss it)) (t_ar (mm_v (g_mm w)))
  | NBool _ => run (bhit (gi_ss it)) (d_ar (mm_b (g_mm w)))
  end.
(** mdd_path.rs:62-64 *)
Definition giter_len (w : mmgr) (it : giter) : option N := g_count w (gi_node it) (gi_ss it).
(** the iterator goes out of scope *)
Definition giter_drop (w : mmgr) (it : giter) : mmgr := g_drop w (gi_node it).

(** ** ZmddPath *)
(** zmdd.rs:374-383; [reverse] is that of the node *)
Record qiter := QIter { qi_p : zmpath; qi_node : zmnode; qi_base : gmap string nat; qi_ss : list Z }.
(** zmdd.rs:389-406 as called by zmdd.rs:300-302 *)
Definition qiter_start (q : zmgr) (x : zmnode) (ss : list Z) : option (zmgr * qiter) :=
  base ← zm_baseline (zn_rev x) (zn_vars x);
  Some (q_clone q x, QIter (ZMPath [MSNode (zn_id x)] base) x base ss).
(** zmdd.rs:415-460 *)
Definition qiter_next (fuel : nat) (q : zmgr) (it : qiter) : option (qiter * option (gmap string nat)) :=
  '(p, out) ← iter_next (λ p, match mp_stack p with [] => true | _ :: _ => false end)
    (zmpath_step (t_ar (q_z q)) (zn_rev (qi_node it)) (qi_base it) (qi_ss it)) fuel (qi_p it);
  Some (QIter p (qi_node it) (qi_base it) (qi_ss it), out).
Definition qiter_drop (q : zmgr) (it : qiter) : zmgr := q_drop q (qi_node it).
