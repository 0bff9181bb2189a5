(** Specification vocabulary for the zero-suppressed MDD manager: families of labelled vectors, legal calls,
    reachable managers. *)
From Verif Require Import Prelude ComputeCache Arena Bdd Mdd MtMdd Zmdd SpecMdd.

(** A vector gives each level a state; 0 means "not recorded".  [x with component l set to v]: *)
Definition with_comp (x : nat → nat) (l v : nat) : nat → nat := λ l', if decide (l' = l) then v else x l'.

(** Vector [x] belongs to the family of node [id] with label [z]: follow, at each node, the edge numbered by the
    vector's component; components of variables that are not met must be 0. *)
Inductive zmember (a : arena vt) : nat → (nat → nat) → Z → Prop :=
  | zm_term id z x : ar_nodes a !! id = Some (Term (VVal z)) → (∀ l, x l = 0) → zmember a id x z
  | zm_node id h cs hd c x z :
      ar_nodes a !! id = Some (NT h cs) → ar_headers a !! h = Some hd →
      cs !! x (h_level hd) = Some c → zmember a c (with_comp x (h_level hd) 0) z →
      zmember a id x z.

Inductive zm_call :=
  | ZHeader (level : nat) (label : String.string) (edges : nat)
  | ZValue (z : Z)
  | ZNode (h : nat) (cs : list nat)
  | ZIntersect (f g : nat)
  | ZSetdiff (f g : nat)
  | ZBaseline (f : nat) (z : Z)
  | ZGc (roots : list nat)
  | ZClear.
Definition zm_exec (m : mt) (c : zm_call) : option (mt * nat) :=
  match c with
  | ZHeader l s e => Some (zm_create_header m l s e)
  | ZValue z => Some (zm_value m z)
  | ZNode h cs => zm_create_node m h cs
  | ZIntersect f g => zm_intersect m f g
  | ZSetdiff f g => zm_setdiff m f g
  | ZBaseline f z => zm_set_baseline m f z
  | ZGc roots => zm_gc m roots
  | ZClear => Some (zm_clear_cache m, 0)
  end.
Definition zm_legal (m : mt) (c : zm_call) : Prop :=
  match c with
  | ZHeader l _ e => header_fits (t_ar m) l e
  | ZNode h cs => node_fits (t_ar m) h cs
  | ZIntersect f g | ZSetdiff f g => node_valid (t_ar m) f ∧ node_valid (t_ar m) g
  | ZBaseline f _ => node_valid (t_ar m) f
  | ZGc roots => Forall (node_valid (t_ar m)) roots
  | ZValue _ | ZClear => True
  end.
Global Instance zm_legal_dec m c : Decision (zm_legal m c).
Proof. destruct c; cbn; apply _. Defined.
Fixpoint zm_run (m : mt) (cs : list zm_call) : option mt :=
  match cs with
  | [] => Some m
  | c :: cs => if decide (zm_legal m c) then '(m', _) ← zm_exec m c; zm_run m' cs else None
  end.
Definition zm_reachable (m : mt) : Prop := ∃ cs, zm_run zm_new cs = Some m.
