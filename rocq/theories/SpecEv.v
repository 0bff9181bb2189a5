(** Specification vocabulary for the EV+MDD manager: what an edge denotes, what a legal call is, which managers
    are reachable.  Nothing here refers to the operations' algorithms. *)
From Verif Require Import Prelude Arena EvMdd.

(** The value of the edge (v, f) under the assignment [rho] (variable level |-> state number): the sum of the
    edge values met on the way to omega, [None] (infinity) when the way ends in infinity. *)
Inductive edge_value (m : evm) (rho : nat → nat) : Z → nat → option Z → Prop :=
  | ev_inf v f : e_nodes m !! f = Some EInfinity → edge_value m rho v f None
  | ev_om v f : e_nodes m !! f = Some EOmega → edge_value m rho v f (Some v)
  | ev_nt v f h es hd w c r :
      e_nodes m !! f = Some (ENt h es) → e_headers m !! h = Some hd →
      es !! rho (h_level hd) = Some (w, c) → edge_value m rho (v + w) c r → edge_value m rho v f r.

(** [rho] gives every variable a state below its number of states. *)
Definition ev_in_range (m : evm) (rho : nat → nat) : Prop :=
  ∀ hd, hd ∈ e_headers m → rho (h_level hd) < h_edges hd.
Definition ev_valid (m : evm) (id : nat) : Prop := id < length (e_nodes m).
(** The top level of [id] is strictly below [l] (terminals are below everything). *)
Definition ev_below (m : evm) (id l : nat) : Prop :=
  match ev_level m id with Some (Some l') => l' < l | Some None => True | None => False end.
(** No two variables share a level. *)
Definition ev_distinct (m : evm) : Prop := NoDup (h_level <$> e_headers m).
(** Infinity cannot be reached from [id]. *)
Inductive ev_reaches (m : evm) (r : nat) : nat → Prop :=
  | evr_root : ev_reaches m r r
  | evr_edge id h es e : ev_reaches m r id → e_nodes m !! id = Some (ENt h es) → e ∈ es → ev_reaches m r e.2.
Definition ev_finite (m : evm) (id : nat) : Prop := ¬ ev_reaches m id ev_infinity.

(** The operations on values: infinity is neutral for min and absorbs everything else. *)
Definition ev_op (o : evop) (a b : option Z) : option Z :=
  match o, a, b with
  | EMin, None, b => b
  | EMin, a, None => a
  | _, Some x, Some y =>
      Some (match o with EMin => Z.min x y | EMax => Z.max x y | EAdd => (x + y)%Z | ESub => (x - y)%Z end)
  | _, _, _ => None
  end.

(** What the caller of create_header owes: at least one state, and the same number of states as any variable
    already at that level. *)
Definition ev_header_fits (m : evm) (level edges : nat) : Prop :=
  0 < edges ∧ Forall (λ hd, h_level hd = level → h_edges hd = edges) (e_headers m).
(** What the caller of create_node owes: an existing header, one edge per state, leading to existing nodes
    of lower variables. *)
Definition ev_node_fits (m : evm) (h : nat) (es : list evedge) : Prop :=
  match e_headers m !! h with
  | Some hd => length es = h_edges hd ∧ Forall (λ e, ev_valid m e.2 ∧ ev_below m e.2 (h_level hd)) es
  | None => False
  end.

(** The managers a program can build with legal calls. *)
Inductive ev_reachable : evm → Prop :=
  | er_new : ev_reachable ev_new
  | er_header m level label edges :
      ev_reachable m → ev_header_fits m level edges → ev_reachable (ev_create_header m level label edges).1
  | er_node m h es m' e :
      ev_reachable m → ev_node_fits m h es → ev_create_node m h es = Some (m', e) → ev_reachable m'
  | er_op m o fv f gv g m' e :
      ev_reachable m → ev_valid m f → ev_valid m g → ev_bin o m fv f gv g = Some (m', e) → ev_reachable m'.
