(** Specification vocabulary for the queries on ZMDD families. *)
From stdpp Require Import strings.
From Verif Require Import Prelude Arena MtMdd SpecMdd SpecZmdd.

(** the list [x] as a vector: component [l] is entry [l] *)
Definition vec (x : list nat) : nat → nat := λ l, default 0 (x !! l).

(** [vars] lists the variables, name and number of states, by level; names are distinct *)
Definition vars_ok (vars : list (string * nat)) : Prop :=
  NoDup (vars.*1) ∧ Forall (λ v, 0 < v.2) vars.
(** every variable of the diagram of [f] is listed in [vars] *)
Definition vars_cover (a : arena vt) (vars : list (string * nat)) (f : nat) : Prop :=
  ∀ id h cs hd, node_reaches a [f] id → ar_nodes a !! id = Some (NT h cs) → ar_headers a !! h = Some hd →
    vars !! h_level hd = Some (h_label hd, h_edges hd).

(** The dense report of the vector [x]: every variable by name with its state; in a cut family the recorded
    component counts down from the top state. *)
Definition report (rev : bool) (vars : list (string * nat)) (x : list nat) : gmap string nat :=
  list_to_map (zip_with (λ v i, (v.1, if rev then v.2 - 1 - i else i)) vars x).
