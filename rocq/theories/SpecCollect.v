(** Specification vocabulary for the collectors of BddMgr and ZddMgr: which node slots are in use. *)
From stdpp Require Import strings.
From Verif Require Import Prelude ComputeCache Arena Bdd BssAlg BssMgr SpecBdd SpecBssMgr Zdd ZddAlg ZddMgr SpecZdd SpecZddMgr.

(** The slots in use are exactly the constants and what can be reached from the handles [hs] and the
    variables of the manager. *)
Definition no_garbage (w : bmgr) (hs : list nat) : Prop :=
  ∀ id, bdd_valid (w_bdd w) id ↔
    id ∈ [bdd_zero; bdd_one; bdd_undet] ∨ bdd_reaches (w_bdd w) (hs ++ (map_to_list (w_vars w)).*2) id.
(** [live_node_count] counts the slots in use *)
Definition counts_live (w : bmgr) : Prop :=
  ∀ l, NoDup l → (∀ id, id ∈ l ↔ bdd_valid (w_bdd w) id) → bdd_live_node_count (w_bdd w) = length l.
(** What a call that may collect leaves behind: fewer slots in use than the threshold; and if the collector
    ran, nothing but what is held, and a threshold of twice the slots left (at least the floor). *)
Definition bounded (w w' : bmgr) (hs : list nat) : Prop :=
  bdd_live_node_count (w_bdd w') < w_thr w' ∧
  (w_thr w' = w_thr w ∨ w_thr w' = (2 * bdd_live_node_count (w_bdd w')) `max` w_floor w ∧ no_garbage w' hs).

(** The calls of BddMgr and BddNode that return a new handle through [wrap] / [rewrap]. *)
Inductive wcall :=
  | WZero | WOne | WNot (f : nat) | WBin (o : bop2) (f g : nat) | WIte (f g h : nat)
  | WAll (xs : list nat) | WAny (xs : list nat) | WKofn (k : nat) (xs : list nat) | WDual (f : nat).
Definition wcall_args (c : wcall) : list nat :=
  match c with
  | WZero | WOne => [] | WNot f | WDual f => [f] | WBin _ f g => [f; g] | WIte f g h => [f; g; h]
  | WAll xs | WAny xs | WKofn _ xs => xs
  end.
Definition wcall_run (c : wcall) (w : bmgr) : option (bmgr * nat) :=
  match c with
  | WZero => w_zero w | WOne => w_one w | WNot f => w_not w f | WBin o f g => w_bin o w f g
  | WIte f g h => w_ite w f g h | WAll xs => w_and_list w xs | WAny xs => w_or_list w xs
  | WKofn k xs => w_kofn w k xs | WDual f => w_dual w f
  end.

(** the same for ZddMgr, which keeps no handles of its own *)
Definition z_no_garbage (w : zmgr) (hs : list nat) : Prop :=
  ∀ id, zdd_valid (y_zdd w) id ↔ id ∈ [zdd_zero; zdd_one; zdd_undet] ∨ zdd_reaches (y_zdd w) hs id.
Definition z_counts_live (w : zmgr) : Prop :=
  ∀ l, NoDup l → (∀ id, id ∈ l ↔ zdd_valid (y_zdd w) id) → zdd_live_node_count (y_zdd w) = length l.
Definition z_bounded (w w' : zmgr) (hs : list nat) : Prop :=
  zdd_live_node_count (y_zdd w') < y_thr w' ∧
  (y_thr w' = y_thr w ∨ y_thr w' = (2 * zdd_live_node_count (y_zdd w')) `max` y_floor w ∧ z_no_garbage w' hs).
Inductive ycall := YEmpty | YBase | YSingleton (x : string) | YOp (o : zop) (f g : nat).
Definition ycall_args (c : ycall) : list nat := match c with YOp _ f g => [f; g] | _ => [] end.
Definition ycall_run (c : ycall) (w : zmgr) : option (zmgr * nat) :=
  match c with YEmpty => y_empty w | YBase => y_base w | YSingleton x => y_singleton w x | YOp o f g => y_op o w f g end.
