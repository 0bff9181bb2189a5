(** Specification vocabulary for the collectors of MddMgr and ZmddMgr: which node slots are in use. *)
From Coq Require Import ZArith.
From stdpp Require Import strings.
From Verif Require Import Prelude ComputeCache Arena BssMgr Bdd Mdd MtMdd MtMdd2 Zmdd ZmddAlg MssMgr SpecBssMgr SpecMdd SpecZmdd SpecMss.

(** an MddMgr on its own or inside an MssMgr *)
Definition mdd_in_use (I : vint) (w : mmgr) (H : handles) : Prop :=
  mdd_held I w H ∨ ∃ s Q, mss_held I s H Q ∧ w = s_m s.
(** the slots in use, in both forests, are exactly the constants and what can be reached from the handles
    [hs] and the variables of the manager *)
Definition m_no_garbage (w : mmgr) (hs : list mnode) : Prop :=
  ∀ x, mm_valid (g_mm w) x ↔
    x ∈ [mm_zero; mm_one; NBool mdd_undet; mm_undet_value] ∨
    mm_reaches (g_mm w) (hs ++ (map_to_list (g_vars w)).*2) x.
Definition m_counts_live (w : mmgr) : Prop :=
  ∀ l, NoDup l → (∀ x, x ∈ l ↔ mm_valid (g_mm w) x) → mm_live_node_count (g_mm w) = length l.
Definition m_bounded (w w' : mmgr) (hs : list mnode) : Prop :=
  mm_live_node_count (g_mm w') < g_thr w' ∧
  (g_thr w' = g_thr w ∨ g_thr w' = (2 * mm_live_node_count (g_mm w')) `max` g_floor w ∧ m_no_garbage w' hs).

(** the calls of MddMgr and MddNode that return a new handle through [wrap] / [rewrap] *)
Inductive gcall :=
  | GBoolean (b : bool) | GValue (z : Z) | GUndetValue | GUndetBoolean
  | GNot (f : mnode) | GBin (o : mop2) (f g : mnode) | GIte (c f g : mnode) | GList (l : mlist) (xs : list mnode).
Definition gcall_args (c : gcall) : list mnode :=
  match c with GNot f => [f] | GBin _ f g => [f; g] | GIte c f g => [c; f; g] | GList _ xs => xs | _ => [] end.
Definition gcall_run (I : vint) (c : gcall) (w : mmgr) : option (mmgr * mnode) :=
  match c with
  | GBoolean b => g_boolean w b | GValue z => g_value w z | GUndetValue => g_undet_value w | GUndetBoolean => g_undet_boolean w
  | GNot f => g_not w f | GBin o f g => g_bin (mm_bin I o) w f g | GIte c f g => g_ite w c f g | GList l xs => g_list I l w xs
  end.

(** ZmddMgr keeps no handles of its own; its only constant is the undetermined value *)
Definition q_no_garbage (q : zmgr) (fs : list zmnode) : Prop :=
  ∀ id, node_valid (t_ar (q_z q)) id ↔ id = zm_undet ∨ node_reaches (t_ar (q_z q)) (zn_id <$> fs) id.
Definition q_counts_live (q : zmgr) : Prop :=
  ∀ l, NoDup l → (∀ id, id ∈ l ↔ node_valid (t_ar (q_z q)) id) → zm_live_node_count (q_z q) = length l.
Definition q_bounded (q q' : zmgr) (fs : list zmnode) : Prop :=
  zm_live_node_count (q_z q') < q_thr q' ∧
  (q_thr q' = q_thr q ∨ q_thr q' = (2 * zm_live_node_count (q_z q')) `max` q_floor q ∧ q_no_garbage q' fs).
(** the calls that make a family: minimal path and cut vectors of a function, and the two set operations *)
Inductive qcall := QSol (rev : bool) (x : mnode) | QIntersect (x y : zmnode) | QSetdiff (x y : zmnode).
Definition qcall_run (I : vint) (c : qcall) (s : mss) : option (mss * option zmnode) :=
  match c with
  | QSol rev x => s_sol I rev s x
  | QIntersect x y => '(q, r) ← q_intersect (s_z s) x y; Some (Mss (s_m s) q, Some r)
  | QSetdiff x y => '(q, r) ← q_setdiff (s_z s) x y; Some (Mss (s_m s) q, Some r)
  end.
Definition qcall_ok (c : qcall) (H : handles) (Q : families) : Prop :=
  match c with
  | QSol _ x => ∃ F, (x, Some F) ∈ H
  | QIntersect x y | QSetdiff x y => x ∈ Q.*1 ∧ y ∈ Q.*1
  end.
