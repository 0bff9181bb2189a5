(** Specification vocabulary for the analyses of one multi-state diagram. *)
From stdpp Require Import strings.
From Verif Require Import Prelude ComputeCache Arena Bdd Mdd MtMdd MtMdd2 BssMgr MssMgr MssAlg SpecMdd SpecBss SpecMss.

(** every declared variable with its number of states, first declared first *)
Definition declared (w : mmgr) : list (string * nat) :=
  (λ hd, (h_label hd, h_edges hd)) <$> ar_headers (d_ar (mm_b (g_mm w))).
(** the variables at or below the top variable of [x]; none for a constant *)
Definition scope (w : mmgr) (x : mnode) : list (string * nat) :=
  match g_level w x with Some l => take (S l) (declared w) | None => [] end.

(** the value is determined and listed in [ss]; false counts as 0 and true as 1 *)
Definition chosen (ss : list Z) (v : mval) : Prop := ∃ z, z ∈ ss ∧ score v = Some z.
(** [L] lists the state vectors over [over] at which the value of [F] is chosen, each once *)
Definition solutions (vars over : list (string * nat)) (F : mfn) (ss : list Z) (L : list (gmap string nat)) : Prop :=
  NoDup L ∧ ∀ M, M ∈ L ↔ ∃ e, states vars e ∧ chosen ss (F e) ∧ M = dense over e.

(** The variable [s] occurs in the diagram of [x]. *)
Definition occurs_in {T} (a : arena T) (f : nat) (s : string) : Prop :=
  ∃ id h cs hd, node_reaches a [f] id ∧ ar_nodes a !! id = Some (NT h cs) ∧ ar_headers a !! h = Some hd ∧ h_label hd = s.
Definition m_occurs (w : mmgr) (x : mnode) (s : string) : Prop :=
  match x with NVal f => occurs_in (t_ar (mm_v (g_mm w))) f s | NBool f => occurs_in (d_ar (mm_b (g_mm w))) f s end.

(** In the diagram of [f] some edge leads from a node of level [l] to [c]; no node is entered from two levels. *)
Definition enters {T} (a : arena T) (f l c : nat) : Prop :=
  ∃ p h cs hd, node_reaches a [f] p ∧ ar_nodes a !! p = Some (NT h cs) ∧ ar_headers a !! h = Some hd ∧ c ∈ cs ∧ h_level hd = l.
Definition one_entry {T} (a : arena T) (f : nat) : Prop := ∀ c l l', enters a f l c → enters a f l' c → l = l'.

(** [ln], [lt]: the decision nodes and the terminals of the diagram of [f], each once *)
Definition nodes_of {T} (a : arena T) (f : nat) (ln lt : list nat) : Prop :=
  NoDup ln ∧ (∀ id, id ∈ ln ↔ node_reaches a [f] id ∧ ∃ h cs, ar_nodes a !! id = Some (NT h cs)) ∧
  NoDup lt ∧ (∀ id, id ∈ lt ↔ node_reaches a [f] id ∧ ∃ t, ar_nodes a !! id = Some (Term t)).
(** the number of edges leaving the listed nodes *)
Definition edges_of {T} (a : arena T) (l : list nat) : nat :=
  sum_list ((λ id, match ar_nodes a !! id with Some (NT _ cs) => length cs | _ => 0 end) <$> l).
Definition m_nodes_of (w : mmgr) (x : mnode) (ln lt : list nat) : Prop :=
  match x with NVal f => nodes_of (t_ar (mm_v (g_mm w))) f ln lt | NBool f => nodes_of (d_ar (mm_b (g_mm w))) f ln lt end.
Definition m_edges_of (w : mmgr) (x : mnode) (l : list nat) : nat :=
  match x with NVal _ => edges_of (t_ar (mm_v (g_mm w))) l | NBool _ => edges_of (d_ar (mm_b (g_mm w))) l end.

(** ** Weights over an arbitrary ring: [pv] gives each variable one weight per state *)
Section weights.
Context {R : Type} (rO rI : R) (radd rmul : R → R → R).
Definition table_for (vars : list (string * nat)) (pv : gmap string (list R)) : Prop :=
  ∀ s n, (s, n) ∈ vars → ∃ ps, pv !! s = Some ps ∧ length ps = n.
Definition sums_to_one (vars : list (string * nat)) (pv : gmap string (list R)) : Prop :=
  ∀ s n ps, (s, n) ∈ vars → pv !! s = Some ps → ring_sum rO radd ps = rI.
(** the weight of the state that [M] gives variable [s] *)
Definition state_weight (pv : gmap string (list R)) (M : gmap string nat) (s : string) : R :=
  default rO (ps ← pv !! s; i ← M !! s; ps !! i).
Definition mweight (pv : gmap string (list R)) (vars : list (string * nat)) (M : gmap string nat) : R :=
  foldr rmul rI (state_weight pv M <$> vars.*1).
(** all weight on state [j] of [n] *)
Definition certain (n j : nat) : list R := (λ i, if decide (i = j) then rI else rO) <$> seq 0 n.
End weights.
