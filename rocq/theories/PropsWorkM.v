(** C75: how much work MddNode::prob does. *)
From Coq Require Import String.
From stdpp Require Import strings.
From Verif Require Import Prelude ComputeCache Arena Trees ArenaProofs ArenaMore Bdd Mdd MtMdd MtMdd2 BssMgr MssMgr ZmddAlg MssAlg.
From Verif Require Import SpecMdd SpecBss SpecMss SpecMssAlg MddProofs MddMain MssRpn MssAlgMain PropsMssAlg BssAlg Work WorkProofs.

Global Set Default Goal Selector "!".

Definition m_reaches (w : mmgr) (x : mnode) (id : nat) : Prop :=
  match x with NVal f => node_reaches (t_ar (mm_v (g_mm w))) [f] id | NBool f => node_reaches (d_ar (mm_b (g_mm w))) [f] id end.

Lemma nprob_trace (Q : list nat → Prop) {R T} (rO rI : R) (radd rmul : R → R → R) (hit : T → option bool) (a : arena T) f pv p : awf Q a → live a f →
  nprob rO rI radd rmul hit a pv f = Some p →
  ∃ c tr, nprob_tf rO rI radd rmul hit (ar_fuel a) a pv f ∅ = Some (c, p, tr) ∧ NoDup tr ∧ ∀ id, id ∈ tr ↔ node_reaches a [f] id.
Proof.
  intros Hwf Hl He. unfold nprob in He. rewrite nprob_erase in He.
  destruct (nprob_tf _ _ _ _ _ _ _ _ _ _) as [[[c1 r1] tr]|] eqn:E; [|done]. cbn [mbind option_bind] in He. injection He as ->.
  exists c1, tr. split; [done|]. apply nprob_once in E as [Ho _]. rewrite dom_empty_L in Ho. apply once_all in Ho as [Nd Hin].
  - split; [done|]. intros id. by rewrite nreaches_reach.
  - by eapply awf_acyclic.
Qed.

(** prob evaluates every node of the diagram exactly once *)
Theorem c75_mdd_prob {R} (rO rI : R) (radd rmul : R → R → R) I w H x F ss pv : mdd_held I w H → (x, Some F) ∈ H →
  ∀ p, g_prob rO rI radd rmul w x pv ss = Some p →
  ∃ tr, g_prob_t rO rI radd rmul w x pv ss = Some (p, tr) ∧ NoDup tr ∧ ∀ id, id ∈ tr ↔ m_reaches w x id.
Proof.
  intros Hm Hx p He. pose proof (held_gok I w H Hm) as Hk. pose proof (held_half I w H x F ss Hk Hx) as Hh.
  destruct x as [f|f]; destruct Hh as (Hwf & _ & d & Hd & _); apply repr_live in Hd; cbn [g_prob] in He;
    (apply (nprob_trace NaryProofs.Rn) in He as (c & tr & E & Ht); [|done|done]); exists tr; unfold g_prob_t; rewrite E; done.
Qed.
Print Assumptions c75_mdd_prob.

(** x + y with three and two states: three decision nodes, four terminals *)
Example c75_mdd_ex : ('(w, a, f) ← ex_a; '(p, tr) ← g_prob_t 0%Z 1%Z Z.add Z.mul w a ex_pv [2%Z]; s ← g_size w a; Some (a, p, tr, s)) =
  Some (NVal 8, (-23)%Z, [1; 2; 3; 4; 6; 7; 8], (3, 4, 8)%N).
Proof. vm_compute. done. Qed.
