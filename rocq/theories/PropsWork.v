(** C75: how much work the calls do. *)
From stdpp Require Import strings.
From Verif Require Import Prelude ComputeCache Arena Trees ArenaProofs ArenaMore Bdd Zdd Mdd MtMdd MtMdd2 BssAlg ZddAlg ZmddAlg BssMgr MssMgr MssAlg.
From Verif Require Import BddProofs SpecBdd SpecBss BddMain BssGates BssReach PropsBdd SpecZdd ZddProofs ZddMain PropsZdd Work WorkProofs.

Global Set Default Goal Selector "!".

(** ** k-out-of-n *)
(** The gate over n nodes makes exactly k * (n + 1 - k) calls of ite (none when k = 0 or k > n: the subtraction of naturals is cut off
    at 0), whatever the nodes are and whatever the computed table contains. *)
Theorem c75_kofn m k nodes : bss_reachable m → Forall (bdd_valid m) nodes →
  ∃ m' r, kofn m k nodes = Some (m', r) ∧ kofn_c m k nodes = Some (m', r, k * (length nodes + 1 - k)).
Proof.
  intros Hm Hv. destruct (kofn_l m k nodes (bss_wf m Hm) Hv) as (m' & r & He & _). exists m', r. split; [done|].
  rewrite kofn_erase in He. unfold kofn_c in *.
  destruct (kofn_rec_c _ _ _ _ _ _ _) as [[[[m1 memo] r1] c]|] eqn:E; [|done]. cbn [mbind option_bind] in *.
  injection He as -> ->. apply kofn_count_all in E as ->. done.
Qed.
Print Assumptions c75_kofn.

(** ** Dual, counts and probabilities: every node of the diagram is evaluated exactly once *)
Theorem c75_dual m f : bss_reachable m → bdd_valid m f →
  ∃ m' r tr, bdd_dual m f = Some (m', r) ∧ bdd_dual_t m f = Some (m', r, tr) ∧ NoDup tr ∧ ∀ id, id ∈ tr ↔ bdd_reaches m [f] id.
Proof.
  intros Hm Hv. pose proof (bss_wf m Hm) as Hw. destruct (valid_repr _ _ Hw Hv) as [d Hd].
  destruct (bdd_dual_ok m f d Hw Hd) as (m' & r & He & _).
  pose proof He as He'. unfold bdd_dual in He'. rewrite dual_erase in He'.
  destruct (dual_t _ m f ∅) as [[[[m1 c1] r1] tr]|] eqn:E; [|done]. cbn [mbind option_bind] in He'. injection He' as -> ->.
  exists m', r, tr. unfold bdd_dual_t. rewrite E. cbn [mbind option_bind]. split; [done|]. split; [done|].
  apply (dual_once _ m m d) in E as [Ho _]; [|done|by apply step_refl|done|by eapply fuel_enough; [apply Hw|]|by intros i x ?].
  rewrite dom_empty_L in Ho. apply once_all in Ho as [Nd Hin].
  - split; [done|]. intros id. by rewrite reaches_reach.
  - eapply awf_acyclic; [apply (gd_wf _ (bw_good _ Hw))|done].
Qed.
Print Assumptions c75_dual.

Theorem c75_count m ss f : bss_reachable m → bdd_valid m f →
  ∀ n, bdd_count m ss f = Some n → ∃ tr, bdd_count_t m ss f = Some (n, tr) ∧ NoDup tr ∧ ∀ id, id ∈ tr ↔ bdd_reaches m [f] id.
Proof.
  intros Hm Hv n He. pose proof (bss_wf m Hm) as Hw. unfold bdd_count in He. unfold bdd_count_t. rewrite count_erase in He.
  destruct (bdd_count_tf _ _ _ _ _) as [[[c1 r1] tr]|] eqn:E; [|done]. cbn [mbind option_bind] in *. injection He as ->.
  exists tr. split; [done|]. apply count_once in E as [Ho _]. rewrite dom_empty_L in Ho. apply once_all in Ho as [Nd Hin].
  - split; [done|]. intros id. by rewrite reaches_reach.
  - eapply awf_acyclic; [apply (gd_wf _ (bw_good _ Hw))|done].
Qed.
Print Assumptions c75_count.

Theorem c75_prob {R : Type} (rO rI : R) (radd rmul rsub : R → R → R) m pv ss f : bss_reachable m → bdd_valid m f →
  ∀ p, bdd_prob rO rI radd rmul rsub m pv ss f = Some p →
  ∃ tr, bdd_prob_t rO rI radd rmul rsub m pv ss f = Some (p, tr) ∧ NoDup tr ∧ ∀ id, id ∈ tr ↔ bdd_reaches m [f] id.
Proof.
  intros Hm Hv p He. pose proof (bss_wf m Hm) as Hw. unfold bdd_prob in He. unfold bdd_prob_t. rewrite prob_erase in He.
  destruct (prob_tf _ _ _ _ _ _ _ _ _ _ _) as [[[c1 r1] tr]|] eqn:E; [|done]. cbn [mbind option_bind] in *. injection He as ->.
  exists tr. split; [done|]. apply prob_once in E as [Ho _]. rewrite dom_empty_L in Ho. apply once_all in Ho as [Nd Hin].
  - split; [done|]. intros id. by rewrite reaches_reach.
  - eapply awf_acyclic; [apply (gd_wf _ (bw_good _ Hw))|done].
Qed.
Print Assumptions c75_prob.

Theorem c75_zdd_count m ss f : zdd_reachable m → zdd_valid m f →
  ∀ n, zdd_count m ss f = Some n → ∃ tr, zdd_count_t m ss f = Some (n, tr) ∧ NoDup tr ∧ ∀ id, id ∈ tr ↔ zdd_reaches m [f] id.
Proof.
  intros Hm Hv n He. pose proof (zreachable_wf m Hm) as Hw. unfold zdd_count in He. unfold zdd_count_t. rewrite zcount_erase in He.
  destruct (zdd_count_tf _ _ _ _ _) as [[[c1 r1] tr]|] eqn:E; [|done]. cbn [mbind option_bind] in *. injection He as ->.
  exists tr. split; [done|]. apply zcount_once in E as [Ho _]. rewrite dom_empty_L in Ho. apply once_all in Ho as [Nd Hin].
  - split; [done|]. intros id. by rewrite zreaches_reach.
  - eapply awf_acyclic; [apply (zg_wf _ (zw_good _ Hw))|done].
Qed.
Print Assumptions c75_zdd_count.

(** ** Operations that take no steps at all: the manager is left as it was, computed table included *)
Theorem c75_same m f g h : bdd_valid m f →
  bdd_and m f f = Some (m, f) ∧ bdd_or m f f = Some (m, f) ∧ (f ≠ bdd_undet → bdd_xor m f f = Some (m, bdd_zero)) ∧
  (ar_nodes (b_ar m) !! f = Some (Term TOne) → bdd_ite m f g h = Some (m, g)) ∧
  (ar_nodes (b_ar m) !! f = Some (Term TZero) → bdd_ite m f g h = Some (m, h)) ∧
  (ar_nodes (b_ar m) !! f ≠ Some (Term TUndet) → bdd_ite m f g g = Some (m, g)).
Proof.
  intros Hf. unfold bdd_and, bdd_or, bdd_xor, bdd_ite, ar_fuel. cbn [bdd_and_f bdd_or_f bdd_xor_f bdd_ite_f]. rewrite !Nat.eqb_refl. sp; try done.
  - intros Hu. by rewrite (proj2 (Nat.eqb_neq _ _) Hu).
  - by intros ->.
  - by intros ->.
  - intros Hu. destruct (live_lookup (b_ar m) f Hf) as [[[]|h' cs] Hn]; rewrite Hn in *; done.
Qed.
Print Assumptions c75_same.

(** ** Examples *)
(** two of x0, x1, x2: 2 * (3 + 1 - 2) = 4 calls; three of three: 3; none for k = 0 and for k = 4 *)
Example c75_kofn_ex : (m ← bdd_run bdd_new ex_calls;
    Some (map (λ k, '(_, _, c) ← kofn_c m k [3; 4; 5]; Some c) [0; 1; 2; 3; 4])) = Some [Some 0; Some 3; Some 4; Some 3; Some 0].
Proof. vm_compute. done. Qed.
(** (x0 & x1) | x2 has three decision nodes and two terminals; [7] is its root *)
Example c75_once_ex : (m ← bdd_run bdd_new ex_calls;
    '(_, _, t1) ← bdd_dual_t m 7; '(_, t2) ← bdd_count_t m [true] 7; '(_, t3) ← bdd_prob_t 0%Z 1%Z Z.add Z.mul Z.sub m ∅ [true] 7;
    n ← bdd_node_size m 7; Some (t1, t2, t3, n)) =
  Some ([1; 0; 3; 6; 7], [0; 1; 3; 6; 7], [0; 1; 3; 6; 7], (3, 2, 6)%N).
Proof. vm_compute. done. Qed.
Example c75_zdd_ex : (m ← zdd_run zdd_new ex_zcalls; '(n, tr) ← zdd_count_t m [true] 8; s ← zdd_node_size m 8; Some (n, tr, s)) =
  Some (4%N, [0; 1; 3; 6; 8], (3, 2, 6)%N).
Proof. vm_compute. done. Qed.
(** (x0 & x1) | x2 with itself *)
Example c75_same_ex : (m ← bdd_run bdd_new ex_calls; '(m1, r1) ← bdd_and m 7 7; '(m2, r2) ← bdd_xor m1 7 7; '(m3, r3) ← bdd_ite m2 7 6 6;
    Some (r1, r2, r3, length (ar_nodes (b_ar m)), length (ar_nodes (b_ar m3)))) = Some (7, 0, 6, 11, 11).
Proof. vm_compute. done. Qed.
