(** Counting, enumeration, probability and importance of a handle, in terms of its function of named variables. *)
From Coq Require Import Ring_theory.
From stdpp Require Import strings.
From Verif Require Import Prelude ComputeCache ComputeCacheProofs Arena Trees ArenaProofs Bdd BddProofs SpecBdd SpecBss BddMain BssAlg BssCount BssGates BssReach BssProb BssMeas BssSize BssMgr SpecBssMgr BssMgrProofs BssMgrMain BssLook SpecBssLook BssLookProofs.

Lemma vec_env_nth names v l x : NoDup names → names !! l = Some x → vec_env names v x = vrho v l.
Proof.
  intros Hnd Hx. unfold vec_env, vrho.
  destruct (existsb _ _) eqn:E.
  - apply existsb_exists in E as ([y b] & Hin & [Hy Hb]%andb_true_iff). apply String.eqb_eq in Hy. cbn in Hy, Hb. subst y b.
    apply elem_of_list_In, elem_of_list_lookup in Hin as [i Hi].
    apply lookup_zip_with_Some in Hi as (x' & b' & [= <- <-] & Hn & Hv). assert (i = l) as -> by by eapply NoDup_lookup.
    symmetry. by apply nth_lookup_Some.
  - symmetry. destruct (v !! l) as [b|] eqn:Hv; [|by apply nth_overflow, lookup_ge_None].
    rewrite (nth_lookup_Some v l false b Hv). destruct b; [|done].
    apply not_true_iff_false in E. destruct E. apply existsb_exists. exists (x, true). split; [|by rewrite String.eqb_refl].
    apply elem_of_list_In. eapply elem_of_list_lookup_2. apply lookup_zip_with_Some. by exists x, true.
Qed.

Section held.
Context (w : bmgr) (H : list (nat * nfun)) (f : nat) (F : nfun) (names : list string).
Context (Hheld : bss_held w H) (Hf : (f, F) ∈ H) (Hnames : w_varorder w = Some names).

Lemma vec_value v b : bdd_value (w_bdd w) (vrho v) f (tvb b) ↔ F (vec_env names v) = b.
Proof.
  destruct (held_names w H names Hheld Hnames) as (En & _ & Hnd). apply held_wok in Hheld as Hk.
  pose proof (wk_wf _ _ Hk) as Hw. pose proof (wk_held _ _ Hk _ _ Hf) as Hd.
  destruct (valid_repr _ _ Hw (proj1 Hd)) as [d Hr]. pose proof (good_ok _ _ _ (bw_good _ Hw) Hr) as O.
  rewrite (value_ev _ _ _ _ _ (bw_good _ Hw) Hr).
  rewrite (asg_agree d (vrho v) (rho_of (w_bdd w) (vec_env names v))); [|done|].
  - rewrite (denotes_ev w H Hk f F d _ Hd Hr). split; [|by intros ->]. by destruct (F _), b.
  - intros l Hl. pose proof (wok_rank w H Hk d f Hr) as Hrk. unfold rho_of.
    destruct (lookup_lt_is_Some_2 (ar_headers (b_ar (w_bdd w))) l) as [hd Hh]; [lia|].
    symmetry. apply vec_env_nth; [done|]. rewrite En, list_lookup_fmap, Hh. unfold lab. by rewrite Hh.
Qed.
Lemma vec_ss (ss : list bool) v : (∃ b, b ∈ ss ∧ bdd_value (w_bdd w) (vrho v) f (tvb b)) ↔ F (vec_env names v) ∈ ss.
Proof.
  split; [intros (b & Hb & Hv%vec_value); by subst b|]. intros Hin. exists (F (vec_env names v)). split; [done|]. by apply vec_value.
Qed.
Lemma held_det : ∀ rho, ∃ b, bdd_value (w_bdd w) rho f (tvb b).
Proof.
  intros rho. apply held_wok in Hheld as Hk. pose proof (wk_wf _ _ Hk) as Hw. pose proof (wk_held _ _ Hk _ _ Hf) as Hd.
  destruct (valid_repr _ _ Hw (proj1 Hd)) as [d Hr]. destruct (env_of_rho w H rho Hk) as [e He]. exists (F e).
  apply (value_ev _ _ _ _ _ (bw_good _ Hw) Hr). rewrite <- (denotes_ev w H Hk f F d e Hd Hr).
  apply asg_agree; [by eapply good_ok; [apply Hw|]|]. intros l Hl. symmetry. apply He. pose proof (wok_rank w H Hk d f Hr). lia.
Qed.
Lemma level_rank : match w_level w f with Some l => S l | None => 0 end =
  match ar_node_level (b_ar (w_bdd w)) f with Some (Some l) => l + 1 | _ => 0 end.
Proof.
  apply held_wok in Hheld as Hk. pose proof (wk_wf _ _ Hk) as Hw. pose proof (wk_held _ _ Hk _ _ Hf) as Hd.
  destruct (valid_repr _ _ Hw (proj1 Hd)) as [d Hr]. rewrite (node_level_eq _ _ _ (bw_good _ Hw) Hr).
  unfold w_level, w_header. destruct d as [t|hd ds].
  - apply repr_leaf in Hr as [_ ->]. done.
  - destruct (repr_node2 _ _ _ _ (bw_good _ Hw) Hr) as (h & lo & hi & dlo & dhi & -> & Hn & Hh & _).
    rewrite Hn. cbn [mbind option_bind]. rewrite Hh. cbn. lia.
Qed.

Lemma held_count ss n L : n = match w_level w f with Some l => S l | None => 0 end →
  NoDup L → (∀ v, v ∈ L ↔ length v = n ∧ F (vec_env names v) ∈ ss) → w_count w ss f = Some (N.of_nat (length L)).
Proof.
  intros -> Hnd HL. apply held_wok in Hheld as Hk. pose proof (wk_held _ _ Hk _ _ Hf) as Hd.
  eapply count_l; [apply Hk|apply Hd|done|done|]. intros v. rewrite HL, <- level_rank, vec_ss. done.
Qed.
Lemma held_extract (ss : list bool) n : n = match w_level w f with Some l => S l | None => 0 end →
  ∃ L k0, NoDup L ∧ (∀ v, v ∈ L ↔ length v = n ∧ F (vec_env names v) ∈ ss) ∧
    (∀ fuel, k0 ≤ fuel → w_extract fuel w ss f = Some (render names <$> L)) ∧
    w_count w ss f = Some (N.of_nat (length L)).
Proof.
  intros ->. destruct (held_names w H names Hheld Hnames) as (En & Ho & Hnd). apply held_wok in Hheld as Hk. pose proof (wk_held _ _ Hk _ _ Hf) as Hd.
  destruct (extract_l (w_bdd w) names ss f _ (wk_wf _ _ Hk) (proj1 Hd) Ho level_rank) as (L & k0 & HL & Hv & He).
  assert (Hv' : ∀ v, v ∈ L ↔ length v = match w_level w f with Some l => S l | None => 0 end ∧ F (vec_env names v) ∈ ss)
    by (intros v; by rewrite Hv, vec_ss).
  exists L, k0. sp; try done. by eapply held_count.
Qed.
Lemma held_size ln lt :
  NoDup ln → (∀ id, id ∈ ln ↔ bdd_reaches (w_bdd w) [f] id ∧ ∃ h cs, ar_nodes (b_ar (w_bdd w)) !! id = Some (NT h cs)) →
  NoDup lt → (∀ id, id ∈ lt ↔ bdd_reaches (w_bdd w) [f] id ∧ ∃ t, ar_nodes (b_ar (w_bdd w)) !! id = Some (Term t)) →
  w_size w f = Some (N.of_nat (length ln), N.of_nat (length lt), (2 * N.of_nat (length ln))%N).
Proof.
  apply held_wok in Hheld as Hk. pose proof (wk_held _ _ Hk _ _ Hf) as Hd. apply size_l; [apply Hk|apply Hd].
Qed.

Section ring.
Context {R : Type} (rO rI : R) (radd rmul rsub : R → R → R) (ropp : R → R).
Context (Rth : ring_theory rO rI radd rmul rsub ropp eq).
Lemma held_prob pv ss L : NoDup L → (∀ v, v ∈ L ↔ length v = length names ∧ F (vec_env names v) ∈ ss) →
  w_prob rO rI radd rmul rsub w pv ss f = Some (ring_sum rO radd (weight rO rI rmul rsub pv names <$> L)).
Proof.
  intros Hnd HL. destruct (held_names w H names Hheld Hnames) as (En & Ho & _). apply held_wok in Hheld as Hk. pose proof (wk_held _ _ Hk _ _ Hf) as Hd.
  eapply prob_l; [exact Rth|apply Hk|apply Hd|done|apply held_det|done|]. intros v. by rewrite HL, vec_ss.
Qed.

Lemma occurs_allhd (P : header → Prop) d : ∀ id, repr (b_ar (w_bdd w)) d id →
  (∀ y h cs hd, reach (b_ar (w_bdd w)) [id] y → ar_nodes (b_ar (w_bdd w)) !! y = Some (NT h cs) →
     ar_headers (b_ar (w_bdd w)) !! h = Some hd → P hd) → allhd P d.
Proof.
  apply held_wok in Hheld as Hk. pose proof (bw_good _ (wk_wf _ _ Hk)) as Hg.
  induction d as [t|hd ds IH] using dd_ind'; intros id Hr HP; [done|].
  destruct (repr_node2 _ _ _ _ Hg Hr) as (h & lo & hi & dlo & dhi & -> & Hn & Hh & Hlo & Hhi & _).
  apply allhd_br. split; [eapply HP; [constructor; by left|done|done]|].
  rewrite !Forall_cons in *. destruct IH as (IH0 & IH1 & _). sp; [..|done].
  - apply (IH0 lo Hlo). intros y h' cs' hd' Hy. apply HP. eapply reach_cons; [exact Hn| |exact Hy]. set_solver.
  - apply (IH1 hi Hhi). intros y h' cs' hd' Hy. apply HP. eapply reach_cons; [exact Hn| |exact Hy]. set_solver.
Qed.
Lemma held_bmeas pv ss : ∃ g, w_bmeas rO rI radd rmul rsub w pv ss f = Some g ∧
  (∀ x, is_Some (g !! x) ↔ needs F x) ∧
  ∀ x, ∃ p1 p0, w_prob rO rI radd rmul rsub w (<[x := rI]> pv) ss f = Some p1 ∧
    w_prob rO rI radd rmul rsub w (<[x := rO]> pv) ss f = Some p0 ∧ default rO (g !! x) = rsub p1 p0.
Proof.
  destruct (held_names w H names Hheld Hnames) as (En & Ho & Hnd). apply held_wok in Hheld as Hk. pose proof (wk_held _ _ Hk _ _ Hf) as Hd.
  pose proof (wk_wf _ _ Hk) as Hw.
  destruct (bmeas_l rO rI radd rmul rsub ropp Rth (w_bdd w) names pv ss f Hw (proj1 Hd) Ho Hnd held_det) as (g & Hg & Hocc & Hval).
  exists g. sp; [done|intros x; by rewrite Hocc, (needs_occurs w H Hk f F x Hd)|].
  intros x. destruct (g !! x) as [v|] eqn:Hx; [exact (Hval _ _ Hx)|].
  destruct (valid_repr _ _ Hw (proj1 Hd)) as [d Hr].
  pose proof (det_value _ _ _ Hw Hr held_det) as Hdt.
  assert (Hal : allhd (λ hd, h_label hd ≠ x) d).
  { eapply occurs_allhd; [done|]. intros y h cs hd Hy Hn Hh E.
    assert (is_Some (g !! x)) as [? ?]; [|congruence]. apply Hocc. exists y, h, cs, hd. sp; try done. by apply reaches_reach. }
  pose proof (good_ok _ _ _ (bw_good _ Hw) Hr) as O. unfold w_prob.
  eexists _, _. sp; [by eapply bdd_prob_ok|by eapply bdd_prob_ok|].
  rewrite !pr_insert_other by done. cbn. rewrite (Rsub_def Rth), (Ropp_def Rth). done.
Qed.
End ring.
End held.
