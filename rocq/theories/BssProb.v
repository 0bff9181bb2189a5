(** Probability and Birnbaum importance: proofs. *)
From Coq Require Import Ring.
From stdpp Require Import strings.
From Verif Require Import Prelude ComputeCache ComputeCacheProofs Arena Trees ArenaProofs Bdd BddProofs SpecBdd SpecBss BddMain BssAlg BssCount BssSize.

(** every header of the tree satisfies [P] *)
Fixpoint allhd {T} (P : header → Prop) (d : dd T) : Prop :=
  match d with
  | Leaf _ => True
  | Br hd cs => P hd ∧ (fix all cs := match cs with [] => True | c :: cs => allhd P c ∧ all cs end) cs
  end.
Lemma allhd_br {T} P hd (cs : list (dd T)) : allhd P (Br hd cs) ↔ P hd ∧ Forall (allhd P) cs.
Proof.
  cbn [allhd]. assert (∀ l, (fix all (cs : list (dd T)) := match cs with [] => True | c :: cs => allhd P c ∧ all cs end) l ↔
       Forall (allhd P) l) as Hl.
  { induction l as [|c l IH]; [by split|]. rewrite Forall_cons, <- IH. done. }
  by rewrite Hl.
Qed.
Lemma repr_allhd {T} (P : header → Prop) (a : arena T) d id :
  (∀ h hd, ar_headers a !! h = Some hd → P hd) → repr a d id → allhd P d.
Proof.
  intros HP. revert id. induction d as [t|hd ds IH] using dd_ind'; intros id Hr; [done|].
  apply repr_br in Hr as [_ (h & cs & _ & Hh & Hf)]. apply allhd_br. split; [by eapply HP|].
  rewrite Forall_forall in IH. apply Forall_lookup. intros i d Hd.
  destruct (Forall2_lookup_l _ _ _ _ _ Hf Hd) as (c & Hc & Hrc).
  eapply IH; [by eapply elem_of_list_lookup_2|done].
Qed.

Section prob.
Context {R : Type} (rO rI : R) (radd rmul rsub : R → R → R) (ropp : R → R)
  (Rth : ring_theory rO rI radd rmul rsub ropp eq).
Add Ring Rring : Rth.
Local Notation "0" := rO.
Local Notation "1" := rI.
Local Notation "x + y" := (radd x y).
Local Notation "x * y" := (rmul x y).
Local Notation "x - y" := (rsub x y).
Local Notation rsum := (ring_sum rO radd).

Lemma rsum_app l1 l2 : rsum (l1 ++ l2) = rsum l1 + rsum l2.
Proof. unfold ring_sum. induction l1 as [|x l IH]; cbn; [ring|]. rewrite IH. ring. Qed.
Lemma rsum_perm l1 l2 : l1 ≡ₚ l2 → rsum l1 = rsum l2.
Proof.
  unfold ring_sum.
  induction 1 as [|x l1 l2 _ IH|x y l|l1 l2 l3 _ IH1 _ IH2]; cbn; [done|by rewrite IH|ring|congruence].
Qed.
Lemma rsum_scale {A} (f : A → R) c l : rsum ((λ x, f x * c) <$> l) = rsum (f <$> l) * c.
Proof. unfold ring_sum. induction l as [|x l IH]; cbn; [ring|]. rewrite IH. ring. Qed.

Lemma rprod_app l1 l2 : foldr rmul 1 (l1 ++ l2) = foldr rmul 1 l1 * foldr rmul 1 l2.
Proof. induction l1 as [|x l IH]; cbn; [ring|]. rewrite IH. ring. Qed.

Section fixed.
Context (pv : gmap string R) (ss : list bool).
Definition hp (hd : header) : R := default 0 (pv !! h_label hd).

(** the recursion the code performs, on trees; children other than the first two are ignored *)
Fixpoint pr (d : dd tv) : R :=
  match d with
  | Leaf t => if hits ss t then 1 else 0
  | Br hd cs => match map pr cs with
                | [p0; p1] => (1 - hp hd) * p0 + hp hd * p1
                | _ => 0
                end
  end.
Lemma pr_br hd d0 d1 : pr (Br hd [d0; d1]) = (1 - hp hd) * pr d0 + hp hd * pr d1.
Proof. done. Qed.

Section names.
Context (names : list string).
Local Notation vp := (var_prob rO pv names).
Local Notation wt := (weight rO rI rmul rsub pv names).
Definition psum (n : nat) (d : dd tv) : R := rsum (wt <$> sat ss n d).

Lemma wt_snoc v b : wt (v ++ [b]) = wt v * (if b then vp (length v) else 1 - vp (length v)).
Proof. unfold weight. rewrite imap_app, rprod_app. cbn. rewrite Nat.add_0_r. destruct b; ring. Qed.

Lemma psum_S n d : okdd E2 d → rank d ≤ S n →
  psum (S n) d = (1 - vp n) * psum n (cof d n 0%nat) + vp n * psum n (cof d n 1%nat).
Proof.
  intros Ho Hk. unfold psum. cbn [sat]. rewrite fmap_app, rsum_app, <- !list_fmap_compose.
  assert (Hc : ∀ i b, i < 2 → rsum ((wt ∘ (λ v, v ++ [b])) <$> sat ss n (cof d n i)) =
    rsum (wt <$> sat ss n (cof d n i)) * (if b then vp n else 1 - vp n)).
  { intros i b Hi. rewrite <- rsum_scale. f_equal. apply list_fmap_ext. intros j v Hv.
    apply elem_of_list_lookup_2, elem_of_sat in Hv as [Hl _]; [|by apply cof_ok|by apply (cof_rank E2)].
    unfold compose. by rewrite wt_snoc, Hl. }
  rewrite !Hc by lia. ring.
Qed.

Lemma psum_low n d : okdd E2 d → rank d ≤ n → psum (S n) d = psum n d.
Proof. intros Ho Hr. rewrite psum_S by (done || lia). rewrite !cof_low by done. ring. Qed.

Lemma psum_pr n : ∀ d, okdd E2 d → rank d ≤ n → allhd (λ hd, vp (h_level hd) = hp hd) d → psum n d = pr d.
Proof.
  induction n as [|n IH]; intros d Ho Hk Hh.
  - destruct d as [t|]; [|cbn in Hk; lia]. unfold psum. cbn. destruct (hits ss t); cbn; [|done].
    unfold weight. cbn. ring.
  - destruct (decide (rank d ≤ n)) as [Hle|Hgt]; [rewrite psum_low by done; by apply IH|].
    destruct d as [t|hd cs]; [cbn in Hgt; lia|]. cbn [rank] in Hk, Hgt. assert (h_level hd = n) as <- by lia.
    rewrite psum_S by (done || (cbn [rank]; lia)).
    apply okdd_br in Ho as [Hl Hcs]. unfold E2 in Hl. destruct cs as [|d0 [|d1 [|]]]; try done.
    apply allhd_br in Hh as [Hh Hhs]. rewrite !Forall_cons in Hcs, Hhs.
    destruct (cof_br2 hd d0 d1) as [-> ->]. rewrite pr_br, Hh, !IH; try done; try apply Hcs; apply Hhs.
Qed.
End names.

(** the code *)
Definition pcache (a : arena tv) (cache : gmap nat R) : Prop :=
  ∀ i x, cache !! i = Some x → ∃ di, repr a di i ∧ x = pr di.

(** no undetermined leaf *)
Fixpoint det (d : dd tv) : Prop :=
  match d with
  | Leaf t => t ≠ TUndet
  | Br _ cs => (fix all cs := match cs with [] => True | c :: cs => det c ∧ all cs end) cs
  end.
Lemma det_br hd d0 d1 : det (Br hd [d0; d1]) ↔ det d0 ∧ det d1.
Proof. cbn. tauto. Qed.

Lemma prob_f_spec n a : good a → ∀ d id cache, repr a d id → rank d < n → det d → pcache a cache →
  ∃ cache', prob_f rO rI radd rmul rsub n a id pv ss cache = Some (cache', pr d) ∧ pcache a cache'.
Proof.
  intros Hg. induction n as [|n IH]; intros d id cache Hr Hn Hdet Hc; [lia|]. cbn [prob_f].
  destruct (cache !! id) as [x|] eqn:Hhit.
  { destruct (Hc _ _ Hhit) as (di & Hdi & ->). rewrite (repr_fun _ _ _ _ Hr Hdi). by exists cache. }
  assert (Hins : ∀ cache1, pcache a cache1 → pcache a (<[id := pr d]> cache1)).
  { intros c1 Hc1 i x. rewrite lookup_insert_Some. intros [[<- <-]|[_ H]]; [by exists d|by apply Hc1]. }
  destruct d as [t|hd ds].
  - apply repr_leaf in Hr as [Hl Hnd]. rewrite Hnd. cbn [mbind option_bind].
    destruct t; [..|done]; cbn [mbind option_bind]; (eexists; split; [done|]); exact (Hins cache Hc).
  - destruct (repr_node2 _ _ _ _ Hg Hr) as (h & lo & hi & dlo & dhi & -> & Hnd & Hh & Hlo & Hhi & Rlo & Rhi).
    apply det_br in Hdet as [D0 D1].
    rewrite Hnd. cbn [mbind option_bind edges2]. rewrite Hh. cbn [mbind option_bind]. cbn [rank] in Hn.
    destruct (IH dlo lo cache Hlo) as (c1 & -> & Hc1); [lia|done|done|]. cbn [mbind option_bind].
    destruct (IH dhi hi c1 Hhi) as (c2 & -> & Hc2); [lia|done|done|]. cbn [mbind option_bind].
    eexists. split; [done|]. exact (Hins c2 Hc2).
Qed.

Lemma bdd_prob_ok m f d : bwf m → repr (b_ar m) d f → det d →
  bdd_prob rO rI radd rmul rsub m pv ss f = Some (pr d).
Proof.
  intros Hw Hd Hdet. unfold bdd_prob.
  destruct (prob_f_spec (ar_fuel (b_ar m)) (b_ar m) (bw_good _ Hw) d f ∅ Hd) as (c & -> & _);
    [by eapply fuel_enough; [apply Hw|]|done|by intros ? ? ?|]. done.
Qed.
End fixed.

(** a diagram that is determined everywhere has no undetermined leaf *)
Lemma det_ev d : okdd E2 d → (∀ ρ, vok E2 ρ → ev ρ d ≠ TUndet) → det d.
Proof.
  induction d as [t|hd cs IH] using dd_ind'; intros Ho Hev.
  - specialize (Hev (λ _, O)). apply Hev. intros l. unfold E2. lia.
  - pose proof Ho as [Hl Hcs]%okdd_br. unfold E2 in Hl. destruct cs as [|d0 [|d1 [|]]]; try done.
    rewrite !Forall_cons in IH, Hcs. destruct IH as (IH0 & IH1 & _), Hcs as ((R0 & O0) & (R1 & O1) & _).
    assert (Hup : ∀ ρ i dc, vok E2 ρ → i < 2 → okdd E2 dc → rank dc ≤ h_level hd → ev (upd ρ (h_level hd) i) dc = ev ρ dc).
    { intros ρ i dc Hv Hi Hok Hk. unfold ev. by erewrite eval_upd. }
    apply det_br. split.
    + apply IH0; [done|]. intros ρ Hv. rewrite <- (Hup ρ O) by (done || lia).
      specialize (Hev (upd ρ (h_level hd) O)). rewrite ev_br2, upd_same in Hev; [apply Hev|]; apply vok_upd; (done || (unfold E2; lia)).
    + apply IH1; [done|]. intros ρ Hv. rewrite <- (Hup ρ 1%nat) by (done || lia).
      specialize (Hev (upd ρ (h_level hd) 1%nat)). rewrite ev_br2, upd_same in Hev; [apply Hev|]; apply vok_upd; (done || (unfold E2; lia)).
Qed.
Lemma det_value m f d : bwf m → repr (b_ar m) d f → (∀ rho, ∃ b, bdd_value m rho f (tvb b)) → det d.
Proof.
  intros Hw Hd H. pose proof (good_ok _ _ _ (bw_good _ Hw) Hd) as Ho. apply det_ev; [done|].
  intros ρ Hv. rewrite (ev_ext ρ (asg (λ l, ρ l =? 1)%nat) d Ho (vok_asg ρ Hv)).
  destruct (H (λ l, ρ l =? 1)%nat) as [b Hb]. eapply val_ev in Hb; [|apply Hw|done]. rewrite Hb. by destruct b.
Qed.

Lemma order_hp m names pv d f : bdd_order m names → repr (b_ar m) d f →
  allhd (λ hd, var_prob rO pv names (h_level hd) = hp pv hd) d.
Proof.
  intros (_ & _ & Hnm) Hd. eapply repr_allhd; [|done]. intros h hd Hh. unfold var_prob, hp. by rewrite (Hnm _ _ Hh).
Qed.
Lemma order_rank m names d f : bdd_order m names → repr (b_ar m) d f → rank d ≤ length names.
Proof.
  intros (Hlen & _ & Hnm) Hd. destruct d as [|hd ds]; [cbn; lia|].
  apply repr_br in Hd as [_ (h & cs & _ & Hh & _)]. apply Hnm, lookup_lt_Some in Hh. cbn. lia.
Qed.

Lemma prob_l m names pv ss f S : bwf m → bdd_valid m f → bdd_order m names →
  (∀ rho, ∃ b, bdd_value m rho f (tvb b)) →
  NoDup S → (∀ v, v ∈ S ↔ length v = length names ∧ ∃ b, b ∈ ss ∧ bdd_value m (vrho v) f (tvb b)) →
  bdd_prob rO rI radd rmul rsub m pv ss f = Some (rsum (weight rO rI rmul rsub pv names <$> S)).
Proof.
  intros Hre Vf Hord Hdet Hnd HS. pose proof Hre as Hw. pose proof (bw_good _ Hw) as Hg.
  destruct (valid_repr _ _ Hw Vf) as [d Hd].
  rewrite (bdd_prob_ok pv ss m f d Hw Hd) by by eapply det_value.
  f_equal. pose proof (order_rank _ _ _ _ Hord Hd) as Hrk. pose proof (good_ok _ _ _ Hg Hd) as Ho.
  rewrite <- (psum_pr pv ss names (length names) d Ho Hrk) by by eapply order_hp.
  apply rsum_perm, fmap_Permutation, NoDup_Permutation; [apply NoDup_sat|done|].
  intros v. rewrite HS, elem_of_sat by done. rewrite hits_spec.
  assert (Heq : ∀ b, ev (asg (vrho v)) d = tvb b ↔ bdd_value m (vrho v) f (tvb b)).
  { intros b. symmetry. by apply value_ev. }
  split; intros [? (b & ? & ?)]; (split; [done|]); exists b; (split; [done|]); by apply Heq.
Qed.
End prob.
