(** Minimal paths and cuts determine the structure function. *)
From stdpp Require Import strings.
From Verif Require Import Prelude ComputeCache Arena Bdd BssAlg BssMgr SpecBdd SpecBssMgr BssMgrProofs SpecBssLook
  Zdd ZddAlg SpecZdd ZddMgr SpecZddMgr ZddMgrProofs BssJoint ZddMgrMain.

(** ** binary systems *)
Lemma up_true S x : up S x = true ↔ x ∈ S.
Proof. unfold up. by rewrite bool_decide_eq_true. Qed.
Lemma down_true S x : down S x = true ↔ x ∉ S.
Proof. unfold down. by rewrite bool_decide_eq_true. Qed.
Definition finitely (F : nfun) (V : list string) : Prop := ∀ e e' : env, (∀ x, x ∈ V → e x = e' x) → F e = F e'.
Section bin.
Context (F : nfun) (Hinc : increasing F).
Implicit Types (S T : gset string) (e : env).
Lemma inc_ext e e' : (∀ x, e x = e' x) → F e = F e'.
Proof using Hinc.
  intros He. destruct (F e) eqn:E1, (F e') eqn:E2; try done.
  - rewrite <- E2. symmetry. apply (Hinc e); [|done]. intros x. by rewrite He.
  - rewrite <- E1. apply (Hinc e'); [|done]. intros x. by rewrite He.
Qed.
Lemma inc_false e e' : (∀ x, e x = true → e' x = true) → F e' = false → F e = false.
Proof using Hinc. intros He Hf. destruct (F e) eqn:E; [|done]. by rewrite (Hinc e e') in Hf. Qed.
Lemma up_mono S T : S ⊆ T → F (up S) = true → F (up T) = true.
Proof using Hinc. intros Hs. apply Hinc. intros x. rewrite !up_true. set_solver. Qed.
Lemma min_path_in S : F (up S) = true → ∃ S', S' ⊆ S ∧ min_paths F S'.
Proof using Hinc.
  induction (set_wf S) as [S _ IH]. intros HS.
  destruct (decide (Exists (λ x, F (up (S ∖ {[x]})) = true) (elements S))) as [(x & Hx & Hf)%Exists_exists|Hn].
  - rewrite elem_of_elements in Hx. destruct (IH (S ∖ {[x]})) as (S' & Hs & Hm); [set_solver|done|]. exists S'. split; [set_solver|done].
  - exists S. split; [done|]. split; [done|]. intros S' [Hs Hne]. destruct (F (up S')) eqn:E; [|done]. exfalso. apply Hn.
    apply Exists_exists. destruct (set_choose_or_empty (S ∖ S')) as [[x Hx]|He].
    2:{ exfalso. apply Hne. intros x Hx. destruct (decide (x ∈ S')); [done|]. set_solver. }
    exists x. split; [set_solver|]. eapply up_mono; [|done]. set_solver.
Qed.
Lemma paths_cover V e : finitely F V → F e = true ↔ ∃ S, min_paths F S ∧ ∀ x, x ∈ S → e x = true.
Proof using Hinc.
  intros HV. split.
  - intros He. set (S := list_to_set (filter (λ x, e x = true) V) : gset string).
    assert (HS : ∀ x, x ∈ S ↔ e x = true ∧ x ∈ V) by (intros x; unfold S; by rewrite elem_of_list_to_set, elem_of_list_filter).
    destruct (min_path_in S) as (S' & Hs & Hm).
    + rewrite (HV (up S) e); [done|]. intros x Hx. destruct (e x) eqn:E; [apply up_true, HS; done|].
      destruct (up S x) eqn:E'; [|done]. apply up_true, HS in E' as [? _]. congruence.
    + exists S'. split; [done|]. intros x Hx. by apply HS, Hs.
  - intros (S & [Hu _] & HS). apply (Hinc (up S)); [|done]. intros x Hx%up_true. by apply HS.
Qed.
Lemma paths_needs V x : finitely F V → needs F x ↔ ∃ S, min_paths F S ∧ x ∈ S.
Proof using Hinc.
  intros HV. split.
  - intros [e He].
    assert (F (env_set e x true) = true ∧ F (env_set e x false) = false) as [H1 H0].
    { destruct (F (env_set e x false)) eqn:E0.
      - destruct He. apply (Hinc (env_set e x false)); [|done]. intros y. unfold env_set. by case_decide.
      - by destruct (F (env_set e x true)). }
    apply (paths_cover V) in H1 as (S & Hm & HS); [|done]. exists S. split; [done|]. destruct (decide (x ∈ S)); [done|]. exfalso.
    enough (F (env_set e x false) = true) by congruence. apply (paths_cover V); [done|]. exists S. split; [done|].
    intros y Hy. specialize (HS y Hy). unfold env_set in *. case_decide; [|done]. by subst.
  - intros (S & [Hu Hm] & Hx). exists (up S).
    rewrite (inc_ext (env_set (up S) x true) (up S)), (inc_ext (env_set (up S) x false) (up (S ∖ {[x]}))), Hu, Hm; [done|set_solver|..].
    + intros y. unfold env_set. case_decide as E.
      * subst. destruct (up _ x) eqn:E'; [|done]. apply up_true in E'. set_solver.
      * destruct (up S y) eqn:E1, (up (S ∖ {[x]}) y) eqn:E2; try done.
        -- apply up_true in E1. assert (y ∉ S ∖ {[x]}) by (by rewrite <- up_true, E2). set_solver.
        -- apply up_true in E2. assert (y ∉ S) by (by rewrite <- up_true, E1). set_solver.
    + intros y. unfold env_set. case_decide; [|done]. subst. symmetry. by apply up_true.
Qed.
Lemma path_cut S T : min_paths F S → min_cuts F T → ∃ x, x ∈ S ∧ x ∈ T.
Proof using Hinc.
  intros [HS _] [HT _]. destruct (set_choose_or_empty (S ∩ T)) as [[x Hx]|He]; [exists x; set_solver|].
  rewrite (inc_false (up S) (down T)) in HS; [done| |done]. intros x. rewrite up_true, down_true. set_solver.
Qed.
End bin.

(** cuts are paths of the dual *)
Definition flip (F : nfun) : nfun := λ e, negb (F (λ x, negb (e x))).
Lemma flip_inc F : increasing F → increasing (flip F).
Proof.
  intros Hi e e' He. unfold flip. rewrite !negb_true_iff. apply inc_false; [done|]. intros x. rewrite !negb_true_iff.
  specialize (He x). destruct (e x), (e' x); try done. by specialize (He eq_refl).
Qed.
Lemma flip_up F S : increasing F → flip F (up S) = negb (F (down S)).
Proof.
  intros Hi. unfold flip. f_equal. apply inc_ext; [done|]. intros x. unfold up, down. by repeat case_bool_decide.
Qed.
Lemma flip_paths F S : increasing F → min_paths (flip F) S ↔ min_cuts F S.
Proof.
  intros Hi. unfold min_paths, min_cuts. setoid_rewrite (flip_up F); [|done..]. rewrite negb_true_iff. by setoid_rewrite negb_false_iff.
Qed.
Lemma flip_fin F V : finitely F V → finitely (flip F) V.
Proof. intros HV e e' He. unfold flip. f_equal. apply HV. intros x Hx. by rewrite He. Qed.
Lemma flip_needs F x : increasing F → needs (flip F) x ↔ needs F x.
Proof.
  intros Hi. assert (Hs : ∀ (e : env) b, F (λ y, negb (env_set e x b y)) = F (env_set (λ y, negb (e y)) x (negb b))).
  { intros e b. apply inc_ext; [done|]. intros y. unfold env_set. by case_decide. }
  assert (Hs' : ∀ (e : env) b, F (env_set (λ y, negb (negb (e y))) x b) = F (env_set e x b)).
  { intros e b. apply inc_ext; [done|]. intros y. unfold env_set. case_decide; [done|]. by rewrite negb_involutive. }
  unfold needs, flip. split; intros [e He]; exists (λ y, negb (e y)).
  - rewrite !Hs in He. cbn in He. congruence.
  - rewrite !Hs. cbn. rewrite !Hs'. intros Hc. apply He. by destruct (F (env_set e x true)), (F (env_set e x false)).
Qed.
Lemma cuts_cover F V e : increasing F → finitely F V → F e = false ↔ ∃ S, min_cuts F S ∧ ∀ x, x ∈ S → e x = false.
Proof.
  intros Hi HV. pose proof (paths_cover (flip F) (flip_inc F Hi) V (λ x, negb (e x)) (flip_fin F V HV)) as Hp.
  setoid_rewrite (flip_paths F) in Hp; [|done]. setoid_rewrite negb_true_iff in Hp. rewrite <- Hp.
  rewrite (inc_ext F Hi (λ x, negb (negb (e x))) e); [done|]. intros x. by rewrite negb_involutive.
Qed.
Lemma cuts_needs F V x : increasing F → finitely F V → needs F x ↔ ∃ S, min_cuts F S ∧ x ∈ S.
Proof.
  intros Hi HV. rewrite <- flip_needs by done. rewrite (paths_needs (flip F) (flip_inc F Hi) V x (flip_fin F V HV)).
  by setoid_rewrite (flip_paths F).
Qed.

Lemma value_names m e e' f t : (∀ hd, hd ∈ ar_headers (b_ar m) → e (h_label hd) = e' (h_label hd)) →
  bss_value m e f t → bss_value m e' f t.
Proof.
  intros He. induction 1 as [id t Hn|id h lo hi hd t Hn Hh Hv IH]; [by constructor|].
  eapply sv_node; [done|done|]. rewrite <- He; [done|]. by eapply elem_of_list_lookup_2.
Qed.
Lemma joint_finitely s HB HZ f F : bssm_held s HB HZ → (f, F) ∈ HB → ∃ V, finitely F V.
Proof.
  intros Hj Hf. destruct (wk_held _ _ (proj1 (bssm_held_ok s HB HZ Hj)) f F Hf) as [_ Hv].
  exists (h_label <$> ar_headers (b_ar (w_bdd (s_bdd s)))). intros e e' He.
  enough (tvb (F e) = tvb (F e')) as H by (by destruct (F e), (F e')).
  eapply sv_fun; [|apply Hv]. eapply value_names; [|apply Hv]. intros hd Hin. apply He, elem_of_list_fmap. by exists hd.
Qed.
Lemma increasing_stable F : ¬ ¬ increasing F → increasing F.
Proof. intros Hn e e' He Ht. destruct (F e') eqn:E; [done|]. exfalso. apply Hn. intros Hi. by rewrite (Hi e e') in E. Qed.

Lemma joint_paths s HB HZ f F s' z : bssm_held s HB HZ → (f, F) ∈ HB → s_minpath s f = Some (s', Some z) →
  ∃ L k0, (∀ fuel, k0 ≤ fuel → y_extract fuel (s_zdd s') [true] z = Some L) ∧
    (∀ e, F e = true ↔ ∃ l, l ∈ L ∧ ∀ x, x ∈ l → e x = true) ∧ (∀ x, needs F x ↔ ∃ l, l ∈ L ∧ x ∈ l).
Proof.
  intros Hj Hf E. destruct (joint_finitely _ _ _ _ _ Hj Hf) as [V HV]. destruct (minpath_named s HB HZ f F Hj Hf) as (s1 & r & E1 & Hr & _).
  rewrite E in E1. apply (inj Some) in E1. apply pair_equal_spec in E1 as [<- <-].
  assert (Hi : increasing F). { apply increasing_stable. intros Hn. by apply Hr in Hn. }
  pose proof (jm_minpath _ _ _ _ _ _ _ Hj Hf E) as Hj'. cbn in Hj'.
  destruct (in_use_extract (s_zdd s') ((z, Some (min_paths F)) :: HZ) z (min_paths F)) as (L & k0 & Hex & _ & _ & HL); [right; by exists s', HB|by left|].
  assert (HL' : ∀ P : gset string → Prop, (∃ S, min_paths F S ∧ P S) ↔ ∃ l, l ∈ L ∧ P (list_to_set l)).
  { intros P. split.
    - intros (S & (l & -> & Hl)%HL%elem_of_list_fmap & HP). by exists l.
    - intros (l & Hl & HP). exists (list_to_set l). split; [|done]. apply HL, elem_of_list_fmap. by exists l. }
  exists L, k0. split; [done|]. split.
  - intros e. rewrite (paths_cover F Hi V e HV), (HL' (λ S, ∀ x, x ∈ S → e x = true)). by setoid_rewrite elem_of_list_to_set.
  - intros x. rewrite (paths_needs F Hi V x HV), (HL' (λ S, x ∈ S)). by setoid_rewrite elem_of_list_to_set.
Qed.
Lemma joint_cuts s HB HZ f F s' z : bssm_held s HB HZ → (f, F) ∈ HB → s_mincut s f = Some (s', Some z) →
  ∃ L k0, (∀ fuel, k0 ≤ fuel → y_extract fuel (s_zdd s') [true] z = Some L) ∧
    (∀ e, F e = false ↔ ∃ l, l ∈ L ∧ ∀ x, x ∈ l → e x = false) ∧ (∀ x, needs F x ↔ ∃ l, l ∈ L ∧ x ∈ l).
Proof.
  intros Hj Hf E. destruct (joint_finitely _ _ _ _ _ Hj Hf) as [V HV]. destruct (mincut_named s HB HZ f F Hj Hf) as (s1 & r & E1 & Hr & _).
  rewrite E in E1. apply (inj Some) in E1. apply pair_equal_spec in E1 as [<- <-].
  assert (Hi : increasing F). { apply increasing_stable. intros Hn. by apply Hr in Hn. }
  pose proof (jm_mincut _ _ _ _ _ _ _ Hj Hf E) as Hj'. cbn in Hj'.
  destruct (in_use_extract (s_zdd s') ((z, Some (min_cuts F)) :: HZ) z (min_cuts F)) as (L & k0 & Hex & _ & _ & HL); [right; by exists s', HB|by left|].
  assert (HL' : ∀ P : gset string → Prop, (∃ S, min_cuts F S ∧ P S) ↔ ∃ l, l ∈ L ∧ P (list_to_set l)).
  { intros P. split.
    - intros (S & (l & -> & Hl)%HL%elem_of_list_fmap & HP). by exists l.
    - intros (l & Hl & HP). exists (list_to_set l). split; [|done]. apply HL, elem_of_list_fmap. by exists l. }
  exists L, k0. split; [done|]. split.
  - intros e. rewrite (cuts_cover F V e Hi HV), (HL' (λ S, ∀ x, x ∈ S → e x = false)). by setoid_rewrite elem_of_list_to_set.
  - intros x. rewrite (cuts_needs F V x Hi HV), (HL' (λ S, x ∈ S)). by setoid_rewrite elem_of_list_to_set.
Qed.
