(** Minimal path and cut vectors determine a multi-state structure function. *)
From Coq Require Import ZArith.
From stdpp Require Import strings.
From Verif Require Import Prelude ComputeCache Arena Bdd Mdd MtMdd MtMdd2 Zmdd ZmddAlg BssMgr MssMgr SpecBdd SpecMdd
  SpecZmdd SpecZmddAlg SpecBssMgr SpecMss SpecCover MssMgrProofs MssMgrVar MssSolMgr MssFam MssExtract.

Section vars.
Context (vars : list (string * nat)).
Implicit Types (e : menv) (P : menv → Prop).
Lemma below_refl e : below_on vars e e.
Proof. by intros s _. Qed.
Lemma below_trans e1 e2 e3 : below_on vars e1 e2 → below_on vars e2 e3 → below_on vars e1 e3.
Proof. intros H1 H2 s Hs. etrans; [by apply H1|by apply H2]. Qed.
Lemma dense_lookup e y k : dense vars e !! y = Some k ↔ y ∈ vars.*1 ∧ k = e y.
Proof.
  unfold dense. split.
  - intros H%elem_of_list_to_map_2. apply elem_of_list_fmap in H as ([z n] & [= -> ->] & Hin). split; [|done].
    apply elem_of_list_fmap. by exists (z, n).
  - intros [Hy ->]. destruct (list_to_map _ !! y) as [k|] eqn:E.
    + apply elem_of_list_to_map_2, elem_of_list_fmap in E as ([z n] & [= -> ->] & _). done.
    + exfalso. apply not_elem_of_list_to_map_2 in E. apply E. rewrite <- list_fmap_compose.
      apply elem_of_list_fmap in Hy as ([z n] & -> & Hin). apply elem_of_list_fmap. by exists (z, n).
Qed.
Lemma dense_below e0 e : (∀ y k, dense vars e0 !! y = Some k → k ≤ e y) ↔ below_on vars e0 e.
Proof.
  split.
  - intros H y Hy. apply (H y). by apply dense_lookup.
  - intros H y k [Hy ->]%dense_lookup. by apply H.
Qed.
Lemma dense_above e0 e : (∀ y k, dense vars e0 !! y = Some k → e y ≤ k) ↔ below_on vars e e0.
Proof.
  split.
  - intros H y Hy. apply (H y). by apply dense_lookup.
  - intros H y k [Hy ->]%dense_lookup. by apply H.
Qed.
Definition total (e : menv) : nat := sum_list_with e (vars.*1).
Lemma sum_le e e' (l : list string) : (∀ s, s ∈ l → e s ≤ e' s) → sum_list_with e l ≤ sum_list_with e' l.
Proof.
  induction l as [|y l IH]; [done|]. intros H. cbn [sum_list_with].
  pose proof (H y ltac:(left)). specialize (IH ltac:(intros s Hs; apply H; by right)). lia.
Qed.
Lemma total_lt e e' y : below_on vars e e' → y ∈ vars.*1 → e y < e' y → total e < total e'.
Proof.
  unfold total, below_on. generalize (vars.*1). intros l. induction l as [|z l IH]; [by intros _ ?%elem_of_nil|].
  intros H [->|Hy]%elem_of_cons Hlt; cbn [sum_list_with].
  - pose proof (sum_le e e' l ltac:(intros s Hs; apply H; by right)). lia.
  - pose proof (H z ltac:(left)). specialize (IH ltac:(intros s Hs; apply H; by right) Hy Hlt). lia.
Qed.

(** below every vector of an upward closed decidable set there is a minimal one *)
Lemma min_below P (Hdec : ∀ e, Decision (P e)) (HP : ∀ e e', states vars e → states vars e' → below_on vars e e' → P e → P e') e :
  states vars e → P e → ∃ e0, minimal vars P e0 ∧ below_on vars e0 e.
Proof.
  induction (well_founded_ltof _ total e) as [e _ IH]. intros Hs He.
  set (dec y := menv_set e y (pred (e y))).
  assert (Hb : ∀ y, below_on vars (dec y) e). { intros y s _. unfold dec, menv_set. case_decide; [subst; lia|done]. }
  assert (Hd : ∀ e1 e2, below_on vars e1 e2 → (∀ s n, (s, n) ∈ vars → e2 s < n) → states vars e1).
  { intros e1 e2 H1 H2 s n Hin. eapply Nat.le_lt_trans; [apply H1|by apply H2]. apply elem_of_list_fmap. by exists (s, n). }
  destruct (decide (Exists (λ y, 0 < e y ∧ P (dec y)) (vars.*1))) as [(y & Hy & Hpos & Hp)%Exists_exists|Hn].
  - destruct (IH (dec y)) as (e0 & Hm & H0); [|by eapply Hd|done|].
    + unfold ltof. eapply (total_lt _ _ y); [done|done|]. unfold dec, menv_set. rewrite decide_True by done. lia.
    + exists e0. split; [done|]. by eapply below_trans.
  - exists e. split; [|apply below_refl]. split; [done|]. split; [done|]. intros e' Hs' He' Hbe y Hy.
    pose proof (Hbe _ Hy). destruct (decide (e' y = e y)) as [|Hne]; [done|]. exfalso. apply Hn, Exists_exists. exists y.
    split; [done|]. split; [lia|]. apply (HP e'); [done|by eapply Hd| |done]. intros s Hsv. unfold dec, menv_set.
    case_decide; [subst; lia|by apply Hbe].
Qed.
(** above every vector of a downward closed decidable set there is a maximal one *)
Definition room (e : menv) : nat := sum_list_with (λ v : string * nat, v.2 - e v.1) vars.
Lemma room_lt e e' y : below_on vars e' e → states vars e → y ∈ vars.*1 → e' y < e y → room e < room e'.
Proof.
  unfold room, below_on, states. generalize vars. clear. intros l. induction l as [|[z n] l IH]; [by intros _ _ ?%elem_of_nil|].
  intros H Hs. rewrite fmap_cons. intros Hy Hlt. cbn [sum_list_with fst snd].
  pose proof (H z ltac:(left)) as Hz. pose proof (Hs z n ltac:(left)) as Hzn. apply elem_of_cons in Hy as [->|Hy]; cbn in *.
  - assert (sum_list_with (λ v : string * nat, v.2 - e v.1) l ≤ sum_list_with (λ v : string * nat, v.2 - e' v.1) l); [|lia].
    assert (H' : ∀ s, s ∈ l.*1 → e' s ≤ e s) by (intros s Hl; apply H; by right). clear -H'.
    induction l as [|[w k] l IH]; [done|]. cbn. rewrite fmap_cons in H'. cbn in H'.
    pose proof (H' w ltac:(left)). specialize (IH ltac:(intros s Hl; apply H'; by right)). lia.
  - specialize (IH ltac:(intros s Hl; apply H; by right) ltac:(intros s k Hl; apply Hs; by right) Hy Hlt). lia.
Qed.
Lemma max_above P (Hdec : ∀ e, Decision (P e)) (HP : ∀ e e', states vars e → states vars e' → below_on vars e e' → P e' → P e) e :
  states vars e → P e → ∃ e0, maximal vars P e0 ∧ below_on vars e e0.
Proof.
  induction (well_founded_ltof _ room e) as [e _ IH]. intros Hs He.
  set (inc y := menv_set e y (S (e y))).
  assert (Hb : ∀ y, below_on vars e (inc y)). { intros y s _. unfold inc, menv_set. case_decide; [subst; lia|done]. }
  assert (Hd : ∀ e1 e2, below_on vars e1 e2 → (∀ s n, (s, n) ∈ vars → e2 s < n) → states vars e1).
  { intros e1 e2 H1 H2 s n Hin. eapply Nat.le_lt_trans; [apply H1|by apply H2]. apply elem_of_list_fmap. by exists (s, n). }
  assert (Hdec' : ∀ y, Decision (states vars (inc y) ∧ P (inc y))).
  { intros y. apply and_dec; [|apply Hdec]. unfold states.
    destruct (decide (Forall (λ v, inc y v.1 < v.2) vars)) as [Hf|Hf]; [left|right].
    - intros s n Hin. rewrite Forall_forall in Hf. exact (Hf _ Hin).
    - intros Hc. apply Hf, Forall_forall. intros [s n] Hin. by apply Hc. }
  destruct (decide (Exists (λ y, states vars (inc y) ∧ P (inc y)) (vars.*1))) as [(y & Hy & Hst & Hp)%Exists_exists|Hn].
  - destruct (IH (inc y)) as (e0 & Hm & H0); [|done|done|].
    + unfold ltof. eapply (room_lt _ _ y); [done|done|done|]. unfold inc, menv_set. rewrite decide_True by done. lia.
    + exists e0. split; [done|]. by eapply below_trans.
  - exists e. split; [|apply below_refl]. split; [done|]. split; [done|]. intros e' Hs' He' Hbe y Hy.
    pose proof (Hbe _ Hy). destruct (decide (e' y = e y)) as [|Hne]; [done|]. exfalso. apply Hn, Exists_exists. exists y.
    split; [done|]. assert (below_on vars (inc y) e') as Hie.
    { intros s Hsv. unfold inc, menv_set. case_decide; [subst; lia|by apply Hbe]. }
    assert (states vars (inc y)) by (by eapply Hd). split; [done|]. by apply (HP _ e').
Qed.

Context (phi : menv → Z) (Hmono : monotone vars phi).
Lemma paths_mcover v e : states vars e →
  (v <= phi e)%Z ↔ ∃ e0, minimal vars (λ e, v <= phi e)%Z e0 ∧ below_on vars e0 e.
Proof using Hmono.
  intros Hs. split.
  - intros Hv. apply (min_below (λ e, v <= phi e)%Z _); [|done|done]. intros e1 e2 H1 H2 Hb He. etrans; [exact He|by apply Hmono].
  - intros (e0 & (H0 & Hv & _) & Hb). etrans; [exact Hv|by apply Hmono].
Qed.
Lemma cuts_mcover v e : states vars e →
  (phi e <= v)%Z ↔ ∃ e0, maximal vars (λ e, phi e <= v)%Z e0 ∧ below_on vars e e0.
Proof using Hmono.
  intros Hs. split.
  - intros Hv. apply (max_above (λ e, phi e <= v)%Z _); [|done|done]. intros e1 e2 H1 H2 Hb He. etrans; [by apply Hmono|exact He].
  - intros (e0 & (H0 & Hv & _) & Hb). etrans; [by apply Hmono|exact Hv].
Qed.
Lemma phi_same e e' : states vars e → states vars e' → same_on vars e e' → phi e = phi e'.
Proof using Hmono.
  intros Hs Hs' He. apply Z.le_antisymm; apply Hmono; try done; intros y Hy; by rewrite (He y Hy).
Qed.
(** the variables that matter are those above state 0 in some minimal vector *)
Lemma paths_mneeds y : y ∈ vars.*1 → phi_needs vars phi y ↔
  ∃ v e0, minimal vars (λ e, v <= phi e)%Z e0 ∧ 0 < e0 y.
Proof using Hmono.
  intros Hyv. split.
  - assert (Hw : ∀ e i j, states vars (menv_set e y i) → states vars (menv_set e y j) → (phi (menv_set e y i) < phi (menv_set e y j))%Z →
      ∃ v e0, minimal vars (λ e, v <= phi e)%Z e0 ∧ 0 < e0 y).
    { intros e i j Hi Hj Hlt. exists (phi (menv_set e y j)).
      destruct (proj1 (paths_mcover (phi (menv_set e y j)) (menv_set e y j) Hj) ltac:(lia)) as (e0 & Hm & Hb).
      exists e0. split; [done|]. destruct (decide (0 < e0 y)); [done|]. exfalso.
      assert (phi (menv_set e y j) <= phi (menv_set e y i))%Z; [|lia]. apply paths_mcover; [done|]. exists e0. split; [done|].
      intros s Hsv. specialize (Hb s Hsv). unfold menv_set in *. case_decide; [subst; lia|done]. }
    intros (e & i & j & Hi & Hj & Hne). destruct (Z.lt_trichotomy (phi (menv_set e y i)) (phi (menv_set e y j))) as [Hl|[He|Hl]]; [eauto|done|eauto].
  - intros (v & e0 & (Hs & Hv & Hm) & Hpos). exists e0, (e0 y), (pred (e0 y)).
    assert (Hsame : same_on vars (menv_set e0 y (e0 y)) e0) by (intros s _; unfold menv_set; case_decide; by subst).
    assert (Hbel : below_on vars (menv_set e0 y (pred (e0 y))) e0) by (intros s _; unfold menv_set; case_decide; subst; lia).
    assert (Hst : ∀ e', below_on vars e' e0 → states vars e').
    { intros e' Hb s n Hin. eapply Nat.le_lt_trans; [apply Hb|by apply Hs]. apply elem_of_list_fmap. by exists (s, n). }
    assert (states vars (menv_set e0 y (e0 y))) as S1. { apply Hst. intros s Hsv. by rewrite (Hsame s Hsv). }
    assert (states vars (menv_set e0 y (pred (e0 y)))) as S2 by (by apply Hst).
    split; [done|]. split; [done|]. rewrite (phi_same (menv_set e0 y (e0 y)) e0) by done. intros He.
    specialize (Hm (menv_set e0 y (pred (e0 y))) S2 ltac:(lia) Hbel y Hyv). unfold menv_set in Hm. rewrite decide_True in Hm by done. lia.
Qed.
(** and those below their last state in some maximal vector *)
Lemma cuts_mneeds y n : NoDup (vars.*1) → (y, n) ∈ vars → phi_needs vars phi y ↔
  ∃ v e0, maximal vars (λ e, phi e <= v)%Z e0 ∧ S (e0 y) < n.
Proof using Hmono.
  intros Hnd Hyn. assert (Hyv : y ∈ vars.*1) by (apply elem_of_list_fmap; by exists (y, n)). split.
  - assert (Hw : ∀ e i j, states vars (menv_set e y i) → states vars (menv_set e y j) → (phi (menv_set e y i) < phi (menv_set e y j))%Z →
      ∃ v e0, maximal vars (λ e, phi e <= v)%Z e0 ∧ S (e0 y) < n).
    { intros e i j Hi Hj Hlt. exists (phi (menv_set e y i)).
      destruct (proj1 (cuts_mcover (phi (menv_set e y i)) (menv_set e y i) Hi) ltac:(lia)) as (e0 & Hm & Hb).
      exists e0. split; [done|]. destruct (decide (S (e0 y) < n)); [done|]. exfalso.
      pose proof (Hj y n Hyn) as Hjn. unfold menv_set in Hjn. rewrite decide_True in Hjn by done.
      assert (phi (menv_set e y j) <= phi (menv_set e y i))%Z; [|lia]. apply cuts_mcover; [done|]. exists e0. split; [done|].
      intros s Hsv. specialize (Hb s Hsv). unfold menv_set in *. case_decide; [subst; lia|done]. }
    intros (e & i & j & Hi & Hj & Hne). destruct (Z.lt_trichotomy (phi (menv_set e y i)) (phi (menv_set e y j))) as [Hl|[He|Hl]]; [eauto|done|eauto].
  - intros (v & e0 & (Hs & Hv & Hm) & Hlt). exists e0, (e0 y), (S (e0 y)).
    assert (Hsame : same_on vars (menv_set e0 y (e0 y)) e0) by (intros s _; unfold menv_set; case_decide; by subst).
    assert (Hbel : below_on vars e0 (menv_set e0 y (S (e0 y)))) by (intros s _; unfold menv_set; case_decide; subst; lia).
    assert (states vars (menv_set e0 y (e0 y))) as S1.
    { intros s k Hin. rewrite (Hsame s); [by apply Hs|]. apply elem_of_list_fmap. by exists (s, k). }
    assert (states vars (menv_set e0 y (S (e0 y)))) as S2.
    { intros s k Hin. unfold menv_set. case_decide as E; [|by apply Hs]. subst s. enough (k = n) as -> by done.
      apply elem_of_list_lookup in Hin as [i1 H1], Hyn as [i2 H2]. assert (i1 = i2) as ->.
      { eapply (NoDup_lookup (vars.*1)); [done| |]; rewrite list_lookup_fmap; [by rewrite H1|by rewrite H2]. }
      congruence. }
    split; [done|]. split; [done|]. rewrite (phi_same (menv_set e0 y (e0 y)) e0) by done. intros He.
    specialize (Hm (menv_set e0 y (S (e0 y))) S2 ltac:(lia) Hbel y Hyv). unfold menv_set in Hm. rewrite decide_True in Hm by done. lia.
Qed.
End vars.
Lemma monotone_stable vars phi : ¬ ¬ monotone vars phi → monotone vars phi.
Proof.
  intros Hn e e' He He' Hb. destruct (decide (phi e <= phi e')%Z) as [|Hc]; [done|]. exfalso. apply Hn. intros Hm. by apply Hc, Hm.
Qed.

Section api.
Context (I : vint) (s : mss) (H : handles) (Q : families) (x : mnode) (F : mfn) (vars : list (string * nat)) (phi : menv → Z).
Context (Hh : mss_held I s H Q) (Hx : (x, Some F) ∈ H) (Hv : g_varorder (s_m s) = Some vars) (Hphi : is_phi vars F phi).
Lemma sol_monotone rv s' p : s_sol I rv s x = Some (s', Some p) → monotone vars phi.
Proof using Hh Hx Hv Hphi.
  intros E. destruct (sol_extract I rv s H Q x F vars phi Hh Hx Hv Hphi) as (s1 & r & E1 & Hr & _).
  rewrite E in E1. apply (inj Some) in E1. apply pair_equal_spec in E1 as [<- <-].
  apply monotone_stable. intros Hn. by apply Hr in Hn.
Qed.
Lemma api_paths s' p v : s_minpath I s x = Some (s', Some p) →
  ∃ L k, (∀ fuel, k ≤ fuel → zm_extract_level fuel (q_z (s_z s')) v p = Some L) ∧
    ∀ e, states vars e → (v <= phi e)%Z ↔ ∃ M, M ∈ L ∧ ∀ y i, M !! y = Some i → i ≤ e y.
Proof using Hh Hx Hv Hphi.
  intros E. pose proof (sol_monotone false s' p E) as Hm.
  destruct (sol_level I false s H Q x F vars phi s' p v Hh Hx Hv Hphi E) as (L & k & _ & HL & Hex). exists L, k. split; [done|].
  intros e Hs. rewrite (paths_mcover vars phi Hm v e Hs). split.
  - intros (e0 & H0 & Hb). exists (dense vars e0). split; [apply HL; by exists e0|]. by apply dense_below.
  - intros (M & (e0 & H0 & ->)%HL & Hb). exists e0. split; [done|]. by apply dense_below.
Qed.
Lemma api_cuts s' p v : s_mincut I s x = Some (s', Some p) →
  ∃ L k, (∀ fuel, k ≤ fuel → zm_extract_level fuel (q_z (s_z s')) v p = Some L) ∧
    ∀ e, states vars e → (phi e <= v)%Z ↔ ∃ M, M ∈ L ∧ ∀ y i, M !! y = Some i → e y ≤ i.
Proof using Hh Hx Hv Hphi.
  intros E. pose proof (sol_monotone true s' p E) as Hm.
  destruct (sol_level I true s H Q x F vars phi s' p v Hh Hx Hv Hphi E) as (L & k & _ & HL & Hex). exists L, k. split; [done|].
  intros e Hs. rewrite (cuts_mcover vars phi Hm v e Hs). split.
  - intros (e0 & H0 & Hb). exists (dense vars e0). split; [apply HL; by exists e0|]. by apply dense_above.
  - intros (M & (e0 & H0 & ->)%HL & Hb). exists e0. split; [done|]. by apply dense_above.
Qed.
Lemma api_paths_needs s' p y n : s_minpath I s x = Some (s', Some p) → (y, n) ∈ vars →
  phi_needs vars phi y ↔ ∃ v L k M i, (∀ fuel, k ≤ fuel → zm_extract_level fuel (q_z (s_z s')) v p = Some L) ∧
    M ∈ L ∧ M !! y = Some i ∧ 0 < i.
Proof using Hh Hx Hv Hphi.
  intros E Hyn. pose proof (sol_monotone false s' p E) as Hm. assert (Hy : y ∈ vars.*1) by (apply elem_of_list_fmap; by exists (y, n)).
  rewrite (paths_mneeds vars phi Hm y Hy). split.
  - intros (v & e0 & H0 & Hpos). destruct (sol_level I false s H Q x F vars phi s' p v Hh Hx Hv Hphi E) as (L & k & _ & HL & Hex).
    exists v, L, k, (dense vars e0), (e0 y). sp; [done|apply HL; by exists e0|by apply dense_lookup|done].
  - intros (v & L & k & M & i & Hex & HM & Hi & Hpos).
    destruct (sol_level I false s H Q x F vars phi s' p v Hh Hx Hv Hphi E) as (L' & k' & _ & HL & Hex').
    pose proof (Hex (k `max` k') ltac:(lia)) as Ea. rewrite (Hex' (k `max` k')) in Ea by lia. injection Ea as ->.
    apply HL in HM as (e0 & H0 & ->). apply dense_lookup in Hi as [_ ->]. by exists v, e0.
Qed.
Lemma api_cuts_needs s' p y n : s_mincut I s x = Some (s', Some p) → (y, n) ∈ vars →
  phi_needs vars phi y ↔ ∃ v L k M i, (∀ fuel, k ≤ fuel → zm_extract_level fuel (q_z (s_z s')) v p = Some L) ∧
    M ∈ L ∧ M !! y = Some i ∧ S i < n.
Proof using Hh Hx Hv Hphi.
  intros E Hyn. pose proof (sol_monotone true s' p E) as Hm. assert (Hy : y ∈ vars.*1) by (apply elem_of_list_fmap; by exists (y, n)).
  assert (Hnd : NoDup vars.*1).
  { destruct (mss_held_ok I _ _ _ Hh) as [Hk _]. destruct (varorder_some I (s_m s) H vars Hk Hv) as [-> _].
    unfold vorder. rewrite <- list_fmap_compose. apply (gk_nodup _ _ _ Hk). }
  rewrite (cuts_mneeds vars phi Hm y n Hnd Hyn). split.
  - intros (v & e0 & H0 & Hpos). destruct (sol_level I true s H Q x F vars phi s' p v Hh Hx Hv Hphi E) as (L & k & _ & HL & Hex).
    exists v, L, k, (dense vars e0), (e0 y). sp; [done|apply HL; by exists e0|by apply dense_lookup|done].
  - intros (v & L & k & M & i & Hex & HM & Hi & Hpos).
    destruct (sol_level I true s H Q x F vars phi s' p v Hh Hx Hv Hphi E) as (L' & k' & _ & HL & Hex').
    pose proof (Hex (k `max` k') ltac:(lia)) as Ea. rewrite (Hex' (k `max` k')) in Ea by lia. injection Ea as ->.
    apply HL in HM as (e0 & H0 & ->). apply dense_lookup in Hi as [_ ->]. by exists v, e0.
Qed.
End api.
