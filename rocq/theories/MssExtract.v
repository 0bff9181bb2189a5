(** Extraction from families of extremal vectors. *)
From stdpp Require Import strings.
From Verif Require Import Prelude ComputeCache Arena Bdd Mdd MtMdd MtMdd2 Zmdd ZmddAlg BssMgr MssMgr
  SpecMdd SpecZmdd SpecZmddAlg SpecMss NaryProofs MddMain ZmddMain ZmddAlgProofs MssSolMain MssMgrProofs MssMgrVar MssFam.

(** headers that describe a list of variables *)
Definition hs_of (vars : list (string * nat)) : list header := imap (λ i v, Header i i v.1 v.2) vars.
Lemma hs_of_vord vars : vord (hs_of vars) = vars.
Proof.
  apply list_eq. intros i. unfold hs_of. rewrite list_lookup_fmap, list_lookup_imap. by destruct (vars !! i) as [[]|].
Qed.
Lemma hs_of_level vars i hd : hs_of vars !! i = Some hd → h_level hd = i.
Proof. unfold hs_of. rewrite list_lookup_imap. destruct (vars !! i); [|done]. by intros [= <-]. Qed.

Section extract.
Context (vars : list (string * nat)) (Hok : vars_ok vars) (rv : bool).
Notation off := (offset rv vars).
Lemma voff_le e e' : states vars e → states vars e' →
  (∀ l, off e l ≤ off e' l) ↔ if rv then below_on vars e' e else below_on vars e e'.
Proof. pose proof (off_le (hs_of vars) rv e e') as H. by rewrite hs_of_vord in H. Qed.
Lemma voff_eq e e' : states vars e → states vars e' → (∀ l, off e l = off e' l) ↔ same_on vars e e'.
Proof. pose proof (off_eq (hs_of vars) rv e e') as H. by rewrite hs_of_vord in H. Qed.
Lemma voff_out e l : length vars ≤ l → off e l = 0.
Proof. intros H. pose proof (off_out (hs_of vars) rv e l) as Ho. rewrite hs_of_vord in Ho. apply Ho. unfold hs_of. by rewrite imap_length. Qed.

Definition olist (e : menv) : list nat := off e <$> seq 0 (length vars).
Lemma olist_length e : length (olist e) = length vars.
Proof. unfold olist. by rewrite fmap_length, seq_length. Qed.
Lemma olist_vec e l : vec (olist e) l = off e l.
Proof.
  unfold vec, olist. rewrite list_lookup_fmap. destruct (decide (l < length vars)) as [Hl|Hl].
  - by rewrite lookup_seq_lt.
  - rewrite lookup_seq_ge by lia. cbn. by rewrite voff_out by lia.
Qed.
Lemma vec_olist y e : length y = length vars → (∀ l, vec y l = off e l) → y = olist e.
Proof.
  intros Hl H. apply list_eq_same_length with (n := length vars); [by rewrite olist_length|done|].
  intros i a b Hi Ha Hb. specialize (H i). rewrite <- olist_vec in H. unfold vec in H. by rewrite Ha, Hb in H.
Qed.
Lemma olist_report e : states vars e → report rv vars (olist e) = dense vars e.
Proof.
  intros He. unfold report, dense. f_equal. apply list_eq. intros i.
  rewrite lookup_zip_with, list_lookup_fmap. unfold olist. rewrite list_lookup_fmap.
  destruct (vars !! i) as [[s n]|] eqn:Hi; [|done]. rewrite lookup_seq_lt by (by eapply lookup_lt_Some). cbn.
  unfold offset. rewrite Hi. specialize (He s n (elem_of_list_lookup_2 _ _ _ Hi)). destruct rv; [|done]. do 2 f_equal. lia.
Qed.
Lemma olist_le e e' : Forall2 le (olist e') (olist e) ↔ ∀ l, off e' l ≤ off e l.
Proof.
  split.
  - intros H l. destruct (decide (l < length vars)) as [Hl|Hl]; [|rewrite !voff_out by lia; done].
    pose proof (olist_vec e l) as H1. pose proof (olist_vec e' l) as H2. unfold vec in H1, H2.
    destruct (lookup_lt_is_Some_2 (olist e') l) as [a Ha]; [by rewrite olist_length|].
    destruct (list.Forall2_lookup_l _ _ _ _ _ H Ha) as (b & Hb & Hab). rewrite Ha in H2. rewrite Hb in H1. cbn in H1, H2. lia.
  - intros H. unfold olist. apply Forall2_fmap, Forall_Forall2_diag, Forall_forall. intros l _. apply H.
Qed.

Notation ext_vec P e := ((if rv then maximal else minimal) vars P e).
(** the extremal vectors in terms of offsets *)
Lemma ext_iff (P : menv → Prop) e : ext_vec P e ↔
  states vars e ∧ P e ∧ ∀ e', states vars e' → P e' → (∀ l, off e' l ≤ off e l) → ∀ l, off e' l = off e l.
Proof.
  split.
  - intros H. assert (H0 : states vars e ∧ P e) by (destruct rv; split; apply H). destruct H0 as [He Hz]. sp; try done.
    intros e' He' Hz' Hle. apply voff_eq; try done. apply voff_le in Hle; try done. destruct rv; by apply H.
  - intros (He & Hz & H). assert (H' : ∀ e', states vars e' → P e' →
         (if rv then below_on vars e e' else below_on vars e' e) → same_on vars e' e).
    { intros e' He' Hz' Hb. apply voff_eq; try done. apply H; try done. by apply voff_le. }
    clear H. destruct rv; sp; done.
Qed.

Lemma sum_list_le y' y : Forall2 le y' y → sum_list y' ≤ sum_list y.
Proof. induction 1; cbn; lia. Qed.
Lemma sum_list_lt y' y : Forall2 le y' y → y' ≠ y → sum_list y' < sum_list y.
Proof.
  induction 1 as [|a b l k Hab Hf IH]; intros Hne; [done|]. cbn. pose proof (sum_list_le _ _ Hf).
  destruct (decide (a = b)) as [->|]; [|lia]. assert (l ≠ k) by congruence. specialize (IH H0). lia.
Qed.
(** below every vector of a set there is an extremal one *)
Lemma descend (P : menv → Prop) n : ∀ e, sum_list (olist e) < n → states vars e → P e →
  ¬ ¬ ∃ e', ext_vec P e' ∧ ∀ l, off e' l ≤ off e l.
Proof.
  induction n as [|n IH]; intros e Hn He HP Hno; [lia|]. apply Hno. exists e. split; [|done].
  apply ext_iff. sp; try done. intros e' He' HP' Hle. destruct (decide (olist e' = olist e)) as [Heq|Hne].
  - intros l. by rewrite <- !olist_vec, Heq.
  - exfalso. apply (IH e'); [|done|done|].
    + pose proof (sum_list_lt _ _ (proj2 (olist_le e e') Hle) Hne). lia.
    + intros (e'' & Hm & Hle'). apply Hno. exists e''. split; [done|]. intros l. specialize (Hle l). specialize (Hle' l). lia.
Qed.

Context (m : mt) (f : nat) (Hre : zm_reachable m) (Vf : node_valid (t_ar m) f) (Hcov : vars_cover (t_ar m) vars f)
  (phi : menv → Z) (Hden : ∀ x z, zmember (t_ar m) f x z ↔ extremal rv vars phi x z).

Lemma mem_olist y z : length y = length vars → zmember (t_ar m) f (vec y) z ↔ ∃ e, y = olist e ∧ ext_vec (λ e, phi e = z) e.
Proof.
  intros Hl. rewrite Hden. unfold extremal. split; intros (e & H1 & H2); exists e.
  - split; [|done]. by apply vec_olist.
  - subst y. split; [done|]. apply olist_vec.
Qed.
Lemma reports_elem Ls (P : menv → Prop) : (∀ y, y ∈ Ls ↔ ∃ e, y = olist e ∧ P e) → (∀ e, P e → states vars e) →
  ∀ M, M ∈ map (report rv vars) Ls ↔ ∃ e, P e ∧ M = dense vars e.
Proof.
  intros H Hs M. change (map ?g ?l) with (g <$> l). rewrite elem_of_list_fmap. split.
  - intros (y & -> & (e & -> & He)%H). exists e. split; [done|]. by apply olist_report, Hs.
  - intros (e & He & ->). exists (olist e). split; [symmetry; by apply olist_report, Hs|]. apply H. eauto.
Qed.

Lemma fam_extract (ss : list Z) : ∃ L k0, NoDup L ∧
  (∀ M, M ∈ L ↔ ∃ e, (∃ v, v ∈ ss ∧ ext_vec (λ e, phi e = v) e) ∧ M = dense vars e) ∧
  (∀ fuel, k0 ≤ fuel → zm_extract fuel m ss (ZMNode f rv vars) = Some L) ∧ zm_count m ss f = Some (N.of_nat (length L)).
Proof.
  destruct (zm_extract_l m ss f rv vars Hre Vf Hok Hcov) as (Ls & k0 & _ & Hnd & _ & Hin & Hex & Hct).
  exists (map (report rv vars) Ls), k0. rewrite map_length. sp; try done.
  apply reports_elem.
  - intros y. rewrite Hin. split.
    + intros (Hl & z & Hz & (e & -> & He)%mem_olist); [|done]. eauto.
    + intros (e & -> & z & Hz & He). split; [apply olist_length|]. exists z. split; [done|]. apply mem_olist; [apply olist_length|]. eauto.
  - intros e (v & _ & He). by apply ext_iff in He as [? _].
Qed.

Lemma fam_level v : ∃ L k0, NoDup L ∧
  (∀ M, M ∈ L ↔ ∃ e, ext_vec (λ e, on_side rv v (phi e)) e ∧ M = dense vars e) ∧
  (∀ fuel, k0 ≤ fuel → zm_extract_level fuel m v (ZMNode f rv vars) = Some L).
Proof.
  destruct (zm_extract_level_l m v f rv vars Hre Vf Hok Hcov) as (Ls & k0 & _ & Hnd & Hin & Hex).
  exists (map (report rv vars) Ls), k0. sp; try done.
  apply reports_elem.
  - intros y. rewrite Hin. split.
    + intros (Hl & (z & Hz & (e & -> & He)%mem_olist) & Hmin); [|done]. exists e. split; [done|].
      apply ext_iff in He as (He & Hpz & _). apply ext_iff. sp; [done|by rewrite Hpz|].
      intros e' He' Hs Hle l. destruct (decide (off e' l = off e l)) as [|Hne]; [done|]. exfalso.
      apply (descend (λ x, phi x = phi e') (S (sum_list (olist e'))) e'); [lia|done|done|].
      intros (e'' & He'' & Hle''). assert (Hy : olist e'' = olist e).
      { apply (Hmin _ (phi e')); [apply olist_length|done| |].
        - apply mem_olist; [apply olist_length|]. eauto.
        - apply olist_le. intros k. specialize (Hle k). specialize (Hle'' k). lia. }
      apply Hne. pose proof (olist_vec e'' l) as H1. rewrite Hy, olist_vec in H1. specialize (Hle l). specialize (Hle'' l). lia.
    + intros (e & -> & (He & Hs & Hmin)%ext_iff). split; [apply olist_length|].
      assert (Hsub : ∀ e' z, ext_vec (λ e, phi e = z) e' → states vars e' ∧ phi e' = z).
      { intros e' z Hx. by apply ext_iff in Hx as (? & ? & _). }
      split.
      * exists (phi e). split; [done|]. apply mem_olist; [apply olist_length|]. exists e. split; [done|].
        apply ext_iff. sp; try done. intros e' He' Hp Hle. apply Hmin; [done| |done]. by rewrite Hp.
      * intros y' z' Hl' Hs' (e' & -> & He')%mem_olist Hle; [|done]. destruct (Hsub _ _ He') as [Hst Hp].
        apply vec_olist; [apply olist_length|]. intros l. rewrite olist_vec. apply Hmin; [done|by rewrite Hp|]. by apply olist_le.
  - intros e He. by apply ext_iff in He as [? _].
Qed.
End extract.

(** ** at the managers *)
Section mss.
Context (I : vint).
Lemma held_fam s H Q p R : mss_held I s H Q → (p, R) ∈ Q →
  zm_reachable (q_z (s_z s)) ∧ node_valid (t_ar (q_z (s_z s))) (zn_id p) ∧ vars_ok (zn_vars p) ∧
  vars_cover (t_ar (q_z (s_z s))) (zn_vars p) (zn_id p) ∧
  ∀ R', R = Some R' → ∀ x z, zmember (t_ar (q_z (s_z s))) (zn_id p) x z ↔ R' x z.
Proof.
  intros [Hk Hq]%mss_held_ok Hp. pose proof (qk_fam _ _ _ Hq _ _ Hp) as Hf. sp.
  - apply Hq.
  - apply Hf.
  - eapply famok_vars; [apply (gok_hc I _ _ Hk)|apply (gk_nodup _ _ _ Hk)|done].
  - eapply famok_cover; [apply (gk_lvl _ _ _ Hk)|apply Hq|apply Hq|done].
  - apply Hf.
Qed.

Lemma held_extract s H Q p phi ss : mss_held I s H Q → (p, Some (extremal (zn_rev p) (zn_vars p) phi)) ∈ Q →
  ∃ L k0, NoDup L ∧
    (∀ M, M ∈ L ↔ ∃ e, (∃ v, v ∈ ss ∧ (if zn_rev p then maximal else minimal) (zn_vars p) (λ e, phi e = v) e) ∧ M = dense (zn_vars p) e) ∧
    (∀ fuel, k0 ≤ fuel → zm_extract fuel (q_z (s_z s)) ss p = Some L) ∧
    zm_count (q_z (s_z s)) ss (zn_id p) = Some (N.of_nat (length L)).
Proof.
  intros Hh Hp. destruct (held_fam s H Q p _ Hh Hp) as (Hre & Hv & Hok & Hcov & Hden). specialize (Hden _ eq_refl).
  destruct p as [f rv vars]. cbn [zn_id zn_rev zn_vars] in *.
  exact (fam_extract vars Hok rv _ f Hre Hv Hcov phi Hden ss).
Qed.
Lemma held_level s H Q p phi v : mss_held I s H Q → (p, Some (extremal (zn_rev p) (zn_vars p) phi)) ∈ Q →
  ∃ L k0, NoDup L ∧
    (∀ M, M ∈ L ↔ ∃ e, (if zn_rev p then maximal else minimal) (zn_vars p) (λ e, on_side (zn_rev p) v (phi e)) e ∧ M = dense (zn_vars p) e) ∧
    (∀ fuel, k0 ≤ fuel → zm_extract_level fuel (q_z (s_z s)) v p = Some L).
Proof.
  intros Hh Hp. destruct (held_fam s H Q p _ Hh Hp) as (Hre & Hv & Hok & Hcov & Hden). specialize (Hden _ eq_refl).
  destruct p as [f rv vars]. cbn [zn_id zn_rev zn_vars] in *.
  exact (fam_level vars Hok rv _ f Hre Hv Hcov phi Hden v).
Qed.

(** the calls themselves *)
Lemma held_sol rv s H Q x F vars phi : mss_held I s H Q → (x, Some F) ∈ H → g_varorder (s_m s) = Some vars → is_phi vars F phi →
  ∃ s' r, s_sol I rv s x = Some (s', r) ∧ (r = None ↔ ¬ monotone vars phi) ∧
    match r with
    | None => mss_held I s' H Q
    | Some p => zn_rev p = rv ∧ zn_vars p = vars ∧ mss_held I s' H ((p, Some (extremal rv vars phi)) :: Q)
    end.
Proof.
  intros Hh Hx Hv Hphi. destruct (mss_held_ok I _ _ _ Hh) as [Hk Hq]. destruct s as [w q].
  pose proof (s_sol_ok I rv w q H Q x F Hk Hq Hx) as Hs. cbn [s_m] in Hv. rewrite Hv in Hs.
  destruct Hs as (w' & q' & r & Heq & _ & _ & _ & Hr). exists (Mss w' q'), r. sp; [done| |].
  - destruct r as [p|]; [|split; [intros _; by apply Hr|done]]. split; [done|]. intros Hn. destruct Hr as (_ & _ & Hm & _). by destruct (Hn (Hm _ Hphi)).
  - destruct r as [p|].
    + destruct Hr as (? & ? & _). sp; try done. eapply (ms_sol I rv); [done|done|done|]. intros R' [= <-]. by exists vars, phi.
    + by eapply (ms_none I rv).
Qed.

(** a held family at any later time, by the vectors it records *)
Lemma held_members s H Q p R ss : mss_held I s H Q → (p, Some R) ∈ Q →
  ∃ L k0, NoDup L ∧
    (∀ M, M ∈ L ↔ ∃ y v, length y = length (zn_vars p) ∧ v ∈ ss ∧ R (vec y) v ∧ M = report (zn_rev p) (zn_vars p) y) ∧
    (∀ fuel, k0 ≤ fuel → zm_extract fuel (q_z (s_z s)) ss p = Some L) ∧
    zm_count (q_z (s_z s)) ss (zn_id p) = Some (N.of_nat (length L)).
Proof.
  intros Hh Hp. destruct (held_fam s H Q p _ Hh Hp) as (Hre & Hv & Hok & Hcov & Hden). specialize (Hden _ eq_refl).
  destruct p as [f rv vars]. cbn [zn_id zn_rev zn_vars] in *.
  destruct (zm_extract_l _ ss f rv vars Hre Hv Hok Hcov) as (Ls & k0 & _ & Hnd & _ & Hin & Hex & Hct).
  exists (map (report rv vars) Ls), k0. rewrite map_length. sp; try done.
  intros M. change (map ?g ?l) with (g <$> l). rewrite elem_of_list_fmap. split.
  - intros (y & -> & (Hl & z & Hz & Hm)%Hin). exists y, z. sp; try done. by apply Hden.
  - intros (y & z & Hl & Hz & HR & ->). exists y. split; [done|]. apply Hin. split; [done|]. exists z. split; [done|]. by apply Hden.
Qed.

(** combinations of two families over the same variables in the same direction *)
Lemma dense_inj vars e e' : vars_ok vars → dense vars e = dense vars e' → same_on vars e e'.
Proof.
  intros [Hnd _] He x Hx. assert (Hl : ∀ d, dense vars d !! x = Some (d x)).
  { intros d. unfold dense. apply elem_of_list_to_map.
    - by rewrite <- list_fmap_compose.
    - apply elem_of_list_fmap in Hx as ([? n] & -> & Hx). apply elem_of_list_fmap. by eexists (_, n). }
  pose proof (Hl e) as H1. rewrite He, Hl in H1. by injection H1.
Qed.
Lemma lists_iff rv vars phi v y : vars_ok vars → length y = length vars →
  extremal rv vars phi (vec y) v → lists rv vars phi v (report rv vars y).
Proof.
  intros Hok Hl (e & He & Hx). exists e. split; [done|]. rewrite (vec_olist vars rv y e Hl Hx). apply olist_report.
  by apply ext_iff in He as [? _].
Qed.
Lemma lists_vec rv vars phi v M y : vars_ok vars → length y = length vars → lists rv vars phi v M → M = report rv vars y →
  (∃ e, states vars e ∧ y = olist vars rv e) → extremal rv vars phi (vec y) v.
Proof.
  intros Hok Hl (e & He & ->) HM (e' & He' & ->). rewrite olist_report in HM by done. apply dense_inj in HM; [|done].
  exists e. split; [done|]. intros l. rewrite olist_vec. symmetry. revert l. apply voff_eq; try done. by apply ext_iff in He as [? _].
Qed.
Lemma held_comb s H Q p phi psi (diff : bool) ss : mss_held I s H Q →
  (p, Some (λ x z, extremal (zn_rev p) (zn_vars p) phi x z ∧
       if diff then ¬ extremal (zn_rev p) (zn_vars p) psi x z else extremal (zn_rev p) (zn_vars p) psi x z)) ∈ Q →
  ∃ L k0, NoDup L ∧
    (∀ M, M ∈ L ↔ ∃ v, v ∈ ss ∧ lists (zn_rev p) (zn_vars p) phi v M ∧
       if diff then ¬ lists (zn_rev p) (zn_vars p) psi v M else lists (zn_rev p) (zn_vars p) psi v M) ∧
    (∀ fuel, k0 ≤ fuel → zm_extract fuel (q_z (s_z s)) ss p = Some L) ∧
    zm_count (q_z (s_z s)) ss (zn_id p) = Some (N.of_nat (length L)).
Proof.
  intros Hh Hp. destruct (held_fam s H Q p _ Hh Hp) as (_ & _ & Hok & _ & _).
  destruct (held_members s H Q p _ ss Hh Hp) as (L & k0 & Hnd & Hin & Hex). exists L, k0. sp; try apply Hex; [done|].
  intros M. rewrite Hin. clear Hin Hex. split.
  - intros (y & v & Hl & Hv & [H1 H2] & ->). exists v. sp; [done|by apply lists_iff|].
    destruct diff; [|by apply lists_iff]. intros Hc. apply H2. eapply lists_vec; [done|done|exact Hc|done|].
    destruct H1 as (e & He & Hx). exists e. split; [by apply ext_iff in He as [? _]|]. by apply vec_olist.
  - intros (v & Hv & H1 & H2). pose proof H1 as (e & He & HM). assert (Hst : states (zn_vars p) e) by by apply ext_iff in He as [? _].
    exists (olist (zn_vars p) (zn_rev p) e), v. assert (M = report (zn_rev p) (zn_vars p) (olist (zn_vars p) (zn_rev p) e)) as HM'
      by by rewrite olist_report. sp; [apply olist_length|done| |destruct diff|done].
    + eapply lists_vec; [done|apply olist_length|exact H1|done|by exists e].
    + intros Hc. apply H2. rewrite HM'. apply lists_iff; [done|apply olist_length|done].
    + eapply lists_vec; [done|apply olist_length|exact H2|done|by exists e].
Qed.
Lemma held_bin s H Q p q phi psi (diff : bool) ss : mss_held I s H Q →
  zn_rev q = zn_rev p → zn_vars q = zn_vars p →
  (p, Some (extremal (zn_rev p) (zn_vars p) phi)) ∈ Q → (q, Some (extremal (zn_rev q) (zn_vars q) psi)) ∈ Q →
  ∃ z' r, (if diff then q_setdiff else q_intersect) (s_z s) p q = Some (z', r) ∧
    ∃ L k0, NoDup L ∧
    (∀ M, M ∈ L ↔ ∃ v, v ∈ ss ∧ lists (zn_rev p) (zn_vars p) phi v M ∧
       if diff then ¬ lists (zn_rev p) (zn_vars p) psi v M else lists (zn_rev p) (zn_vars p) psi v M) ∧
    (∀ fuel, k0 ≤ fuel → zm_extract fuel (q_z z') ss r = Some L) ∧
    zm_count (q_z z') ss (zn_id r) = Some (N.of_nat (length L)).
Proof.
  intros Hh Hr Hv Hp Hq. destruct (mss_held_ok I _ _ _ Hh) as [_ Hk]. destruct s as [w z]. cbn [s_m s_z] in *.
  destruct (qok_bin _ _ _ diff _ _ _ _ Hk Hp Hq) as (z' & r & He & Hrr & Hrv & _). exists z', r. split; [done|].
  rewrite Hr, Hv in Hq. rewrite <- Hrr, <- Hrv.
  assert (mss_held I (Mss w z') H ((r, Some (λ x z, extremal (zn_rev r) (zn_vars r) phi x z ∧
       if diff then ¬ extremal (zn_rev r) (zn_vars r) psi x z else extremal (zn_rev r) (zn_vars r) psi x z)) :: Q)) as Hh'.
  { rewrite Hrr, Hrv. destruct diff.
    - exact (ms_setdiff I w z H Q _ _ _ _ _ _ Hh Hp Hq He).
    - exact (ms_intersect I w z H Q _ _ _ _ _ _ Hh Hp Hq He). }
  apply (held_comb _ _ _ _ phi psi diff ss Hh'). by left.
Qed.

(** the statements of the property files *)
Lemma sol_extract rv s H Q x F vars phi :
  mss_held I s H Q → (x, Some F) ∈ H → g_varorder (s_m s) = Some vars → is_phi vars F phi →
  ∃ s' r, s_sol I rv s x = Some (s', r) ∧ (r = None ↔ ¬ monotone vars phi) ∧
    ∀ p, r = Some p →
      mss_held I s' H ((p, Some (extremal rv vars phi)) :: Q) ∧
      ∀ ss, ∃ L k, NoDup L ∧
        (∀ M, M ∈ L ↔ ∃ e, (∃ v, v ∈ ss ∧ (if rv then maximal else minimal) vars (λ e, phi e = v) e) ∧ M = dense vars e) ∧
        (∀ fuel, k ≤ fuel → zm_extract fuel (q_z (s_z s')) ss p = Some L) ∧
        zm_count (q_z (s_z s')) ss (zn_id p) = Some (N.of_nat (length L)).
Proof.
  intros Hh Hx Hv Hphi. destruct (held_sol rv s H Q x F vars phi Hh Hx Hv Hphi) as (s' & r & He & Hn & Hr).
  exists s', r. sp; try done. intros p ->. destruct Hr as (<- & <- & Hh'). split; [done|]. intros ss.
  apply (held_extract s' H _ p phi ss Hh'). by left.
Qed.
Lemma sol_level rv s H Q x F vars phi s' p v :
  mss_held I s H Q → (x, Some F) ∈ H → g_varorder (s_m s) = Some vars → is_phi vars F phi →
  s_sol I rv s x = Some (s', Some p) →
  ∃ L k, NoDup L ∧
    (∀ M, M ∈ L ↔ ∃ e, (if rv then maximal else minimal) vars (λ e, if rv then phi e <= v else v <= phi e)%Z e ∧ M = dense vars e) ∧
    ∀ fuel, k ≤ fuel → zm_extract_level fuel (q_z (s_z s')) v p = Some L.
Proof.
  intros Hh Hx Hv Hphi He. destruct (held_sol rv s H Q x F vars phi Hh Hx Hv Hphi) as (s1 & r & He' & _ & Hr).
  rewrite He in He'. apply (inj Some) in He'. apply pair_equal_spec in He' as [<- <-]. destruct Hr as (<- & <- & Hh').
  destruct (held_level s' H _ p phi v Hh') as (L & k & Hnd & Hin & Hex); [by left|]. exists L, k. sp; try done.
Qed.
Lemma mss_value s H Q x F : mss_held I s H Q → (x, Some F) ∈ H →
  mm_valid (g_mm (s_m s)) x ∧ ∀ e, mrange (g_mm (s_m s)) e → mvalue (g_mm (s_m s)) e x (F e).
Proof. intros [Hk _]%mss_held_ok Hx. destruct (gk_held _ _ _ Hk _ _ Hx) as [? Hd]. split; [done|]. by apply Hd. Qed.
Lemma held_lists s H Q p phi ss : mss_held I s H Q → (p, Some (extremal (zn_rev p) (zn_vars p) phi)) ∈ Q →
  ∃ L k, NoDup L ∧ (∀ M, M ∈ L ↔ ∃ v, v ∈ ss ∧ lists (zn_rev p) (zn_vars p) phi v M) ∧
    (∀ fuel, k ≤ fuel → zm_extract fuel (q_z (s_z s)) ss p = Some L) ∧
    zm_count (q_z (s_z s)) ss (zn_id p) = Some (N.of_nat (length L)).
Proof.
  intros Hh Hp. destruct (held_extract s H Q p phi ss Hh Hp) as (L & k & Hnd & Hin & Hex). exists L, k. sp; try apply Hex; [done|].
  intros M. rewrite Hin. unfold lists. naive_solver.
Qed.
Lemma held_levels s H Q p phi v : mss_held I s H Q → (p, Some (extremal (zn_rev p) (zn_vars p) phi)) ∈ Q →
  ∃ L k, NoDup L ∧
    (∀ M, M ∈ L ↔ ∃ e, M = dense (zn_vars p) e ∧
       if zn_rev p then maximal (zn_vars p) (λ e, phi e <= v)%Z e else minimal (zn_vars p) (λ e, v <= phi e)%Z e) ∧
    ∀ fuel, k ≤ fuel → zm_extract_level fuel (q_z (s_z s)) v p = Some L.
Proof.
  intros Hh Hp. destruct (held_level s H Q p phi v Hh Hp) as (L & k & Hnd & Hin & Hex). exists L, k. sp; try done.
  intros M. rewrite Hin. destruct (zn_rev p); split; intros (e & ? & ?); by exists e.
Qed.
End mss.
