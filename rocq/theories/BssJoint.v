(** The joint manager's invariant: minimal paths and cuts by name. *)
From stdpp Require Import strings.
From Verif Require Import Prelude ComputeCache ComputeCacheProofs Arena Trees ArenaProofs ArenaMore Bdd BddProofs SpecBdd SpecBss BddMain
  BssAlg BssGates BssReach BssMgr SpecBssMgr BssMgrProofs BssMgrMain
  Zdd ZddTrees ZddProofs SpecZdd ZddMain ZddAlg MinsolTrees MinsolProofs ZddConv SpecMinsol MinsolMain ZddMgr SpecZddMgr ZddMgrProofs.

Notation bhd m := (ar_headers (b_ar m)).

(** minimal solutions on managers that are merely well formed *)
Lemma minpath_wf b z f d : bwf b → bdd_levels_distinct b → zwf z → repr (b_ar b) d f → noU d →
  ∃ b' z' x, minpath b z f = Some (b', z', x) ∧ step b b' ∧ hstep b z z' ∧
    match x with
    | None => z' = z ∧ ¬ mono d
    | Some r => mono d ∧ zdd_valid z' r ∧ zdd_det z' r ∧ ∀ S, zdd_mem z' r S ↔ minset d S
    end.
Proof.
  intros Hw Hl Hzw Hd Hn.
  unfold minpath. destruct (bdd_minsol_ok b f d Hw Hl Hd Hn) as (b' & x & -> & St & Hx). cbn [mbind option_bind].
  pose proof (cstep_wf _ _ St) as Hw'. destruct x as [r|]; cbn in Hx.
  - destruct Hx as (Hm & dr & Hr & Nr & Rr & Hz').
    destruct (to_zdd_ok b' Hw' z r dr Hzw Hr) as (z' & r' & d' & -> & Sz & Hr' & (Rd & Ed)). cbn [mbind option_bind].
    pose proof (zw_good _ (proj1 Sz)) as Gz.
    exists b', z', (Some r'). split; [done|]. split; [apply St|]. split.
    { destruct Sz as (A & B & C & D). split; [done|]. split; [done|]. split; [done|]. intros h hd Hh.
      destruct (D _ _ Hh) as [?|(s & hd0 & H0 & ?)]; [by left|right]. exists s, hd0. by rewrite (proj2 (proj2 (proj1 St))) in H0. }
    split; [done|]. split; [by eapply zvalid_of_repr|]. split.
    + apply (det_zdet _ _ _ Gz Hr'). intros S. rewrite Ed. apply noU_zdet; [|done]. eapply good_ok; [apply Hw'|done].
    + intros S. rewrite (mem_zmem _ _ _ _ Gz Hr'). unfold zmem. rewrite Ed. apply Hz'.
  - exists b', z, None. split; [done|]. split; [apply St|]. split; [by apply hstep_refl|done].
Qed.

(** ** levels and names of one BDD manager *)
Section names.
Context (m : bdd) (Hlv : ∀ i hd, bhd m !! i = Some hd → h_level hd = i) (Hnd : NoDup (h_label <$> bhd m)).
Let n := length (bhd m).

Lemma lab_inj i j : i < n → j < n → lab m i = lab m j → i = j.
Proof.
  intros Hi Hj He. apply lookup_lt_is_Some in Hi as [hi Hi], Hj as [hj Hj].
  unfold lab in He. rewrite Hi, Hj in He. cbn in He.
  eapply (NoDup_lookup (h_label <$> bhd m) i j (h_label hi)); [done| |]; rewrite list_lookup_fmap; [by rewrite Hi|by rewrite Hj, He].
Qed.
Lemma value_agree rho rho' id t : (∀ l, l < n → rho l = rho' l) → bdd_value m rho id t → bdd_value m rho' id t.
Proof.
  intros He. induction 1 as [id t Hn|id h lo hi hd t Hn Hh Hv IH]; [by constructor|]. eapply bv_node; [done|done|].
  rewrite He in IH; [done|]. rewrite (Hlv _ _ Hh). by eapply lookup_lt_Some.
Qed.
Definition lv (S : gset string) : gset nat := list_to_set (filter (λ i, lab m i ∈ S) (seq 0 n)).
Lemma lv_spec S i : i ∈ lv S ↔ i < n ∧ lab m i ∈ S.
Proof. unfold lv. rewrite elem_of_list_to_set, elem_of_list_filter, elem_of_seq. naive_solver lia. Qed.
Definition nl (A : gset nat) : gset string := set_map (lab m) A.
Definition inn (A : gset nat) : Prop := ∀ i, i ∈ A → i < n.
Lemma lv_nl A : inn A → lv (nl A) = A.
Proof.
  intros HA. apply set_eq. intros i. rewrite lv_spec. unfold nl. rewrite elem_of_map. split.
  - intros [Hi (j & He & Hj)]. assert (i = j) as -> by (apply lab_inj; auto). done.
  - intros Hi. split; [by apply HA|]. by exists i.
Qed.
Lemma lv_inn S : inn (lv S).
Proof. intros i Hi. by apply lv_spec in Hi as [? _]. Qed.
Lemma nl_lv S : nl (lv S) ⊆ S.
Proof. intros x (i & -> & Hi)%elem_of_map. by apply lv_spec in Hi as [_ ?]. Qed.
Lemma lv_mono S S' : S ⊆ S' → lv S ⊆ lv S'.
Proof. intros Hs i. rewrite !lv_spec. set_solver. Qed.

Context (f : nat) (F : nfun) (HF : denotes m f F).
Lemma den_value e : bdd_value m (rho_of m e) f (tvb (F e)).
Proof. apply value_name; [done|]. apply HF. Qed.
Lemma F_iff e b : F e = b ↔ bdd_value m (rho_of m e) f (tvb b).
Proof.
  split; [intros <-; apply den_value|]. intros Hv. pose proof (value_fun _ _ _ _ _ Hv (den_value e)) as He. by destruct b, (F e).
Qed.
Lemma F_ext e e' : (∀ x, e x = e' x) → F e = F e'.
Proof. intros He. symmetry. apply F_iff. eapply value_agree; [|apply den_value]. intros l _. unfold rho_of. by rewrite He. Qed.
Lemma F_works S : F (up S) = true ↔ works m f (lv S).
Proof.
  rewrite F_iff. unfold works, rho_of, up.
  assert (He : ∀ l, l < n → bool_decide (lab m l ∈ S) = bool_decide (l ∈ lv S)).
  { intros l Hl. apply bool_decide_ext. rewrite lv_spec. naive_solver. }
  split; (apply value_agree; intros l Hl; by rewrite He).
Qed.
Definition back (rho : nat → bool) : env := λ x, existsb (λ i, bool_decide (lab m i = x) && rho i) (seq 0 n).
Lemma back_spec rho l : l < n → rho_of m (back rho) l = rho l.
Proof.
  intros Hl. unfold rho_of, back. destruct (rho l) eqn:E.
  - apply existsb_exists. exists l. rewrite in_seq. split; [lia|]. rewrite E, bool_decide_eq_true_2 by done. done.
  - apply not_true_is_false. intros Hx%existsb_exists. destruct Hx as (i & Hi & [He Hr]%andb_true_iff). apply bool_decide_eq_true in He.
    apply in_seq in Hi. assert (i = l) as -> by (apply lab_inj; [lia|done|done]). congruence.
Qed.
Lemma increasing_mono : increasing F ↔ bdd_monotone m f.
Proof.
  split.
  - intros Hi rho rho' Hle Hv.
    assert (F (back rho) = true) as H1 by (apply F_iff; eapply value_agree; [|exact Hv]; intros l Hl; by rewrite back_spec).
    apply (Hi _ (back rho')) in H1.
    + apply F_iff in H1. eapply value_agree; [|exact H1]. intros l Hl. by apply back_spec.
    + intros x. unfold back. rewrite !existsb_exists. intros (i & Hin & [Hb Hr]%andb_true_iff). exists i. split; [done|].
      rewrite Hb, (Hle _ Hr). done.
  - intros Hm e e' Hle. rewrite !F_iff. apply Hm. intros l. unfold rho_of. apply Hle.
Qed.
Lemma min_paths_nl A : inn A → min_path_set m f A ↔ min_paths F (nl A).
Proof.
  intros HA. unfold min_path_set, min_paths. rewrite F_works, lv_nl by done. split; intros [H1 H2]; (split; [done|]).
  - intros S' [Hs Hns]. destruct (F (up S')) eqn:E; [|done]. exfalso. apply F_works in E. apply (H2 (lv S')); [|done]. split.
    + intros i Hi. rewrite <- (lv_nl A HA). by eapply lv_mono.
    + intros Hs2. apply Hns. intros x (i & -> & Hi)%elem_of_map. apply Hs2, lv_spec in Hi as [_ ?]. done.
  - intros A' [Hs Hns] Hw. assert (HA' : inn A') by (intros i Hi; by apply HA, Hs).
    assert (F (up (nl A')) = true) as E by (apply F_works; by rewrite lv_nl).
    rewrite H2 in E; [done|]. split; [by apply set_map_mono|]. intros Hs2. apply Hns. rewrite <- (lv_nl A), <- (lv_nl A') by done. by apply lv_mono.
Qed.
Lemma min_paths_over S : min_paths F S → nl (lv S) = S.
Proof.
  intros [H1 H2]. destruct (decide (S ⊆ nl (lv S))) as [Hs|Hs]; [by apply (anti_symm (⊆)); [apply nl_lv|]|].
  exfalso. assert (F (up (nl (lv S))) = false) as E by (apply H2; split; [apply nl_lv|done]).
  apply F_works in H1. assert (F (up (nl (lv S))) = true) by (apply F_works; by rewrite lv_nl by apply lv_inn). congruence.
Qed.
End names.

(** ** the joint invariant *)
Section base.
Context {B C : base}.
Definition jok (s : bssmgr) (HB : list (nat * nfun)) (HZ : zholds) : Prop :=
  @wok B (s_bdd s) HB ∧ @zok C (s_zdd s) HZ ∧ ∀ hd, hd ∈ zhd (y_zdd (s_zdd s)) → named (w_bdd (s_bdd s)) hd.

Lemma named_nmok b (z : zdd) : (∀ i hd, bhd b !! i = Some hd → h_level hd = i) → NoDup (h_label <$> bhd b) →
  (∀ hd, hd ∈ zhd z → named b hd) → nmok z.
Proof.
  intros Hl Hnd Hn hd hd' Hh Hh'. destruct (Hn _ Hh) as (i & h0 & Hi & -> & ->). destruct (Hn _ Hh') as (j & h1 & Hj & -> & ->).
  rewrite (Hl _ _ Hi), (Hl _ _ Hj). split; [intros ->; congruence|]. intros He.
  eapply (NoDup_lookup (h_label <$> bhd b) i j (h_label h0)); [done| |]; rewrite list_lookup_fmap; [by rewrite Hi|by rewrite Hj, He].
Qed.
Lemma named_lab b hd : (∀ i hd, bhd b !! i = Some hd → h_level hd = i) → named b hd →
  h_level hd < length (bhd b) ∧ h_label hd = lab b (h_level hd).
Proof.
  intros Hl (i & h0 & Hi & -> & ->). rewrite (Hl _ _ Hi). split; [by eapply lookup_lt_Some|]. unfold lab. by rewrite Hi.
Qed.

Lemma s_minpath_ok s HB HZ f F : jok s HB HZ → (f, F) ∈ HB →
  ∃ s' r, s_minpath s f = Some (s', r) ∧ (r = None ↔ ¬ increasing F) ∧
    jok s' HB (match r with Some z => (z, Some (min_paths F)) :: HZ | None => HZ end).
Proof.
  intros (Hb & Hz & Hn) Hf. pose proof (wk_wf _ _ Hb) as Hw. pose proof (bw_good _ Hw) as Hg. pose proof (zk_wf _ _ Hz) as Hzw.
  pose proof (wk_held _ _ Hb _ _ Hf) as HF. set (b := w_bdd (s_bdd s)) in *.
  pose proof (wk_lvl _ _ Hb) as Hlv. pose proof (wk_nodup _ _ Hb) as Hnd. fold b in Hlv, Hnd.
  destruct (valid_repr _ _ Hw (proj1 HF)) as [d Hd].
  assert (Hdet : bdd_determined b f).
  { intros rho Hv. assert (bdd_value b (rho_of b (back b rho)) f TUndet) as Hv'.
    { eapply (value_agree b Hlv); [|exact Hv]. intros l Hl. symmetry. by apply back_spec. }
    pose proof (value_fun _ _ _ _ _ Hv' (den_value b Hlv f F HF (back b rho))) as He. by destruct (F _). }
  assert (Hld : bdd_levels_distinct b).
  { unfold bdd_levels_distinct. apply NoDup_alt. intros i j l. rewrite !list_lookup_fmap.
    destruct (bhd b !! i) as [h0|] eqn:Hi; [|done]. destruct (bhd b !! j) as [h1|] eqn:Hj; [|done]. cbn.
    intros [= <-] [= He]. rewrite (Hlv _ _ Hi), (Hlv _ _ Hj) in He. done. }
  destruct (minpath_wf b (y_zdd (s_zdd s)) f d Hw Hld Hzw Hd) as (b' & z' & x & Heq & Hst & Hhs & Hx); [by eapply determined_noU|].
  unfold s_minpath. fold b. rewrite Heq. cbn [mbind option_bind].
  pose proof (wok_step _ _ _ Hb Hst) as Hb'.
  assert (Hnm : ∀ hd, hd ∈ zhd z' → named b hd).
  { intros hd [h Hh]%elem_of_list_lookup. destruct Hhs as (_ & _ & _ & Hx'). destruct (Hx' _ _ Hh) as [H0|H0]; [|done].
    apply Hn. by eapply elem_of_list_lookup_2. }
  assert (Hnm' : ∀ hd, named b hd → named b' hd).
  { intros hd (i & h0 & Hi & ?). exists i, h0. by rewrite (proj2 (proj2 Hst)). }
  assert (Hinc : increasing F ↔ mono d) by (by rewrite (increasing_mono b Hlv Hnd f F HF), (monotone_mono _ _ _ Hg Hd)).
  destruct x as [r|].
  - destruct Hx as (Hm & Vr & Dr & HS).
    pose proof (named_nmok b z' Hlv Hnd Hnm) as Hnz.
    assert (Hk1 : zok (with_zdd (s_zdd s) z') HZ) by (apply zok_ext; [done|apply Hhs, Hz|apply Hhs|done]).
    assert (Hin : ∀ A, lvls z' A → inn b A ∧ nms z' A = nl b A).
    { intros A HA. split.
      - intros l Hl. destruct (HA _ Hl) as (hd & Hh & <-). by apply named_lab, Hnm.
      - apply set_eq. intros x. unfold nms, nl. rewrite !elem_of_map. split; intros (l & -> & Hl); exists l; (split; [|done]);
          destruct (HA _ Hl) as (hd & Hh & <-); rewrite (nm_spec z') by done; [|symmetry]; by apply named_lab, Hnm. }
    destruct (zok_wrap (with_zdd (s_zdd s) z') HZ r (Some (min_paths F)) Hk1) as (y' & E & Hk' & Hh & _).
    { split; [done|]. intros F' [= <-]. cbn [with_zdd y_zdd]. split; [done|]. split.
      - intros S (A & HA & _)%named_has_iff; [|done]. by eapply Dr.
      - intros S. rewrite named_has_iff by done. split.
        + intros (A & HA & ->). destruct (Hin _ (has_lvls _ _ _ _ HA)) as [HiA ->].
          apply (min_paths_nl b Hlv Hnd f F HF); [done|]. apply HS in HA. by apply (min_path_minset _ _ _ _ Hg Hd).
        + intros Hp. pose proof (min_paths_over b Hlv Hnd f F HF S Hp) as He. exists (lv b S).
          assert (zdd_mem z' r (lv b S)) as Hmm.
          { apply HS. apply (min_path_minset _ _ _ _ Hg Hd). apply (min_paths_nl b Hlv Hnd f F HF); [apply lv_inn|]. by rewrite He. }
          split; [done|]. destruct (Hin _ (has_lvls _ _ _ _ Hmm)) as [_ ->]. done. }
    rewrite E. cbn [mbind option_bind]. eexists _, _. split; [done|]. split; [rewrite Hinc; split; [done|intros H; by destruct (H Hm)]|].
    split; [done|]. split; [done|]. cbn [s_bdd s_zdd with_bdd w_bdd]. rewrite Hh. intros hd Hhd. by apply Hnm', Hnm.
  - destruct Hx as [-> Hm]. eexists _, _. split; [done|]. split; [by rewrite Hinc|]. split; [done|]. split; [done|].
    cbn [s_bdd s_zdd with_bdd w_bdd]. intros hd Hhd. by apply Hnm', Hn.
Qed.

Definition dualf (F : nfun) : nfun := λ e, negb (F (λ x, negb (e x))).
Lemma dual_cuts m f F : (∀ i hd, bhd m !! i = Some hd → h_level hd = i) → denotes m f F → ∀ S, min_paths (dualf F) S ↔ min_cuts F S.
Proof.
  intros Hlv HF. assert (He : ∀ S, dualf F (up S) = negb (F (down S))).
  { intros S. unfold dualf. f_equal. apply (F_ext m Hlv f F HF). intros x. unfold up, down. by rewrite <- bool_decide_not. }
  intros S. unfold min_paths, min_cuts. rewrite He, negb_true_iff. split; intros [? H]; (split; [done|]); intros S' HS'; specialize (H S' HS').
  - by rewrite He, negb_false_iff in H.
  - by rewrite He, negb_false_iff.
Qed.
Lemma dual_increasing m f F : (∀ i hd, bhd m !! i = Some hd → h_level hd = i) → denotes m f F → increasing (dualf F) ↔ increasing F.
Proof.
  intros Hlv HF. unfold increasing, dualf. split.
  - intros H e e' Hle HFe. destruct (F e') eqn:E; [done|exfalso].
    assert (Hx : ∀ e0 : env, F (λ x, negb (negb (e0 x))) = F e0) by (intros e0; apply (F_ext m Hlv f F HF); intros; apply negb_involutive).
    specialize (H (λ x, negb (e' x)) (λ x, negb (e x))). cbn beta in H. rewrite !Hx, HFe, E in H.
    enough (false = true) by done. apply H; [|done]. intros x. specialize (Hle x). destruct (e x), (e' x); naive_solver.
  - intros H e e' Hle. rewrite !negb_true_iff. intros HFe. destruct (F (λ x, negb (e' x))) eqn:E; [|done].
    rewrite (H (λ x, negb (e' x)) (λ x, negb (e x))) in HFe; [done| |done]. intros x. specialize (Hle x). destruct (e x), (e' x); naive_solver.
Qed.

Lemma jok_bdd s HB HZ w' HB' : jok s HB HZ → bss_step (s_bdd s) HB w' HB' → jok (BssM w' (s_zdd s)) HB' HZ.
Proof.
  intros (Hb & Hz & Hn) Hs. split; [by eapply step_wok|]. split; [done|]. cbn [s_bdd s_zdd]. intros hd (i & h0 & Hi & ?)%Hn.
  exists i, h0. split; [|done]. by eapply prefix_lookup, step_headers.
Qed.
Lemma jok_zdd s HB HZ y' HZ' : jok s HB HZ → y_step (s_zdd s) HZ y' HZ' → jok (BssM (s_bdd s) y') HB HZ'.
Proof.
  intros (Hb & Hz & Hn) Hs. destruct (y_step_ok _ _ _ _ Hz Hs) as (Hz' & Hh & _). split; [done|]. split; [done|]. cbn [s_bdd s_zdd]. by rewrite Hh.
Qed.
Lemma s_mincut_ok s HB HZ f F : jok s HB HZ → (f, F) ∈ HB →
  ∃ s' r, s_mincut s f = Some (s', r) ∧ (r = None ↔ ¬ increasing F) ∧
    jok s' HB (match r with Some z => (z, Some (min_cuts F)) :: HZ | None => HZ end).
Proof.
  intros Hj Hf. pose proof Hj as (Hb & _). unfold s_mincut.
  destruct (w_dual_ok _ _ Hb f F Hf) as (w & g & E & _).
  rewrite E. cbn [mbind option_bind].
  pose proof (jok_bdd _ _ _ _ _ Hj (st_dual _ _ _ _ _ _ Hf E)) as Hj1.
  destruct (s_minpath_ok _ _ _ g (dualf F) Hj1) as (s' & r & E' & Hr & Hj'); [by left|].
  rewrite E'. cbn [mbind option_bind]. eexists _, _. split; [done|].
  pose proof (wk_held _ _ Hb _ _ Hf) as HF. pose proof (wk_lvl _ _ Hb) as Hlv.
  split; [by rewrite Hr, (dual_increasing _ _ _ Hlv HF)|].
  pose proof (jok_bdd _ _ _ _ _ Hj' (st_drop _ _ _ _ _ (Permutation_refl _))) as (A & Bz & Cz). split; [done|]. split; [|done].
  destruct r as [z|]; [|done]. eapply fam_weaken; [exact Bz|]. by apply (dual_cuts _ _ _ Hlv HF).
Qed.

End base.

Lemma s_new_ok : @jok base0 base0 s_new [] [].
Proof. split; [apply new_wok|]. split; [apply znew_zok|]. intros hd H. by apply elem_of_nil in H. Qed.
Lemma bssm_held_ok s HB HZ : bssm_held s HB HZ → @jok base0 base0 s HB HZ.
Proof.
  induction 1 as [|s HB HZ w' HB' _ IH Hs|s HB HZ y' HZ' _ IH Hs|s HB HZ f F s' r _ IH Hf E|s HB HZ f F s' r _ IH Hf E|s HB HZ _ IH].
  - apply s_new_ok.
  - by eapply jok_bdd.
  - by eapply jok_zdd.
  - destruct (s_minpath_ok s HB HZ f F IH Hf) as (s1 & r1 & E1 & _ & Hj). rewrite E1 in E. by injection E as <- <-.
  - destruct (s_mincut_ok s HB HZ f F IH Hf) as (s1 & r1 & E1 & _ & Hj). rewrite E1 in E. by injection E as <- <-.
  - pose proof (jok_bdd _ _ _ _ _ IH (st_clear _ _)) as H1. apply (jok_zdd _ _ _ _ _ H1 (ys_clear _ _)).
Qed.

Lemma minpath_named s HB HZ f F : bssm_held s HB HZ → (f, F) ∈ HB →
  ∃ s' r, s_minpath s f = Some (s', r) ∧ (r = None ↔ ¬ increasing F) ∧
    ∀ z, r = Some z → stands_for (y_zdd (s_zdd s')) z (min_paths F).
Proof.
  intros Hj Hf. destruct (s_minpath_ok s HB HZ f F (bssm_held_ok _ _ _ Hj) Hf) as (s' & r & E & Hr & (_ & Hz & _)).
  exists s', r. split; [done|]. split; [done|]. intros z ->. apply (zk_held _ _ Hz). by left.
Qed.
Lemma mincut_named s HB HZ f F : bssm_held s HB HZ → (f, F) ∈ HB →
  ∃ s' r, s_mincut s f = Some (s', r) ∧ (r = None ↔ ¬ increasing F) ∧
    ∀ z, r = Some z → stands_for (y_zdd (s_zdd s')) z (min_cuts F).
Proof.
  intros Hj Hf. destruct (s_mincut_ok s HB HZ f F (bssm_held_ok _ _ _ Hj) Hf) as (s' & r & E & Hr & (_ & Hz & _)).
  exists s', r. split; [done|]. split; [done|]. intros z ->. apply (zk_held _ _ Hz). by left.
Qed.
Lemma joint_equal_wrong : ∃ s HB HZ z1 z2 F, bssm_held s HB HZ ∧ (z1, Some F) ∈ HZ ∧ (z2, Some F) ∈ HZ ∧ z1 ≠ z2.
Proof.
  destruct (w_defvar w_new "x") as [w f] eqn:E. pose proof (jm_bdd _ _ _ _ _ jm_new (st_defvar _ _ _ _ _ E)) as H0. cbn [s_new s_bdd s_zdd] in H0.
  assert (Hr : (let '(w, f) := w_defvar w_new "x" in '(s, r1) ← s_minpath (BssM w y_new) f; '(s, r2) ← s_minpath s f; Some (r1, r2)) = Some (Some 3, Some 4)) by (vm_compute; reflexivity).
  rewrite E in Hr. change (s_zdd s_new) with y_new in H0.
  destruct (s_minpath (BssM w y_new) f) as [[s1 r1]|] eqn:E1; [|done]. cbn [mbind option_bind] in Hr.
  destruct (s_minpath s1 f) as [[s2 r2]|] eqn:E2; [|done]. cbn [mbind option_bind] in Hr. apply (inj Some) in Hr. apply pair_equal_spec in Hr as [-> ->].
  eapply (jm_minpath _ _ _ f _ _ _ H0) in E1; [|by left]. eapply (jm_minpath _ _ _ f _ _ _ E1) in E2; [|by left]. cbn in E2.
  eexists _, _, _, 4, 3, _. split; [exact E2|]. split; [left|]. split; [right; left|done].
Qed.
