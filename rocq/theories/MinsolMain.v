(** Minimal path and cut sets: from the internal invariants to the statements. *)
From Coq Require Import String.
From stdpp Require Import strings.
From Verif Require Import Prelude ComputeCache Arena Trees ArenaProofs ArenaMore Bdd BddProofs SpecBdd SpecBss BddMain
  BssAlg BssGates BssReach Zdd ZddTrees ZddProofs SpecZdd ZddMain ZddAlg MinsolTrees MinsolProofs ZddConv SpecMinsol.

Lemma works_sat m d f S : good (b_ar m) → repr (b_ar m) d f → works m f S ↔ sat S d.
Proof. intros Hg Hd. unfold works. by rewrite (value_ev _ _ _ _ _ Hg Hd). Qed.
Lemma determined_noU m d f : good (b_ar m) → repr (b_ar m) d f → bdd_determined m f → noU d.
Proof.
  intros Hg Hd H. apply det_noU; [by eapply good_ok|]. intros rho He. apply (H rho).
  by apply (value_ev _ _ _ _ _ Hg Hd).
Qed.
Lemma noU_determined m d f : good (b_ar m) → repr (b_ar m) d f → noU d → bdd_determined m f.
Proof.
  intros Hg Hd H rho Hv. apply (val_ev _ _ _ _ _ Hg Hd) in Hv.
  destruct (noU_ev (asg rho) d); [by eapply good_ok|apply asg_ok|done|congruence..].
Qed.
Lemma monotone_mono m d f : good (b_ar m) → repr (b_ar m) d f → bdd_monotone m f ↔ mono d.
Proof.
  intros Hg Hd. pose proof (good_ok _ _ _ Hg Hd) as Ho. split.
  - intros H S S' Hs Hsat. apply (works_sat _ _ _ _ Hg Hd). apply (works_sat _ _ _ _ Hg Hd) in Hsat.
    eapply H; [|exact Hsat]. intros l. cbn. rewrite !bool_decide_eq_true. set_solver.
  - intros H rho rho' Hle Hv. apply (value_ev _ _ _ _ _ Hg Hd). apply (value_ev _ _ _ _ _ Hg Hd) in Hv.
    rewrite (ev_set (asg rho') d (rank d)) by (done || apply asg_ok).
    rewrite (ev_set (asg rho) d (rank d)) in Hv by (done || apply asg_ok).
    eapply H; [|exact Hv]. intros l. rewrite !elem_of_list_to_set, !elem_of_list_filter. unfold asg.
    intros [Hl ?]. split; [|done]. destruct (rho l) eqn:E; [|done]. by rewrite (Hle _ E).
Qed.
Lemma min_path_minset m d f S : good (b_ar m) → repr (b_ar m) d f → min_path_set m f S ↔ minset d S.
Proof.
  intros Hg Hd. unfold min_path_set, minset. rewrite (works_sat _ _ _ _ Hg Hd).
  split; intros [? H]; (split; [done|]); intros S' HS' Hw; apply (H S' HS'); by apply (works_sat _ _ _ _ Hg Hd).
Qed.

Lemma hstep_keeps src z z' : zwf z → hstep src z z' → zdd_keeps z z'.
Proof. intros Hw (Hw' & He & _) id Hv. by apply zhas_ext. Qed.
Lemma hstep_names src z z' name : hstep src z z' → bdd_names src name → zdd_names z name → zdd_names z' name.
Proof.
  intros (_ & _ & _ & Hn) Hb Hz h hd Hh. destruct (Hn _ _ Hh) as [H|(s & hd0 & H & -> & ->)]; [by eapply Hz|by eapply Hb].
Qed.

(** what [minpath] and [mincut] leave of the two managers *)
Definition minkeeps (b b' : bdd) (z z' : zdd) : Prop :=
  bss_reachable b' ∧ bdd_levels_distinct b' ∧ zdd_reachable z' ∧ bdd_keeps b b' ∧ zdd_keeps z z' ∧
  ∀ name, bdd_names b name → zdd_names z name → bdd_names b' name ∧ zdd_names z' name.

Lemma minpath_tree b z f d : bss_reachable b → bdd_levels_distinct b → zdd_reachable z →
  repr (b_ar b) d f → noU d →
  ∃ b' z' x, minpath b z f = Some (b', z', x) ∧ step b b' ∧ minkeeps b b' z z' ∧
    match x with
    | None => ¬ mono d
    | Some r => mono d ∧ zdd_valid z' r ∧ zdd_det z' r ∧ ∀ S, zdd_mem z' r S ↔ minset d S
    end.
Proof.
  intros Hb Hl Hz Hd Hn. pose proof (bss_wf _ Hb) as Hw. pose proof (zreachable_wf _ Hz) as Hzw.
  unfold minpath. destruct (bdd_minsol_ok b f d Hw Hl Hd Hn) as (b' & x & -> & St & Hx). cbn [mbind option_bind].
  pose proof (cstep_wf _ _ St) as Hw'.
  assert (Hnb : ∀ name, bdd_names b name → bdd_names b' name).
  { intros name H h hd Hh. rewrite (proj2 (proj2 (proj1 St))) in Hh. by eapply H. }
  assert (Hbk : bss_reachable b' ∧ bdd_levels_distinct b' ∧ bdd_keeps b b').
  { split; [apply (proj2 St), Hb|]. split; [by eapply cstep_distinct|]. apply step_keeps; [done|apply St]. }
  destruct Hbk as (Hb' & Hl' & Hk). destruct x as [r|]; cbn in Hx.
  - destruct Hx as (Hm & dr & Hr & Nr & Rr & Hz').
    destruct (to_zdd_ok b' Hw' z r dr Hzw Hr) as (z' & r' & d' & -> & Sz & Hr' & (Rd & Ed)). cbn [mbind option_bind].
    pose proof (zw_good _ (proj1 Sz)) as Gz.
    exists b', z', (Some r'). split; [done|]. split; [apply St|]. split.
    { split; [done|]. split; [done|]. split; [apply Sz, Hz|]. split; [done|]. split; [by eapply hstep_keeps|].
      intros name H1 H2. split; [by apply Hnb|]. eapply hstep_names; [exact Sz|by apply Hnb|done]. }
    split; [done|]. split; [by eapply zvalid_of_repr|]. split.
    + apply (det_zdet _ _ _ Gz Hr'). intros S. rewrite Ed. apply noU_zdet; [|done]. eapply good_ok; [apply Hw'|done].
    + intros S. rewrite (mem_zmem _ _ _ _ Gz Hr'). unfold zmem. rewrite Ed. apply Hz'.
  - exists b', z, None. split; [done|]. split; [apply St|]. split; [|done].
    split; [done|]. split; [done|]. split; [done|]. split; [done|]. split.
    + intros id Hv. by apply zhas_ext; try apply ext_refl.
    + intros name H1 H2. split; [by apply Hnb|done].
Qed.

Lemma minpath_l b z f : bss_reachable b → bdd_levels_distinct b → zdd_reachable z →
  bdd_valid b f → bdd_determined b f →
  ∃ b' z' x, minpath b z f = Some (b', z', x) ∧ minkeeps b b' z z' ∧
    match x with
    | None => ¬ bdd_monotone b f
    | Some r => bdd_monotone b f ∧ zdd_valid z' r ∧ zdd_det z' r ∧ ∀ S, zdd_mem z' r S ↔ min_path_set b f S
    end.
Proof.
  intros Hb Hl Hz Vf Df. pose proof (bss_wf _ Hb) as Hw. pose proof (bw_good _ Hw) as Hg.
  destruct (valid_repr _ _ Hw Vf) as [d Hd].
  destruct (minpath_tree b z f d) as (b' & z' & x & Heq & _ & Hk & Hx); try done.
  { by eapply determined_noU. }
  exists b', z', x. split; [done|]. split; [done|]. destruct x as [r|].
  - destruct Hx as (Hm & Vr & Dr & HS). split; [by apply (monotone_mono _ _ _ Hg Hd)|]. split; [done|]. split; [done|].
    intros S. by rewrite HS, (min_path_minset _ _ _ _ Hg Hd).
  - by rewrite (monotone_mono _ _ _ Hg Hd).
Qed.

(** ** The dual *)
Lemma noU_dualt d : okdd E2 d → okdd E2 (dualt d) → noU d → noU (dualt d).
Proof.
  intros Ho Ho' Hn. apply det_noU; [done|]. intros rho. rewrite ev_dualt by (done || apply asg_ok).
  assert (Hv : vok E2 (flip (asg rho))).
  { intros l. unfold flip, asg, E2. destruct (rho l); lia. }
  destruct (noU_ev (flip (asg rho)) d Ho Hv Hn) as [-> | ->]; done.
Qed.
Lemma flip_set S d : okdd E2 d → ev (flip (asg (chi S))) d = ev (asg (λ l, bool_decide (l ∉ S))) d.
Proof.
  intros Ho. apply ev_ext; [done|]. intros l. unfold flip, asg, chi.
  destruct (decide (l ∈ S)); [rewrite bool_decide_true by done; rewrite bool_decide_false by tauto; done|].
  rewrite bool_decide_false by done. by rewrite bool_decide_true by done.
Qed.
Lemma fails_sat m d f S : good (b_ar m) → repr (b_ar m) d f → fails m f S ↔ sat S (dualt d).
Proof.
  intros Hg Hd. pose proof (good_ok _ _ _ Hg Hd) as Ho. unfold fails, sat.
  rewrite (value_ev _ _ _ _ _ Hg Hd), ev_dualt, flip_set by (done || apply asg_ok). by destruct (ev _ d).
Qed.
Lemma min_cut_minset m d f S : good (b_ar m) → repr (b_ar m) d f → min_cut_set m f S ↔ minset (dualt d) S.
Proof.
  intros Hg Hd. unfold min_cut_set, minset. rewrite (fails_sat _ _ _ _ Hg Hd).
  split; intros [? H]; (split; [done|]); intros S' HS' Hw; apply (H S' HS'); by apply (fails_sat _ _ _ _ Hg Hd).
Qed.
Lemma mono_dualt m d f : good (b_ar m) → repr (b_ar m) d f → noU d → mono (dualt d) ↔ bdd_monotone m f.
Proof.
  intros Hg Hd Hn. pose proof (good_ok _ _ _ Hg Hd) as Ho.
  assert (Hfail : ∀ rho, ev (asg rho) d = TZero ∨ ev (asg rho) d = TOne) by (intros; by apply noU_ev, Hn; try apply asg_ok).
  rewrite (monotone_mono _ _ _ Hg Hd). unfold mono.
  set (n := rank d). set (co := λ S : gset nat, list_to_set (filter (λ l, l ∉ S) (seq 0 n)) : gset nat).
  assert (Hco : ∀ S, sat S (dualt d) ↔ ¬ sat (co S) d).
  { intros S. unfold sat. rewrite ev_dualt, flip_set by (done || apply asg_ok).
    rewrite (ev_set (asg _) d n) by (done || apply asg_ok).
    assert (list_to_set (filter (λ l, asg (λ l0, bool_decide (l0 ∉ S)) l = 1) (seq 0 n)) = co S) as ->.
    { apply set_eq. intros l. unfold co. rewrite !elem_of_list_to_set, !elem_of_list_filter. unfold asg.
      destruct (decide (l ∉ S)); [rewrite bool_decide_true by done|rewrite bool_decide_false by done]; naive_solver lia. }
    destruct (Hfail (chi (co S))) as [-> | ->]; cbn; naive_solver. }
  assert (Hcoco : ∀ S, sat (co (co S)) d ↔ sat S d).
  { intros S. apply sat_agree; [done|]. intros l Hl. unfold co.
    rewrite elem_of_list_to_set, elem_of_list_filter, elem_of_list_to_set, elem_of_list_filter, elem_of_seq.
    destruct (decide (l ∈ S)); subst n; naive_solver lia. }
  assert (Hsub : ∀ S S', S ⊆ S' → co S' ⊆ co S).
  { intros S S' Hs l. unfold co. rewrite !elem_of_list_to_set, !elem_of_list_filter. set_solver. }
  split.
  - intros H S S' Hs Hsat. destruct (decide (sat S' d)) as [|Hns]; [done|exfalso].
    rewrite <- Hcoco in Hns. apply Hco in Hns. apply (H _ (co S)) in Hns; [|by apply Hsub].
    apply Hco in Hns. by rewrite Hcoco in Hns.
  - intros H S S' Hs. rewrite !Hco. intros Hns Hsat. apply Hns. eapply H; [|exact Hsat]. by apply Hsub.
Qed.

Lemma mincut_l b z f : bss_reachable b → bdd_levels_distinct b → zdd_reachable z →
  bdd_valid b f → bdd_determined b f →
  ∃ b' z' x, mincut b z f = Some (b', z', x) ∧ minkeeps b b' z z' ∧
    match x with
    | None => ¬ bdd_monotone b f
    | Some r => bdd_monotone b f ∧ zdd_valid z' r ∧ zdd_det z' r ∧ ∀ S, zdd_mem z' r S ↔ min_cut_set b f S
    end.
Proof.
  intros Hb Hl Hz Vf Df. pose proof (bss_wf _ Hb) as Hw. pose proof (bw_good _ Hw) as Hg.
  destruct (valid_repr _ _ Hw Vf) as [d Hd]. pose proof (good_ok _ _ _ Hg Hd) as Ho.
  pose proof (determined_noU _ _ _ Hg Hd Df) as Hn. unfold mincut.
  destruct (bdd_dual_ok b f d Hw Hd) as (b1 & g & Heq & St & Hgd). rewrite Heq. cbn [mbind option_bind].
  assert (Hb1 : bss_reachable b1) by (by eapply br_dual).
  assert (Hl1 : bdd_levels_distinct b1).
  { unfold bdd_levels_distinct. by rewrite (proj2 (proj2 St)). }
  destruct (minpath_tree b1 z g (dualt d)) as (b' & z' & x & -> & _ & Hk & Hx); try done.
  { apply noU_dualt; [done| |done]. eapply good_ok; [apply (bw_good _ (proj1 St))|done]. }
  exists b', z', x. split; [done|]. split.
  { destruct Hk as (? & ? & ? & Hk & ? & Hnm). split; [done|]. split; [done|]. split; [done|]. split; [|split; [done|]].
    - intros id Hv. destruct (step_keeps _ _ Hw St id Hv) as [Hv1 Hk1]. destruct (Hk id Hv1) as [Hv2 Hk2].
      split; [done|]. intros rho t. by rewrite Hk1.
    - intros name Hn1 Hn2. apply Hnm; [|done]. intros h hd Hh. rewrite (proj2 (proj2 St)) in Hh. by eapply Hn1. }
  destruct x as [r|].
  - destruct Hx as (Hm & Vr & Dr & HS). split; [by apply (mono_dualt _ _ _ Hg Hd)|]. split; [done|]. split; [done|].
    intros S. by rewrite HS, (min_cut_minset _ _ _ _ Hg Hd).
  - by rewrite <- (mono_dualt _ _ _ Hg Hd).
Qed.

(** ** Two calls on one function: equal families, different nodes *)
Lemma minpath_twice : ∃ b z f b1 z1 r1 b2 z2 r2,
  bss_reachable b ∧ bdd_levels_distinct b ∧ zdd_reachable z ∧ bdd_valid b f ∧ bdd_determined b f ∧
  minpath b z f = Some (b1, z1, Some r1) ∧ minpath b1 z1 f = Some (b2, z2, Some r2) ∧
  zdd_valid z2 r1 ∧ zdd_valid z2 r2 ∧ (∀ S, zdd_mem z2 r1 S ↔ zdd_mem z2 r2 S) ∧ r1 ≠ r2.
Proof.
  set (cs := [CHeader 0 "x"; CNode 0 0 1]).
  set (t := Br (Header 0 0 "x" 2) [Leaf TZero; Leaf TOne]).
  assert (Hrun : (b ← bdd_run bdd_new cs; Some (bool_decide (NoDup (h_level <$> ar_headers (b_ar b))),
      bool_decide (bdd_valid b 3), a_tree 9 (b_ar b) 3,
      '(b1, z1, x1) ← minpath b zdd_new 3; '(b2, z2, x2) ← minpath b1 z1 3; Some (x1, x2))) =
    Some (true, true, Some t, Some (Some 3, Some 4))) by (vm_compute; reflexivity).
  destruct (bdd_run bdd_new cs) as [b|] eqn:Hb; [|done]. cbn [mbind option_bind] in Hrun.
  apply some4_inj in Hrun as (Hl & Vf & Ht & Hm). apply bool_decide_eq_true in Hl, Vf.
  assert (Rb : bss_reachable b) by (apply bss_core; by exists cs).
  assert (Rz : zdd_reachable zdd_new) by (by exists []).
  pose proof (bss_wf _ Rb) as Hw. pose proof (bw_good _ Hw) as Hg.
  pose proof (a_tree_repr _ _ _ _ Ht) as Hd.
  assert (Df : bdd_determined b 3) by (eapply noU_determined; [done|exact Hd|done]).
  destruct (minpath_l b zdd_new 3 Rb Hl Rz Vf Df) as (b1 & z1 & x1 & E1 & K1 & H1). rewrite E1 in Hm. cbn [mbind option_bind] in Hm.
  destruct K1 as (Rb1 & Hl1 & Rz1 & Kb1 & _). destruct (Kb1 _ Vf) as [Vf1 Hv1].
  assert (Df1 : bdd_determined b1 3) by (intros rho Hv; by eapply Df, Hv1).
  destruct (minpath_l b1 z1 3 Rb1 Hl1 Rz1 Vf1 Df1) as (b2 & z2 & x2 & E2 & K2 & H2). rewrite E2 in Hm. cbn [mbind option_bind] in Hm.
  injection Hm as -> ->.
  destruct H1 as (_ & Vr1 & _ & HS1). destruct H2 as (_ & Vr2 & _ & HS2).
  destruct K2 as (_ & _ & _ & _ & Kz & _). destruct (Kz _ Vr1) as (Vr1' & Hmem & _).
  exists b, zdd_new, 3, b1, z1, 3, b2, z2, 4. split; [done|]. split; [done|]. split; [done|]. split; [done|]. split; [done|].
  split; [done|]. split; [done|]. split; [done|]. split; [done|]. split; [|done].
  intros S. rewrite Hmem, HS1, HS2. unfold min_path_set, works.
  split; intros [? H]; (split; [by apply Hv1|]); intros S' HS' Hw'; apply (H S' HS'); by apply Hv1.
Qed.

Lemma min_frame b z f b' z' x : bss_reachable b → bdd_levels_distinct b → zdd_reachable z →
  bdd_valid b f → bdd_determined b f → (minpath b z f = Some (b', z', x) ∨ mincut b z f = Some (b', z', x)) →
  minkeeps b b' z z'.
Proof.
  intros Hb Hl Hz Vf Df [He|He].
  - destruct (minpath_l b z f Hb Hl Hz Vf Df) as (b1 & z1 & x1 & E1 & K & _). rewrite E1 in He. by injection He as <- <- <-.
  - destruct (mincut_l b z f Hb Hl Hz Vf Df) as (b1 & z1 & x1 & E1 & K & _). rewrite E1 in He. by injection He as <- <- <-.
Qed.

(** ** A new family equals an old node only when it has no element at all *)
Lemma minpath_fresh b z f d b' z' r : bwf b → bdd_levels_distinct b → zwf z → repr (b_ar b) d f → noU d →
  minpath b z f = Some (b', z', Some r) →
  zwf z' ∧ ext (z_ar z) (z_ar z') ∧ ∃ d', repr (z_ar z') d' r ∧ fresh_root (length (ar_headers (z_ar z))) d'.
Proof.
  intros Hw Hl Hzw Hd Hn He. unfold minpath in He.
  destruct (bdd_minsol_ok b f d Hw Hl Hd Hn) as (b1 & x & E1 & St & Hx). rewrite E1 in He. cbn [mbind option_bind] in He.
  destruct x as [g|]; [|done]. destruct Hx as (Hm & dr & Hr & _).
  destruct (to_zdd_fresh b1 z g dr (cstep_wf _ _ St) Hzw Hr) as (z1 & r1 & d' & E2 & Sz & Hr' & (_ & _ & Hf)).
  rewrite E2 in He. cbn [mbind option_bind] in He. injection He as <- <- <-.
  split; [apply Sz|]. split; [apply Sz|]. by exists d'.
Qed.
Lemma mincut_fresh b z f d b' z' r : bwf b → bdd_levels_distinct b → zwf z → repr (b_ar b) d f → noU d →
  mincut b z f = Some (b', z', Some r) →
  zwf z' ∧ ext (z_ar z) (z_ar z') ∧ ∃ d', repr (z_ar z') d' r ∧ fresh_root (length (ar_headers (z_ar z))) d'.
Proof.
  intros Hw Hl Hzw Hd Hn He. unfold mincut in He.
  destruct (bdd_dual_ok b f d Hw Hd) as (b1 & g & E1 & St & Hgd). rewrite E1 in He. cbn [mbind option_bind] in He.
  eapply (minpath_fresh b1 z g (dualt d)); try done.
  - apply St.
  - unfold bdd_levels_distinct. by rewrite (proj2 (proj2 St)).
  - apply noU_dualt; [by eapply good_ok; [apply Hw|]| |done]. eapply good_ok; [apply (bw_good _ (proj1 St))|done].
Qed.
Lemma min_eq b z f b' z' r q : bss_reachable b → bdd_levels_distinct b → zdd_reachable z →
  bdd_valid b f → bdd_determined b f → zdd_valid z q → zdd_det z q →
  (minpath b z f = Some (b', z', Some r) ∨ mincut b z f = Some (b', z', Some r)) →
  r = q ↔ (∀ S, zdd_mem z' r S ↔ zdd_mem z' q S) ∧ ∀ S, zdd_mem z' r S → S = ∅.
Proof.
  intros Hb Hl Hz Vf Df Vq Dq He. pose proof (bss_wf _ Hb) as Hw. pose proof (zreachable_wf _ Hz) as Hzw.
  destruct (valid_repr _ _ Hw Vf) as [d Hd].
  pose proof (determined_noU _ _ _ (bw_good _ Hw) Hd Df) as Hn.
  assert (Hfr : zwf z' ∧ ext (z_ar z) (z_ar z') ∧ ∃ d', repr (z_ar z') d' r ∧ fresh_root (length (ar_headers (z_ar z))) d').
  { destruct He as [He|He]; [by eapply minpath_fresh|by eapply mincut_fresh]. }
  destruct Hfr as (Hw' & Hext & d' & Hr & Hfr).
  assert (Dr : zdd_det z' r).
  { destruct He as [He|He].
    - destruct (minpath_l b z f Hb Hl Hz Vf Df) as (? & ? & ? & E & _ & H). rewrite He in E. injection E as <- <- <-. apply H.
    - destruct (mincut_l b z f Hb Hl Hz Vf Df) as (? & ? & ? & E & _ & H). rewrite He in E. injection E as <- <- <-. apply H. }
  destruct (zvalid_repr _ _ Hzw Vq) as [dq Hq]. pose proof (repr_mono _ _ _ _ Hext Hq) as Hq'.
  pose proof (zw_good _ Hzw) as G. pose proof (zw_good _ Hw') as G'.
  apply (det_zdet _ _ _ G Hq) in Dq. apply (det_zdet _ _ _ G' Hr) in Dr.
  assert (Fr : ∀ S, zdd_mem z' r S ↔ zmem S d') by (intros; by apply mem_zmem).
  assert (Fq : ∀ S, zdd_mem z' q S ↔ zmem S dq) by (intros; by apply mem_zmem).
  assert (Hleaf : ∀ e i, repr (z_ar z') e i → zdet e → (∀ S, zmem S e → S = ∅) → ∃ t, e = Leaf t).
  { intros e i Hi De HS. destruct e as [t|hd ds]; [by exists t|]. exfalso.
    destruct (ok2 _ _ (zgood_ok _ _ _ G' Hi)) as (lo & hi & -> & _).
    destruct (zred_mem_hi _ _ _ (zgood_ok _ _ _ G' Hi) (repr_zred _ _ _ G' Hi) De) as (S & _ & HS' & _).
    apply HS in HS'. set_solver. }
  split.
  - intros ->. split; [done|]. intros S. rewrite Fr. rewrite (repr_fun _ _ _ _ Hr Hq') in *.
    destruct dq as [t|hd ds].
    + unfold zmem. cbn. by destruct (decide _).
    + exfalso. destruct (zrepr_node2 _ _ _ _ G Hq) as (h & _ & _ & _ & _ & _ & _ & Hh & _).
      cbn in Hfr. rewrite (aw_hdr _ _ (zg_wf _ G) _ _ Hh) in Hfr. apply lookup_lt_Some in Hh. lia.
  - intros [Heq Hemp]. setoid_rewrite Fr in Heq. setoid_rewrite Fq in Heq. setoid_rewrite Fr in Hemp.
    destruct (Hleaf d' r Hr Dr Hemp) as [t ->]. destruct (Hleaf dq q Hq' Dq) as [t' ->].
    { intros S HS. by apply Hemp, Heq. }
    assert (t = t') as <-; [|by eapply repr_inj; [apply (zg_wf _ G')|exact Hr|exact Hq']].
    specialize (Heq ∅). specialize (Dr ∅). specialize (Dq ∅). unfold zmem in Heq. cbn in Heq, Dr, Dq.
    rewrite !decide_True in Heq, Dr, Dq by done. destruct t, t'; naive_solver.
Qed.
