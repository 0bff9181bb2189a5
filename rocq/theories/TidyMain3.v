(** Proof of the property that operations leave no garbage: the combined manager. *)
From stdpp Require Import strings.
From Verif Require Import Prelude ComputeCache Arena Trees ArenaProofs ArenaMore Bdd Mdd MtMdd MtMdd2 SpecBdd SpecMdd SpecTidy Tidy.
From Verif Require Import NaryProofs MddProofs MtProofs MmProofs MddMain MmMain MddTidy MmTidy TidyMain TidyMain2.

Section mm.
Context (I : vint).
Notation bar m := (d_ar (mm_b m)).
Notation var m := (t_ar (mm_v m)).
(** what each direct call does, forest by forest *)
Definition mmtidy (m m' : mm) (r : mnode) : Prop :=
  match r with
  | NBool f => tidy (bar m) (bar m') f ∧ var m' = var m
  | NVal f => tidy (var m) (var m') f ∧ bar m' = bar m
  end.
Lemma mmtidy_refl m r : mmtidy m m r.
Proof. destruct r; split; try done; apply tidy_refl. Qed.
Lemma on_b_tidy m x m' r : (∀ b y, x = Some (b, y) → tidy (bar m) (d_ar b) y) → on_b m x = Some (m', r) → mmtidy m m' r.
Proof. intros Hx. destruct x as [[b y]|]; [|done]. cbn. intros [= <- <-]. split; [by apply Hx|done]. Qed.
Lemma on_v_tidy m x m' r : (∀ b y, x = Some (b, y) → tidy (var m) (t_ar b) y) → on_v m x = Some (m', r) → mmtidy m m' r.
Proof. intros Hx. destruct x as [[b y]|]; [|done]. cbn. intros [= <- <-]. split; [by apply Hx|done]. Qed.
Lemma mm_tidy m c m' r : mmwf I m → mm_legal m c → mm_result I m c = Some (m', r) →
  mmtidy m m' r ∧ mmstep I m m' ∧ mm_valid m' r.
Proof.
  intros Hw Hl He. pose proof (mmw_b _ _ Hw) as Hwb. pose proof (mmw_v _ _ Hw) as Hwv.
  pose proof (mw_good _ Hwb) as Hgb. pose proof (tw_good _ _ Hwv) as Hgv. pose proof (mg_wf _ Hgb) as Ab. pose proof (tg_wf _ _ Hgv) as Av.
  assert (Hfb : ∀ id d, repr (bar m) d id → rank d < ar_fuel (bar m)) by (intros; by eapply a_fuel_enough).
  assert (Hfv : ∀ id d, repr (var m) d id → rank d < ar_fuel (var m)) by (intros; by eapply a_fuel_enough).
  pose proof (mm_fuel I m Hw) as Hfu.
  assert (Hcmp : ∀ o f g, node_valid (var m) f → node_valid (var m) g → as_bool (mm_cmp_f o (ar_fuel (var m)) m f g) = Some (m', r) →
    mmtidy m m' r ∧ mmstep I m m' ∧ mm_valid m' r).
  { intros o f g Vf Vg Hx. destruct (nvalid_repr _ _ _ Av Vf) as [df Hf]. destruct (nvalid_repr _ _ _ Av Vg) as [dg Hg].
    pose proof (Hfv _ _ Hf). pose proof (Hfv _ _ Hg). pose proof (cmp_tidy I o (ar_fuel (var m)) m f g df dg Hw Hf Hg ltac:(lia)) as Ht.
    destruct (mm_cmp_ok I o m f g df dg Hw Hf Hg) as (m1 & x & dr & Heq & Hst & Hr & _). pose proof (cmp_keep _ _ _ _ _ _ _ Heq) as Hk.
    rewrite Heq in Hx. injection Hx as <- <-. sp; [split; [by apply Ht|by rewrite Hk]|done|by eapply repr_live]. }
  assert (Hu : mm_valid m (NBool mdd_undet)) by (eapply repr_live; apply Hgb).
  assert (Huv : mm_valid m (NVal mt_undet)) by (eapply repr_live; apply Hgv).
  assert (Hself : ∀ x, mm_valid m x → Some (m, x) = Some (m', r) → mmtidy m m' r ∧ mmstep I m m' ∧ mm_valid m' r).
  { intros x Vx [= <- <-]. sp; [apply mmtidy_refl|by apply mmstep_refl|done]. }
  destruct c as [l s e|z|h xs|f|o f g|o f g|c f g|f g h|f g|roots|]; cbn [mm_result mm_legal] in *; try done.
  - destruct (mm_value_l I m z Hw) as (m1 & x & Heq & Hst & Hv & _). injection He as He. rewrite Heq in He. injection He as <- <-.
    sp; try done. unfold mm_value in Heq. destruct (mt_value (mm_v m) z) as [v y] eqn:E. injection Heq as <- <-.
    split; [by eapply mt_value_tidy|done].
  - destruct (mm_create_node_l I m h xs Hw Hl) as (hd & m1 & x & _ & Heq & Hst & Hv & _). rewrite Heq in He. injection He as <- <-. sp; try done.
    destruct Hl as [[Hk Hf]|[Hk Hf]].
    + pose proof (fits_nonempty _ _ _ (tg_hc _ _ Hgv) Hf) as Hne. pose proof (fits_tidy _ _ _ Av (tg_hc _ _ Hgv) Hf) as Ht.
      unfold mm_create_node in Heq. destruct xs as [|y xs]; [done|]. apply Forall_cons in Hk as [[f ->] _]. unfold mt_create_node in Heq.
      destruct (all_same _) as [w|]; [injection Heq as <- <-; by split|].
      destruct (ar_hashcons _ _ _) as [a' id]. injection Heq as <- <-. split; [by apply Ht|done].
    + pose proof (fits_nonempty _ _ _ (mg_hc _ Hgb) Hf) as Hne. pose proof (fits_tidy _ _ _ Ab (mg_hc _ Hgb) Hf) as Ht.
      unfold mm_create_node in Heq. destruct xs as [|y xs]; [done|]. apply Forall_cons in Hk as [[f ->] _]. unfold mdd_create_node in Heq.
      destruct (all_same _) as [w|]; [injection Heq as <- <-; by split|].
      destruct (ar_hashcons _ _ _) as [a' id]. injection Heq as <- <-. split; [by apply Ht|done].
  - destruct (mm_not_l I m f Hw Hl) as (m1 & x & Heq & Hst & Hv & _). rewrite Heq in He. injection He as <- <-. sp; try done.
    destruct f as [f|f]; cbn [mm_not] in Heq; [injection Heq as <- <-; apply mmtidy_refl|].
    eapply on_b_tidy; [|exact Heq]. intros b y Hb. cbn in Hl. destruct (nvalid_repr _ _ _ Ab Hl) as [d Hf].
    exact (mnot_tidy _ (mm_b m) f d Hwb Hf (Hfb _ _ Hf) b y Hb).
  - destruct Hl as [Vf Vg]. destruct (mm_gate_l I o m f g Hw Vf Vg) as (m1 & x & Heq & Hst & Hv & _). rewrite Heq in He. injection He as <- <-. sp; try done.
    assert (Hp : ∃ p, mm_gate o = mm_logic p ∧ p ≠ MNot) by (destruct o; eexists; split; try done; done). destruct Hp as (p & Hp & Hne).
    rewrite Hp in Heq. destruct f as [f|f]; [by injection Heq as <- <-; apply mmtidy_refl|]. destruct g as [g|g]; [by injection Heq as <- <-; apply mmtidy_refl|].
    cbn [mm_logic] in Heq. eapply on_b_tidy; [|exact Heq]. intros b y Hb. cbn in Vf, Vg.
    destruct (nvalid_repr _ _ _ Ab Vf) as [df Hf]. destruct (nvalid_repr _ _ _ Ab Vg) as [dg Hg]. pose proof (Hfb _ _ Hf). pose proof (Hfb _ _ Hg).
    exact (mbin_tidy p Hne (ar_fuel (bar m)) (mm_b m) f g df dg Hwb Hf Hg ltac:(lia) b y Hb).
  - destruct Hl as [Vf Vg]. pose proof (mm_arith_l I o m f g Hw Vf Vg) as Ha. rewrite He in Ha. destruct Ha as (Hst & Hv & _). sp; try done.
    destruct f as [f|f]; [|by injection He as <- <-; apply mmtidy_refl]. destruct g as [g|g]; [|by injection He as <- <-; apply mmtidy_refl].
    cbn [mm_arith] in He. eapply on_v_tidy; [|exact He]. intros b y Hb. cbn in Vf, Vg.
    destruct (nvalid_repr _ _ _ Av Vf) as [df Hf]. destruct (nvalid_repr _ _ _ Av Vg) as [dg Hg]. pose proof (Hfv _ _ Hf). pose proof (Hfv _ _ Hg).
    exact (tbin_tidy I o (ar_fuel (var m)) (mm_v m) f g df dg Hwv Hf Hg ltac:(lia) b y Hb).
  - destruct Hl as [Vf Vg]. destruct c; try done.
    + destruct f as [f|f]; [|done]. destruct g as [g|g]; [|done]. exact (Hcmp CEq f g Vf Vg He).
    + destruct f as [f|f]; [done|]. destruct g as [g|g]; [done|]. cbn [mm_cmp mm_neq] in He.
      destruct (mm_gate_l I GXor m (NBool f) (NBool g) Hw Vf Vg) as (m1 & x & Heq & Hst & Hv & _). cbn [mm_gate] in Heq.
      assert (He' : mm_xor m (NBool f) (NBool g) = Some (m', r)) by exact He. rewrite Heq in He'. injection He' as -> ->. sp; try done.
      eapply on_b_tidy; [|exact He]. intros b y Hb. cbn in Vf, Vg.
      destruct (nvalid_repr _ _ _ Ab Vf) as [df Hf]. destruct (nvalid_repr _ _ _ Ab Vg) as [dg Hg]. pose proof (Hfb _ _ Hf). pose proof (Hfb _ _ Hg).
      exact (mbin_tidy MXOr ltac:(done) (ar_fuel (bar m)) (mm_b m) f g df dg Hwb Hf Hg ltac:(lia) b y Hb).
    + cbn [mm_cmp] in He. destruct f as [f|f]; [|exact (Hself _ Hu He)]. destruct g as [g|g]; [|exact (Hself _ Hu He)]. exact (Hcmp CLt f g Vf Vg He).
    + cbn [mm_cmp] in He. destruct f as [f|f]; [|exact (Hself _ Hu He)]. destruct g as [g|g]; [|exact (Hself _ Hu He)]. exact (Hcmp CLt g f Vg Vf He).
  - destruct Hl as (Vf & Vg & Vh & Hk). destruct g as [g|g], h as [h|h]; try done; destruct f as [f|f]; try (first [exact (Hself _ Hu He)|exact (Hself _ Huv He)]).
    + destruct (mm_vite_l I m f g h Hw Vf Vg Vh) as (m1 & x & Heq & Hst & Hv & _). rewrite Heq in He. injection He as <- <-. sp; try done.
      cbn [mm_ite] in Heq. cbn in Vf, Vg, Vh. destruct (nvalid_repr _ _ _ Ab Vf) as [df Hf]. destruct (nvalid_repr _ _ _ Av Vg) as [dg Hg].
      destruct (nvalid_repr _ _ _ Av Vh) as [dh Hh]. pose proof (Hfb _ _ Hf). pose proof (Hfv _ _ Hg). pose proof (Hfv _ _ Hh).
      pose proof (vite_tidy I (ar_fuel (bar m)) m f g h df dg dh Hw Hf Hg Hh ltac:(lia)) as Ht. unfold mm_vite_op in Heq.
      destruct (mm_vite_f (ar_fuel (bar m)) m f g h) as [[m2 y]|] eqn:E; [|done]. injection Heq as <- <-.
      split; [exact (Ht _ _ eq_refl)|]. by rewrite (vite_keep _ _ _ _ _ _ _ E).
    + destruct (mm_bite_l I m f g h Hw Vf Vg Vh) as (m1 & x & Heq & Hst & Hv & _). rewrite Heq in He. injection He as <- <-. sp; try done.
      cbn [mm_ite] in Heq. cbn in Vf, Vg, Vh. destruct (nvalid_repr _ _ _ Ab Vf) as [df Hf]. destruct (nvalid_repr _ _ _ Ab Vg) as [dg Hg].
      destruct (nvalid_repr _ _ _ Ab Vh) as [dh Hh]. pose proof (Hfb _ _ Hf). pose proof (Hfb _ _ Hg). pose proof (Hfb _ _ Hh).
      eapply on_b_tidy; [|exact Heq]. intros b y Hb. exact (mite_tidy (ar_fuel (bar m)) (mm_b m) f g h df dg dh Hwb Hf Hg Hh ltac:(lia) b y Hb).
  - destruct Hl as [Vf Vg]. destruct (mm_vif_l I m f g Hw Vf Vg) as (m1 & x & Heq & Hst & Hv & _). rewrite Heq in He. injection He as <- <-. sp; try done.
    destruct (nvalid_repr _ _ _ Ab Vf) as [df Hf]. destruct (nvalid_repr _ _ _ Av Vg) as [dg Hg]. pose proof (Hfb _ _ Hf). pose proof (Hfv _ _ Hg).
    pose proof (vif_tidy I (ar_fuel (bar m)) m f g df dg Hw Hf Hg ltac:(lia)) as Ht. unfold mm_vif in Heq. split; [by apply Ht|].
    by rewrite (vif_keep _ _ _ _ _ _ Heq).
Qed.
Lemma mmtidy_adds m m' r : mmtidy m m' r → mm_only_adds m m' r.
Proof.
  destruct r as [f|f]; intros [Ht Ho] [g|g] Hv; cbn in Hv |- *; try (left; by rewrite Ho in Hv); by apply (tidy_adds _ _ _ Ht).
Qed.
Lemma omap_length {A B} (p : A → option B) l : length (omap p l) ≤ length l.
Proof. induction l as [|x l IH]; [done|]. cbn. destruct (p x); cbn; lia. Qed.
Lemma mmtidy_grows m m' r : mmwf I m → mmwf I m' → mmtidy m m' r → mm_grows_by_result m m' r.
Proof.
  intros Hw Hw' Ht l Hl. unfold mm_live_node_count, mdd_live_node_count, mt_live_node_count. destruct r as [f|f]; destruct Ht as [Ht Ho]; rewrite Ho.
  - pose proof (tidy_grows Rn _ _ _ (wv I _ Hw) (wv I _ Hw') Ht (vroots l)) as Hg. pose proof (omap_length (λ r, match r with NVal f => Some f | _ => None end) l).
    unfold vroots in Hg at 2. specialize (Hg ltac:(intros id Hid; by apply in_vroots, Hl)). lia.
  - pose proof (tidy_grows Rn _ _ _ (wb I _ Hw) (wb I _ Hw') Ht (broots l)) as Hg. pose proof (omap_length (λ r, match r with NBool f => Some f | _ => None end) l).
    unfold broots in Hg at 2. specialize (Hg ltac:(intros id Hid; by apply in_broots, Hl)). lia.
Qed.
Lemma mm_no_garbage m c m' r : mmwf I m → mm_legal m c → mm_result I m c = Some (m', r) →
  mm_only_adds m m' r ∧ mm_grows_by_result m m' r.
Proof.
  intros Hw Hl He. destruct (mm_tidy m c m' r Hw Hl He) as (Ht & Hst & _). split; [by apply mmtidy_adds|]. apply mmtidy_grows; try done. apply Hst.
Qed.
Lemma mm_nothing_to_collect m c m' r roots : mmwf I m → mm_legal m c → mm_result I m c = Some (m', r) →
  Forall (mm_valid m) roots → mm_all_needed m roots →
  ∃ m'' n, mm_gc m' (r :: roots) = Some (m'', n) ∧ ∀ x, mm_valid m'' x ↔ mm_valid m' x.
Proof.
  intros Hw Hl He Hr Hn. destruct (mm_tidy m c m' r Hw Hl He) as (Ht & Hst & Vr).
  pose proof (mmtidy_adds _ _ _ Ht) as Ha. pose proof Hst as (Hw' & Eb & Ev & _).
  assert (Hr' : Forall (mm_valid m') (r :: roots)).
  { apply Forall_cons. split; [done|]. eapply Forall_impl; [exact Hr|]. intros x Hx. by eapply (mext_valid I); [apply mmstep_mext|]. }
  destruct (mm_gc_l I m' (r :: roots) Hw' Hr') as (m'' & nv & nb & Hg & _ & _ & Hv & _). exists m'', (nv, nb). split; [done|].
  rewrite Forall_forall in Hr, Hr'. intros x. rewrite Hv. split.
  - intros [Hx|Hx].
    + pose proof (mw_good _ (mmw_b _ _ Hw')) as Hgb. pose proof (tw_good _ _ (mmw_v _ _ Hw')) as Hgv.
      rewrite !elem_of_cons, elem_of_nil in Hx. destruct Hx as [->|[->|[->|[->|[]]]]]; cbn; eapply repr_live; first [apply Hgb|apply Hgv].
    + destruct x as [f|f]; cbn in Hx |- *; apply nreaches_reach in Hx; (eapply (reach_live Rn); [| |exact Hx]).
      * by apply (wv I).
      * intros y Hy. by apply (Hr' (NVal y)), in_vroots.
      * by apply (wb I).
      * intros y Hy. by apply (Hr' (NBool y)), in_broots.
  - intros Hx. destruct (Ha x Hx) as [Hx'|Hre].
    + destruct (Hn x Hx') as [?|Hre]; [by left|right]. destruct x as [f|f]; cbn [mm_reaches] in Hre |- *; apply nreaches_reach in Hre; apply nreaches_reach.
      * clear -Hre Hw Ev Hr r. assert (Hsub : ∀ y, y ∈ vroots roots → y ∈ vroots (r :: roots)) by (intros y Hy; apply in_vroots; apply in_vroots in Hy; by right).
        induction Hre as [y Hy|y h cs k Hre IH Hnd Hc]; [constructor; by apply Hsub|].
        assert (live (var m) y) as Hly. { eapply (reach_live Rn); [by apply (wv I)| |exact Hre]. intros z Hz. by apply (Hr (NVal z)), in_vroots. }
        destruct Ev as [_ Ev]. destruct (Ev y _ Hly Hnd) as [_ Hnd']. by eapply reach_step.
      * clear -Hre Hw Eb Hr r. assert (Hsub : ∀ y, y ∈ broots roots → y ∈ broots (r :: roots)) by (intros y Hy; apply in_broots; apply in_broots in Hy; by right).
        induction Hre as [y Hy|y h cs k Hre IH Hnd Hc]; [constructor; by apply Hsub|].
        assert (live (bar m) y) as Hly. { eapply (reach_live Rn); [by apply (wb I)| |exact Hre]. intros z Hz. by apply (Hr (NBool z)), in_broots. }
        destruct Eb as [_ Eb]. destruct (Eb y _ Hly Hnd) as [_ Hnd']. by eapply reach_step.
    + right. destruct x as [f|f]; cbn [mm_reaches] in Hre |- *; apply nreaches_reach in Hre; apply nreaches_reach.
      * clear -Hre. induction Hre as [y Hy|y h cs k Hre IH Hnd Hc]; [|by eapply reach_step]. constructor. apply in_vroots. apply in_vroots in Hy.
        apply elem_of_list_singleton in Hy as ->. by left.
      * clear -Hre. induction Hre as [y Hy|y h cs k Hre IH Hnd Hc]; [|by eapply reach_step]. constructor. apply in_broots. apply in_broots in Hy.
        apply elem_of_list_singleton in Hy as ->. by left.
Qed.
End mm.
