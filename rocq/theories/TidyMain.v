(** Proof of the property that operations leave no garbage. *)
From stdpp Require Import strings.
From Verif Require Import Prelude ComputeCache Arena Trees ArenaProofs ArenaMore Bdd Zdd Mdd MtMdd SpecBdd SpecZdd SpecMdd SpecTidy Tidy.
From Verif Require Import NaryProofs MddProofs MtProofs MddMain MddTidy.
From Verif Require BddProofs BddMain BddTidy ZddProofs ZddMain ZddTidy.

Section gen.
Context {T : Type} (R : list nat → Prop).
Implicit Types (a : arena T).
Lemma tidy_adds a a' r : tidy a a' r → only_adds a a' [r].
Proof. intros Ht id Hl. destruct (Ht id Hl) as [?|?]; [by left|right]. by apply nreaches_reach. Qed.
Lemma tidy_grows a a' r : awf R a → awf R a' → tidy a a' r → grows_by_result a a' r.
Proof. intros Hw Hw' Ht l Hl. eapply (tidy_count R); try done. intros x Hx. by apply Hl, nreaches_reach. Qed.
Lemma chain_refl a ns : awf R a → Forall (live a) ns → chain R a ns a.
Proof.
  intros Hw Hn. induction Hn as [|x ns Hx Hn IH]; [constructor|]. apply (chain_cons R a a); try done. apply tidy_refl.
Qed.
Lemma needed_step a a' ts roots r : awf R a → ext a a' → (∀ x, x ∈ roots → live a x) → only_adds a a' [r] → all_needed a ts roots →
  all_needed a' ts (r :: roots).
Proof.
  intros Hw He Hr Ha Hn id Hid. destruct (Ha id Hid) as [Hid'|Hre].
  - destruct (Hn id Hid') as [?|Hre]; [by left|right]. apply nreaches_reach. apply nreaches_reach in Hre.
    clear -Hre Hw He Hr. induction Hre as [x Hx|x h cs c Hre IH Hx Hc]; [constructor; by right|].
    assert (live a x) as Hl by by eapply (reach_live R). destruct He as [_ He]. destruct (He x _ Hl Hx) as [_ Hx']. by eapply reach_step.
  - right. apply nreaches_reach. apply nreaches_reach in Hre. clear -Hre. induction Hre as [x Hx|x h cs c Hre IH Hx Hc].
    + apply elem_of_list_singleton in Hx as ->. constructor. by left.
    + by eapply reach_step.
Qed.
Lemma adds_two a a1 a2 t r : awf R a1 → ext a1 a2 → live a1 t → tidy a a1 t → tidy a1 a2 r → only_adds a a2 [t; r].
Proof.
  intros Hw He Hlt T1 T2 id Hid. destruct (T2 id Hid) as [Hid1|Hre].
  - destruct (T1 id Hid1) as [?|Hre]; [by left|right]. apply nreaches_reach. eapply reach_ext in Hre; try done.
    clear -Hre. induction Hre as [x Hx|x h cs c Hre IH Hx Hc]; [|by eapply reach_step].
    apply elem_of_list_singleton in Hx as ->. constructor. by left.
  - right. apply nreaches_reach. clear -Hre. induction Hre as [x Hx|x h cs c Hre IH Hx Hc]; [|by eapply reach_step].
    apply elem_of_list_singleton in Hx as ->. constructor. right. by left.
Qed.
Lemma collect_none a a' ts roots r (V : nat → Prop) : awf R a → awf R a' → ext a a' → Forall (live a) roots → live a' r →
  Forall (live a') ts → only_adds a a' [r] → all_needed a ts roots → (∀ id, V id ↔ id ∈ ts ∨ reach a' (r :: roots) id) →
  ∀ id, V id ↔ live a' id.
Proof.
  intros Hw Hw' He Hr Hlr Hts Ha Hn HV id. rewrite HV. rewrite Forall_forall in Hr, Hts. split.
  - intros [Hid|Hid]; [by apply Hts|]. eapply (reach_live R); [exact Hw'| |exact Hid].
    intros x [->|Hx]%elem_of_cons; [done|]. destruct (live_lookup _ _ (Hr x Hx)) as [nd Hnd]. destruct He as [_ He]. by apply (He x nd (Hr x Hx)).
  - intros Hid. destruct (needed_step a a' ts roots r Hw He Hr Ha Hn id Hid) as [?|Hre]; [by left|right; by apply nreaches_reach].
Qed.
End gen.

(** ** BDD *)
Import BddProofs BddMain BddTidy.
Lemma bdd_tidy m c m' r : bwf m → bdd_legal m c → bdd_direct c → bdd_exec m c = Some (m', r) → tidy (b_ar m) (b_ar m') r.
Proof.
  intros Hw Hl Hd He.
  assert (Hfe : ∀ id d, repr (b_ar m) d id → rank d < ar_fuel (b_ar m)) by (intros; by eapply a_fuel_enough).
  destruct c as [l s|h lo hi|f|c f g|f g h|roots|]; cbn [bdd_exec bdd_legal] in *; try done.
  - destruct (ar_headers (b_ar m) !! h) as [hd|] eqn:Hh; [|done]. destruct Hl as [[Vlo Blo] [Vhi Bhi]].
    destruct (valid_repr _ _ Hw Vlo) as [dlo Hlo]. destruct (valid_repr _ _ Hw Vhi) as [dhi Hhi]. injection He as He.
    pose proof (below_rank _ _ _ _ Hw Hlo Blo). pose proof (below_rank _ _ _ _ Hw Hhi Bhi).
    apply (create_tidy m m m h hd lo hi dlo dhi m' r); try done; apply tidy_refl.
  - destruct (valid_repr _ _ Hw Hl) as [d Hf]. exact (not_tidy _ m f d Hw Hf (Hfe _ _ Hf) m' r He).
  - destruct Hl as [Vf Vg]. destruct (valid_repr _ _ Hw Vf) as [df Hf]. destruct (valid_repr _ _ Hw Vg) as [dg Hg].
    pose proof (Hfe _ _ Hf). pose proof (Hfe _ _ Hg).
    assert (rank df `max` rank dg < ar_fuel (b_ar m)) by lia.
    destruct c; try done; cbn [bdd_conn] in He.
    + exact (and_tidy _ m f g df dg Hw Hf Hg ltac:(done) m' r He).
    + exact (or_tidy _ m f g df dg Hw Hf Hg ltac:(done) m' r He).
    + exact (xor_tidy _ m f g df dg Hw Hf Hg ltac:(done) m' r He).
  - destruct Hl as (Vf & Vg & Vh). destruct (valid_repr _ _ Hw Vf) as [df Hf]. destruct (valid_repr _ _ Hw Vg) as [dg Hg].
    destruct (valid_repr _ _ Hw Vh) as [dh Hh].
    pose proof (Hfe _ _ Hf). pose proof (Hfe _ _ Hg). pose proof (Hfe _ _ Hh). exact (ite_tidy (ar_fuel (b_ar m)) m f g h df dg dh Hw Hf Hg Hh ltac:(lia) m' r He).
Qed.
Lemma bdd_direct_step m c m' r : bwf m → bdd_legal m c → bdd_direct c → bdd_exec m c = Some (m', r) → step m m' ∧ bdd_valid m' r.
Proof.
  intros Hw Hl Hd He.
  destruct c as [l s|h lo hi|f|c f g|f g h|roots|]; cbn [bdd_exec bdd_legal] in *; try done.
  - destruct (ar_headers (b_ar m) !! h) as [hd|] eqn:Hh; [|done]. destruct Hl as [[Vlo Blo] [Vhi Bhi]].
    destruct (valid_repr _ _ Hw Vlo) as [dlo Hlo]. destruct (valid_repr _ _ Hw Vhi) as [dhi Hhi].
    destruct (create_node_spec m h hd lo hi dlo dhi) as (m1 & r1 & dr & Heq & Hst & Hr & _); try done; [by eapply below_rank|by eapply below_rank|].
    rewrite Heq in He. injection He as <- <-. split; [done|by eapply repr_live].
  - destruct (valid_repr _ _ Hw Hl) as [d Hf]. destruct (not_tree m f d Hw Hf) as (m1 & r1 & dr & Heq & Hst & Hr & _).
    rewrite Heq in He. injection He as <- <-. split; [done|by eapply repr_live].
  - destruct Hl as [Vf Vg]. destruct (valid_repr _ _ Hw Vf) as [df Hf]. destruct (valid_repr _ _ Hw Vg) as [dg Hg].
    destruct (conn_tree c m f g df dg Hw Hf Hg) as (m1 & r1 & dr & Heq & Hst & Hr & _). rewrite Heq in He. injection He as <- <-. split; [done|by eapply repr_live].
  - destruct Hl as (Vf & Vg & Vh). destruct (valid_repr _ _ Hw Vf) as [df Hf]. destruct (valid_repr _ _ Hw Vg) as [dg Hg].
    destruct (valid_repr _ _ Hw Vh) as [dh Hh]. destruct (bdd_ite_ok m f g h df dg dh Hw Hf Hg Hh) as (m1 & r1 & dr & Heq & Hst & Hr & _).
    rewrite Heq in He. injection He as <- <-. split; [done|by eapply repr_live].
Qed.
Lemma bdd_no_garbage m c m' r : bdd_reachable m → bdd_legal m c → bdd_direct c → bdd_exec m c = Some (m', r) →
  only_adds (b_ar m) (b_ar m') [r] ∧ grows_by_result (b_ar m) (b_ar m') r.
Proof.
  intros Hm%reachable_wf Hl Hd He. pose proof (bdd_tidy m c m' r Hm Hl Hd He) as Ht.
  destruct (bdd_direct_step m c m' r Hm Hl Hd He) as [Hst _]. split; [by apply tidy_adds|].
  eapply (tidy_grows Rb); [apply Hm|apply Hst|done].
Qed.
Lemma bdd_nothing_to_collect m c m' r roots : bdd_reachable m → bdd_legal m c → bdd_direct c → bdd_exec m c = Some (m', r) →
  Forall (bdd_valid m) roots → all_needed (b_ar m) [bdd_zero; bdd_one; bdd_undet] roots →
  ∃ m'' n, bdd_gc m' (r :: roots) = Some (m'', n) ∧ ∀ id, bdd_valid m'' id ↔ bdd_valid m' id.
Proof.
  intros Hm Hl Hd He Hr Hn. pose proof (reachable_wf _ Hm) as Hw. destruct (bdd_direct_step m c m' r Hw Hl Hd He) as [Hst Vr].
  destruct (bdd_no_garbage m c m' r Hm Hl Hd He) as [Ha _].
  assert (Hr' : Forall (bdd_valid m') (r :: roots)).
  { apply Forall_cons. split; [done|]. eapply Forall_impl; [exact Hr|]. intros x Hx. by eapply ext_live; [apply Hst|]. }
  assert (Hm' : bdd_reachable m') by by eapply reachable_step.
  destruct (gc_exact_l m' (r :: roots) Hm' Hr') as (m'' & n & Hg & Hv & _). exists m'', n. split; [done|].
  apply (collect_none Rb (b_ar m) (b_ar m') [bdd_zero; bdd_one; bdd_undet] roots r); try done; try apply Hst; [apply Hw| |].
  - destruct Hst as ([[] _ _] & _). repeat constructor; by eapply repr_live.
  - intros id. rewrite Hv. by rewrite reaches_reach.
Qed.
Lemma bdd_derived m c f g c1 m1 t m' r : bdd_reachable m → bdd_valid m f → bdd_valid m g → derived c f g = Some c1 →
  bdd_exec m c1 = Some (m1, t) → bdd_conn c m f g = Some (m', r) → only_adds (b_ar m) (b_ar m') [t; r].
Proof.
  intros Hm Vf Vg Hc He Hx. pose proof (reachable_wf _ Hm) as Hw.
  assert (Hl : bdd_legal m c1 ∧ bdd_direct c1) by (destruct c; try done; injection Hc as <-; done). destruct Hl as [Hl Hd].
  pose proof (bdd_tidy m c1 m1 t Hw Hl Hd He) as T1. destruct (bdd_direct_step m c1 m1 t Hw Hl Hd He) as [Hst Vt].
  assert (Vg1 : bdd_valid m1 g). { destruct (live_lookup _ _ Vg) as [nd Hnd]. destruct Hst as (_ & [_ Hext] & _). by apply (Hext g nd Vg). }
  assert (H2 : ∃ c2, bdd_legal m1 c2 ∧ bdd_direct c2 ∧ bdd_exec m1 c2 = Some (m', r)).
  { destruct c; try done; injection Hc as <-; cbn [bdd_conn bdd_exec] in *; unfold bdd_imp, bdd_nand, bdd_nor, bdd_xnor in Hx; rewrite He in Hx; cbn [mbind option_bind] in Hx.
    - by exists (CConn Or t g).
    - by exists (CNot t).
    - by exists (CNot t).
    - by exists (CNot t). }
  destruct H2 as (c2 & Hl2 & Hd2 & He2). assert (Hw1 : bwf m1) by apply Hst. pose proof (bdd_tidy m1 c2 m' r Hw1 Hl2 Hd2 He2) as T2.
  destruct (bdd_direct_step m1 c2 m' r Hw1 Hl2 Hd2 He2) as [Hst2 _]. apply (adds_two Rb (b_ar m) (b_ar m1) (b_ar m')); try done; [apply Hst|apply Hst2].
Qed.
