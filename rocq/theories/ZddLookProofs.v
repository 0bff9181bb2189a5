(** Inspection of a ZddNode: proofs. *)
From stdpp Require Import strings.
From Verif Require Import Prelude ComputeCache Arena Trees ArenaProofs Bdd BddProofs SpecBdd BssAlg BssMgr SpecBssMgr BssMgrProofs
  Zdd ZddTrees ZddProofs SpecZdd ZddMain ZddAlg ZddCount ZddConv ZddMgr SpecZddMgr ZddMgrProofs BssJoint ZddMgrMain ZddLook SpecZddLook.

Lemma ok_place_inj w x y l k : nmok (y_zdd w) → place w x l → place w y k → x = y ↔ l = k.
Proof. intros Hn (hd & H1 & <- & <-) (hd' & H2 & <- & <-). symmetry. by apply Hn. Qed.

Section ok.
Context (w : zmgr) (f : nat) (F : fam).
Context (Hre : zdd_reachable (y_zdd w)) (Hn : nmok (y_zdd w)) (Hs : stands_for (y_zdd w) f F).

Lemma ok_cases :
  (trivial_fam F ∧ ∃ t, ar_nodes (z_ar (y_zdd w)) !! f = Some (Term t)) ∨
  ∃ h hd f0 f1, ar_nodes (z_ar (y_zdd w)) !! f = Some (NT h [f0; f1]) ∧ zhd (y_zdd w) !! h = Some hd ∧
    top_elem w F (h_level hd) (h_label hd).
Proof using All.
  pose proof (zreachable_wf _ Hre) as Hw. pose proof (zw_good _ Hw) as Hg.
  pose proof Hs as (_ & _ & Hs2).
  apply stands_iff in Hs as [(Vf & Df & Mf) Wf]; [|done].
  destruct (zvalid_repr _ _ Hw Vf) as [d Hd]. pose proof (zgood_ok _ _ _ Hg Hd) as Ho. pose proof (repr_zred _ _ _ Hg Hd) as Hz.
  pose proof (proj1 (det_zdet _ _ _ Hg Hd) Df) as Dd.
  destruct d as [t|hd ds].
  - left. apply repr_leaf in Hd as [_ Hx]. split; [|by exists t]. intros S HS%Hs2. inversion HS; congruence.
  - right. destruct (zrepr_node2 _ _ _ _ Hg Hd) as (h & f0 & f1 & dlo & dhi & -> & Hx & Hh & _).
    exists h, hd, f0, f1. split; [done|]. split; [done|].
    assert (Hin : hd ∈ zhd (y_zdd w)) by (by eapply elem_of_list_lookup_2).
    split; [by exists hd|]. split.
    + destruct (zred_mem_hi _ _ _ Ho Hz Dd) as (A & HA & Hm & _).
      assert (Hm' : zdd_mem (y_zdd w) f ({[h_level hd]} ∪ A)) by (by rewrite (mem_zmem _ _ _ _ Hg Hd)).
      pose proof (has_lvls _ _ _ _ Hm') as HL. exists (nms (y_zdd w) ({[h_level hd]} ∪ A)). split; [by apply Mf|].
      apply nms_mem; [done|done|done|set_solver].
    + intros l' y (hd' & Hin' & <- & <-) (S & HS & Hy). destruct (Wf _ HS) as (A & HA & ->).
      apply nms_mem in Hy; [|done..]. apply Mf in HS; [|done]. rewrite (mem_zmem _ _ _ _ Hg Hd) in HS.
      pose proof (zmem_bound A _ (Datatypes.S (h_level hd)) _ Ho ltac:(cbn; lia) HS Hy). lia.
Qed.
Lemma ok_placed x : member_of_some F x → ∃ l, place w x l.
Proof using Hn Hs.
  intros (S & HS & Hx). apply stands_iff in Hs as [_ Wf]; [|done]. destruct (Wf _ HS) as (A & HA & ->).
  apply elem_of_map in Hx as (l & -> & Hl). destruct (HA _ Hl) as (hd & Hin & <-). exists (h_level hd), hd.
  split; [done|]. by rewrite nm_spec.
Qed.
Lemma ok_top :
  (∀ l, y_level w f = Some l ↔ ∃ x, top_elem w F l x) ∧
  (∀ x, y_label w f = Some x ↔ ∃ l, top_elem w F l x) ∧
  (y_level w f = None ↔ trivial_fam F) ∧ (y_label w f = None ↔ trivial_fam F) ∧ (y_hid w f = None ↔ trivial_fam F).
Proof using All.
  destruct ok_cases as [[Ht [t Hx]]|(h & hd & f0 & f1 & Hx & Hh & Hp)].
  - assert (HN : ∀ l x, ¬ top_elem w F l x). { intros l x (_ & (S & HS & Hin) & _). apply Ht in HS. set_solver. }
    unfold y_level, y_label, y_hid. rewrite Hx. cbn [mbind option_bind]. sp; try done.
    + intros l. split; [done|]. intros [x Hl]. by apply HN in Hl.
    + intros x. split; [done|]. intros [l Hl]. by apply HN in Hl.
  - assert (HN : ¬ trivial_fam F). { intros Ht. destruct Hp as (_ & (S & HS & Hin) & _). apply Ht in HS. set_solver. }
    assert (HU : ∀ l x, top_elem w F l x → l = h_level hd ∧ x = h_label hd).
    { intros l x (P1 & M1 & B1). destruct Hp as (P2 & M2 & B2).
      assert (l = h_level hd) as E by (pose proof (B1 _ _ P2 M2); pose proof (B2 _ _ P1 M1); lia).
      split; [done|]. by apply (ok_place_inj w _ _ _ _ Hn P1 P2). }
    unfold y_level, y_label, y_hid. rewrite Hx. cbn [mbind option_bind]. rewrite Hh. cbn [mbind option_bind]. sp; try done.
    + intros l. split; [intros [= <-]; by eexists|]. intros [x [-> _]%HU]. done.
    + intros x. split; [intros [= <-]; by eexists|]. intros [l [_ ->]%HU]. done.
Qed.
End ok.

Section use.
Context (w : zmgr) (H : zholds) (Hu : zdd_in_use w H).
Lemma in_use_top f F : (f, Some F) ∈ H →
  (∀ l, y_level w f = Some l ↔ ∃ x, top_elem w F l x) ∧
  (∀ x, y_label w f = Some x ↔ ∃ l, top_elem w F l x) ∧
  (y_level w f = None ↔ trivial_fam F) ∧ (y_label w f = None ↔ trivial_fam F) ∧ (y_hid w f = None ↔ trivial_fam F).
Proof using Hu.
  intros Hf. pose proof (in_use_ok _ _ Hu) as Hk.
  apply ok_top; [apply Hk|apply Hk|by eapply in_use_stands].
Qed.
Lemma in_use_place f F x : (f, Some F) ∈ H → member_of_some F x → ∃ l, place w x l.
Proof using Hu.
  intros Hf. pose proof (in_use_ok _ _ Hu) as Hk. eapply ok_placed; [apply Hk|by eapply in_use_stands].
Qed.
Lemma in_use_place_inj x y l k : place w x l → place w y k → x = y ↔ l = k.
Proof using Hu. pose proof (in_use_ok _ _ Hu) as Hk. apply ok_place_inj, Hk. Qed.
Lemma in_use_step w' H' : y_step w H w' H' → zdd_in_use w' H'.
Proof using Hu.
  intros Hy. destruct Hu as [Hh|(s & HB & Hj & ->)]; [left; by eapply zm_step|]. right.
  exists (BssM (s_bdd s) w'), HB. split; [by eapply jm_zdd|done].
Qed.
Lemma in_use_children f F : (f, Some F) ∈ H →
  (trivial_fam F → y_children w f = Some (w, None)) ∧
  ∀ x, y_label w f = Some x → ∃ w' f0 f1, y_children w f = Some (w', Some (f0, f1)) ∧ (∃ S, within x F S) ∧
    zdd_in_use w' ((f0, Some (without x F)) :: (f1, Some (within x F)) :: H).
Proof using Hu.
  intros Hf. pose proof (in_use_ok _ _ Hu) as Hk. pose proof (in_use_top f F Hf) as (_ & Ht & _ & Hl & _). split.
  - intros HT. destruct (ok_cases w f F) as [[_ [t Hx]]|(h & hd & f0 & f1 & Hx & Hh & Hp)]; [apply Hk|apply Hk|by eapply in_use_stands| |].
    + unfold y_children. by rewrite Hx.
    + destruct Hp as (_ & (S & HS & Hin) & _). apply HT in HS. set_solver.
  - intros x Hx. pose proof (proj1 (Ht x) Hx) as [l (_ & (S & HS & Hin) & _)].
    destruct (ok_cases w f F) as [[_ [t Hy]]|(h & hd & f0 & f1 & Hy & Hh & Hp)]; [apply Hk|apply Hk|by eapply in_use_stands| |].
    { unfold y_label in Hx. by rewrite Hy in Hx. }
    assert (E : y_children w f = Some (y_pin (y_pin w f0) f1, Some (f0, f1))) by (unfold y_children; by rewrite Hy).
    exists (y_pin (y_pin w f0) f1), f0, f1. split; [done|]. split.
    + exists (S ∖ {[x]}). split; [set_solver|]. by rewrite <- union_difference_singleton_L.
    + eapply in_use_step. exact (ys_children w H f (Some F) x _ f0 f1 Hf Hx E).
Qed.
Lemma in_use_size f F ln lt : (f, F) ∈ H →
  NoDup ln → (∀ id, id ∈ ln ↔ zdd_reaches (y_zdd w) [f] id ∧ ∃ h cs, ar_nodes (z_ar (y_zdd w)) !! id = Some (NT h cs)) →
  NoDup lt → (∀ id, id ∈ lt ↔ zdd_reaches (y_zdd w) [f] id ∧ ∃ t, ar_nodes (z_ar (y_zdd w)) !! id = Some (Term t)) →
  y_size w f = Some (N.of_nat (length ln), N.of_nat (length lt), (2 * N.of_nat (length ln))%N).
Proof using Hu.
  intros Hf. pose proof (in_use_ok _ _ Hu) as Hk. apply zsize_l; [by eapply zk_wf|]. apply (zk_valid _ _ Hk).
  apply elem_of_list_fmap. by exists (f, F).
Qed.
End use.

(** rebuilding a family from its two parts *)
Lemma held_rebuild w H f F x w1 f0 f1 : zdd_held w H → (f, Some F) ∈ H → y_label w f = Some x →
  y_children w f = Some (w1, Some (f0, f1)) →
  ∃ w2 s w3 p w4, y_singleton w1 x = Some (w2, s) ∧ y_op ZProduct w2 s f1 = Some (w3, p) ∧ y_op ZUnion w3 f0 p = Some (w4, f).
Proof.
  intros Hh Hf Hx Hc. pose proof (zm_step _ _ _ _ Hh (ys_children w H f (Some F) x w1 f0 f1 Hf Hx Hc)) as H1. cbn [fmap option_fmap option_map] in H1.
  destruct (proj1 (held_makes _ _ H1) x) as [[w2 s] E2]. pose proof (zm_singleton _ _ _ _ _ H1 E2) as H2.
  destruct (in_use_op ZProduct w2 _ s f1 _ _ _ (or_introl H2) ltac:(by left) ltac:(by right; right; left) (zg_product _ _)) as [[w3 p] E3].
  pose proof (zm_step _ _ _ _ H2 (ys_op _ _ _ _ _ _ _ _ _ _ ltac:(by left) ltac:(by right; right; left) (zg_product _ _) E3)) as H3.
  destruct (in_use_op ZUnion w3 _ f0 p _ _ _ (or_introl H3) ltac:(by right; right; left) ltac:(by left) (zg_union _ _)) as [[w4 g] E4].
  pose proof (zm_step _ _ _ _ H3 (ys_op _ _ _ _ _ _ _ _ _ _ ltac:(by right; right; left) ltac:(by left) (zg_union _ _) E4)) as H4.
  assert (f = g) as ->; [|by eauto 10].
  apply (proj2 (held_zeq w4 _ f F g _ H4 ltac:(do 5 right; done) ltac:(by left))). intros S. unfold without, within. split.
  - intros HS. destruct (decide (x ∈ S)) as [Hin|Hin]; [right|by left]. exists {[x]}, (S ∖ {[x]}).
    rewrite <- union_difference_singleton_L by done. split; [done|]. split; [done|]. split; [set_solver|done].
  - intros [[_ HS]|(A & B & -> & -> & _ & HS)]; done.
Qed.

(** the order is the order of first use *)
Lemma singleton_headers w H x w' r : @zok base0 w H → zsolo w → y_singleton w x = Some (w', r) →
  (is_Some (y_vars w !! x) ∧ zhd (y_zdd w') = zhd (y_zdd w)) ∨
  (y_vars w !! x = None ∧ ∃ hd, zhd (y_zdd w') = zhd (y_zdd w) ++ [hd] ∧ h_label hd = x ∧ h_level hd = length (zhd (y_zdd w))).
Proof.
  intros Hk Hs. assert (y_singleton w x = let '(w, h) := y_header w x in y_wrapped w (Some (zdd_create_node (y_zdd w) h zdd_zero zdd_one))) as -> by done.
  destruct (y_header_ok w H x Hk Hs) as (w1 & h & hd & E1 & Hk1 & Hs1 & Hh & Hx). rewrite E1. intros E.
  assert (zhd (y_zdd w') = zhd (y_zdd w1)) as ->.
  { pose proof (zk_wf _ _ Hk1) as Hw. pose proof (zw_good _ Hw) as Hg.
    destruct (zcreate_node_spec (y_zdd w1) h hd zdd_zero zdd_one (Leaf TZero) (Leaf TOne)) as (m' & r' & dr & Heq & Hst & Hr & Hd);
      [done|done|apply Hg|apply Hg|cbn; lia|cbn; lia|].
    rewrite Heq in E. unfold y_wrapped in E. cbn [mbind option_bind] in E.
    assert (Hre : zdd_reachable m').
    { eapply (zreachable_step _ (ZNode h zdd_zero zdd_one)); [apply Hk1| |cbn [zdd_exec]; by rewrite Heq].
      cbn. rewrite Hh. destruct (zvalid_consts _ Hw). pose proof (zg_zero _ Hg) as R0. pose proof (zg_one _ Hg) as R1.
      sp; try done; (eapply zbelow_of_rank; [done|cbn; lia]). }
    pose proof (zok_step _ _ _ Hk1 Hre Hst) as Hk2.
    destruct (zok_wrap (with_zdd w1 m') H r' None Hk2) as (w2 & E2 & _ & Hh2 & _).
    { split; [by eapply zvalid_of_repr|]. by intros F' [=]. }
    rewrite E2 in E. injection E as <- <-. rewrite Hh2. apply Hst. }
  unfold y_header in E1. destruct (y_vars w !! x) as [h0|] eqn:Hv.
  - left. by injection E1 as <- <-.
  - right. split; [done|]. destruct (zdd_create_header (y_zdd w) (size (y_vars w)) x) as [z h1] eqn:E2.
    destruct (zcreate_header_ok _ _ _ _ _ (zk_wf _ _ Hk) E2) as (Hw' & He & -> & Hhd & _ & _).
    injection E1 as <- <-. cbn [y_zdd]. eexists. split; [exact Hhd|]. split; [done|]. cbn. apply (zs_size _ Hs).
Qed.
Lemma held_order w H x w' r : zdd_held w H → y_singleton w x = Some (w', r) →
  ∃ l, place w' x l ∧ y_level w' r = Some l ∧ y_label w' r = Some x ∧
    (∀ y k, place w y k → place w' y k) ∧ (∀ y k, place w' y k → place w y k ∨ y = x) ∧
    (place w x l ∨ (∀ k, ¬ place w x k) ∧ ∀ y k, place w y k → k < l).
Proof.
  intros Hh E. pose proof (zm_singleton _ _ _ _ _ Hh E) as Hh'. destruct (zdd_held_ok _ _ Hh) as [Hk Hs].
  destruct (in_use_top w' _ (or_introl Hh') r _ ltac:(by left)) as (HL & HT & _).
  assert (Hlv : ∀ l, place w' x l → y_level w' r = Some l ∧ y_label w' r = Some x).
  { intros l Hp. assert (top_elem w' (λ S, S = {[x]}) l x) as Ht.
    { split; [done|]. split; [exists {[x]}; split; [done|set_solver]|]. intros l' y Hy (S & -> & ->%elem_of_singleton).
      assert (l = l') by (by apply (in_use_place_inj w' _ (or_introl Hh') x x l l')). lia. }
    split; [apply HL; by exists x|apply HT; by exists l]. }
  destruct (singleton_headers w H x w' r Hk Hs E) as [[[h Hv] Hhd]|(Hv & hd & Hhd & Hx & Hl)].
  - assert (Hp : ∀ y k, place w' y k ↔ place w y k) by (intros y k; unfold place; by rewrite Hhd).
    pose proof (proj1 (zs_vars _ Hs x h) Hv) as Hi. destruct (zhd (y_zdd w) !! h) as [hd|] eqn:Eh; [|done]. injection Hi as Hi.
    assert (place w x (h_level hd)) as Hpx by (exists hd; split; [by eapply elem_of_list_lookup_2|done]).
    exists (h_level hd). split; [by apply Hp|]. destruct (Hlv (h_level hd)) as [-> ->]; [by apply Hp|].
    split; [done|]. split; [done|]. split; [intros y k; apply Hp|]. split; [|by left]. intros y k Hy. left. by apply Hp.
  - exists (length (zhd (y_zdd w))). assert (place w' x (length (zhd (y_zdd w)))) as Hpx.
    { exists hd. rewrite Hhd. split; [set_solver|done]. }
    destruct (Hlv _ Hpx) as [-> ->]. split; [done|]. split; [done|]. split; [done|].
    split; [|split; [|right; split]].
    + intros y k (hd' & Hin & Hy). exists hd'. rewrite Hhd. split; [set_solver|done].
    + intros y k (hd' & Hin & Hy & Hk'). rewrite Hhd in Hin. apply elem_of_app in Hin as [Hin|Hin%elem_of_list_singleton]; [left; by exists hd'|right; congruence].
    + intros k (hd' & [i Hi]%elem_of_list_lookup & Hy & _). assert (y_vars w !! x = Some i); [|congruence].
      apply (zs_vars _ Hs). by rewrite Hi, <- Hy.
    + intros y k (hd' & [i Hi]%elem_of_list_lookup & _ & <-). rewrite (zs_lvl _ Hs _ _ Hi). by eapply lookup_lt_Some.
Qed.
