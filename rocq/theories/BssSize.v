(** BddNode::size: proofs. *)
From Verif Require Import Prelude ComputeCache ComputeCacheProofs Arena Trees ArenaProofs ArenaMore Bdd BddProofs SpecBdd SpecBss BddMain BssAlg.

Definition is_nt (a : arena tv) (id : nat) : Prop := match ar_nodes a !! id with Some (NT _ _) => True | _ => False end.
Definition is_term (a : arena tv) (id : nat) : Prop := match ar_nodes a !! id with Some (Term _) => True | _ => False end.
Global Instance is_nt_dec a id : Decision (is_nt a id).
Proof. unfold is_nt. destruct (_ !! _) as [[]|]; apply _. Defined.
Global Instance is_term_dec a id : Decision (is_term a id).
Proof. unfold is_term. destruct (_ !! _) as [[]|]; apply _. Defined.

Definition nnt a (l : list nat) : N := N.of_nat (length (filter (is_nt a) l)).
Definition ntm a (l : list nat) : N := N.of_nat (length (filter (is_term a) l)).

Definition edges2ok (a : arena tv) : Prop := ∀ h hd, ar_headers a !! h = Some hd → h_edges hd = 2.

Definition cclosed (a : arena tv) (cache : gset nat) : Prop :=
  ∀ x h cs c, x ∈ cache → ar_nodes a !! x = Some (NT h cs) → c ∈ cs → c ∈ cache.

Lemma nnt_app a l1 l2 : nnt a (l1 ++ l2) = (nnt a l1 + nnt a l2)%N.
Proof. unfold nnt. rewrite filter_app, app_length. lia. Qed.
Lemma ntm_app a l1 l2 : ntm a (l1 ++ l2) = (ntm a l1 + ntm a l2)%N.
Proof. unfold ntm. rewrite filter_app, app_length. lia. Qed.

Lemma reach_trans {T} (a : arena T) x y z : reach a [x] y → reach a [y] z → reach a [x] z.
Proof.
  intros Hxy. induction 1 as [r Hr|id h cs c _ IH Hn Hc].
  - by apply elem_of_list_singleton in Hr as ->.
  - by eapply reach_step.
Qed.
Lemma reach_self {T} (a : arena T) x : reach a [x] x.
Proof. constructor. by apply elem_of_list_singleton. Qed.

Lemma reach_rank R (a : arena tv) d id d' id' : awf R a → edges2ok a → repr a d id → repr a d' id' → reach a [id] id' → rank d' ≤ rank d.
Proof.
  intros Hg He Hr Hr' Hre. revert d' Hr'. induction Hre as [r Hin|x h cs c Hre IH Hn Hc]; intros d' Hr'.
  - apply elem_of_list_singleton in Hin as ->. by rewrite (repr_fun _ _ _ _ Hr Hr').
  - assert (Hlx : live a x).
    { eapply reach_live; [exact Hg| |exact Hre]. intros r Hin%elem_of_list_singleton. subst. by eapply repr_live. }
    destruct (repr_exists _ _ _ Hg Hlx) as [dx Hdx]. specialize (IH _ Hdx).
    destruct dx as [t|hd ds]; [apply repr_leaf in Hdx as [_ ?]; congruence|].
    destruct (a_node2 R a _ _ _ Hg He Hdx) as (h' & lo & hi & dlo & dhi & -> & Hnd & Hh & Hlo & Hhi & Rlo & Rhi & _).
    rewrite Hn in Hnd. injection Hnd as -> ->. cbn [rank] in IH.
    apply elem_of_cons in Hc as [->|Hc]; [rewrite (repr_fun _ _ _ _ Hr' Hlo); lia|].
    apply elem_of_list_singleton in Hc as ->. rewrite (repr_fun _ _ _ _ Hr' Hhi). lia.
Qed.

Lemma node_count_spec R n (a : arena tv) : awf R a → edges2ok a → ∀ d id cache, repr a d id → rank d < n → cclosed a cache →
  ∃ cache' l, node_count_f n a id cache = Some (cache', (nnt a l, ntm a l, (1 + 2 * nnt a l)%N)) ∧
    NoDup l ∧ (∀ x, x ∈ l → x ∉ cache ∧ reach a [id] x) ∧ (∀ x, x ∈ cache' ↔ x ∈ cache ∨ x ∈ l) ∧
    id ∈ cache' ∧ cclosed a cache'.
Proof.
  intros Hg He. induction n as [|n IH]; intros d id cache Hr Hn Hcl; [lia|]. cbn [node_count_f].
  destruct (decide (id ∈ cache)) as [Hin|Hnin].
  { exists cache, []. sp; try done; [apply NoDup_nil; done|by intros ? ?%elem_of_nil|].
    intros x. rewrite elem_of_nil. tauto. }
  destruct d as [t|hd ds].
  - apply repr_leaf in Hr as [Hl Hnd]. rewrite Hnd. cbn [mbind option_bind].
    exists ({[id]} ∪ cache), [id]. sp.
    + unfold nnt, ntm. rewrite !filter_cons.
      rewrite decide_False by (unfold is_nt; rewrite Hnd; tauto). by rewrite decide_True by (unfold is_term; by rewrite Hnd).
    + apply NoDup_singleton.
    + intros x ->%elem_of_list_singleton. split; [done|apply reach_self].
    + intros x. rewrite elem_of_list_singleton. set_solver.
    + set_solver.
    + intros x h cs c Hx Hxn Hc. apply elem_of_union in Hx as [Hx%elem_of_singleton|Hx]; [congruence|].
      apply elem_of_union_r. by eapply Hcl.
  - destruct (a_node2 R a _ _ _ Hg He Hr) as (h & lo & hi & dlo & dhi & -> & Hnd & Hh & Hlo & Hhi & Rlo & Rhi & _).
    rewrite Hnd. cbn [mbind option_bind edges2]. cbn [rank] in Hn.
    destruct (IH dlo lo cache Hlo) as (c1 & l1 & -> & Nd1 & Hl1 & Hc1 & Hlo1 & Cl1); [lia|done|]. cbn [mbind option_bind].
    destruct (IH dhi hi c1 Hhi) as (c2 & l2 & -> & Nd2 & Hl2 & Hc2 & Hhi2 & Cl2); [lia|done|]. cbn [mbind option_bind].
    assert (Hdesc : ∀ c dc, repr a dc c → rank dc ≤ h_level hd → ¬ reach a [c] id).
    { intros c dc Hrc Hkc Hre. pose proof (reach_rank R _ _ _ _ _ Hg He Hrc Hr Hre). cbn in *. lia. }
    assert (Hedge : ∀ c x, c ∈ [lo; hi] → reach a [c] x → reach a [id] x).
    { intros c x Hc Hre. eapply reach_trans; [|exact Hre]. eapply reach_step; [apply reach_self|exact Hnd|done]. }
    exists ({[id]} ∪ c2), (id :: l1 ++ l2). sp.
    + assert (Hnn : nnt a (id :: l1 ++ l2) = (nnt a l1 + nnt a l2 + 1)%N).
      { rewrite <- nnt_app. unfold nnt. rewrite filter_cons. rewrite decide_True by (unfold is_nt; by rewrite Hnd). cbn [length]. lia. }
      assert (Hnt : ntm a (id :: l1 ++ l2) = (ntm a l1 + ntm a l2)%N).
      { rewrite <- ntm_app. unfold ntm. rewrite filter_cons. rewrite decide_False by (unfold is_term; rewrite Hnd; tauto). done. }
      rewrite Hnn, Hnt. do 3 f_equal. lia.
    + apply NoDup_cons. split.
      * rewrite elem_of_app. intros [[_ Hx]%Hl1|[_ Hx]%Hl2]; [by eapply Hdesc in Hx|by eapply Hdesc in Hx].
      * apply NoDup_app. sp; try done. intros x Hx1 [Hx2 _]%Hl2. apply Hx2, Hc1. by right.
    + intros x. rewrite elem_of_cons, elem_of_app. intros [->|[[? ?]%Hl1|[Hx ?]%Hl2]].
      * split; [done|apply reach_self].
      * split; [done|]. eapply (Hedge lo); [by left|done].
      * split; [intros ?; apply Hx, Hc1; by left|]. eapply (Hedge hi); [by right; left|done].
    + intros x. rewrite elem_of_union, elem_of_singleton, Hc2, Hc1, elem_of_cons, elem_of_app. tauto.
    + set_solver.
    + intros x h' cs' c Hx Hxn Hc. apply elem_of_union in Hx as [Hx%elem_of_singleton|Hx].
      * subst x. rewrite Hnd in Hxn. injection Hxn as <- <-. apply elem_of_union_r.
        apply elem_of_cons in Hc as [->|Hc]; [apply Hc2; by left|]. by apply elem_of_list_singleton in Hc as ->.
      * apply elem_of_union_r. by eapply Cl2.
Qed.

Lemma size_gen R (a : arena tv) f ln lt : awf R a → edges2ok a → live a f →
  NoDup ln → (∀ id, id ∈ ln ↔ reach a [f] id ∧ ∃ h cs, ar_nodes a !! id = Some (NT h cs)) →
  NoDup lt → (∀ id, id ∈ lt ↔ reach a [f] id ∧ ∃ t, ar_nodes a !! id = Some (Term t)) →
  ('(_, (nn, nv, ne)) ← node_count_f (ar_fuel a) a f ∅; Some (nn, nv, (ne - 1)%N)) =
  Some (N.of_nat (length ln), N.of_nat (length lt), (2 * N.of_nat (length ln))%N).
Proof.
  intros Hg He Vf Nn Hn Nt Ht. destruct (repr_exists _ _ _ Hg Vf) as [d Hd].
  destruct (node_count_spec R (ar_fuel a) a Hg He d f ∅ Hd) as (c' & l & -> & Nd & Hl & Hc & Hid & Hcl);
    [by eapply a_fuel_enough|by intros ? ? ? ? ?%elem_of_empty|].
  cbn [mbind option_bind].
  assert (Hlr : ∀ x, x ∈ l ↔ reach a [f] x).
  { intros x. split; [intros Hx; apply (Hl x Hx)|]. intros Hx.
    assert (x ∈ c') as Hxc; [|apply Hc in Hxc as [?%elem_of_empty|?]; done].
    induction Hx as [r Hr|id h cs c _ IH Hnd Hin]; [by apply elem_of_list_singleton in Hr as ->|by eapply Hcl]. }
  assert (nnt a l = N.of_nat (length ln)) as ->.
  { unfold nnt. f_equal. apply Permutation_length, NoDup_Permutation; [by apply NoDup_filter|done|].
    intros x. rewrite elem_of_list_filter, Hlr, Hn. unfold is_nt.
    destruct (ar_nodes a !! x) as [[t|h cs]|]; naive_solver. }
  assert (ntm a l = N.of_nat (length lt)) as ->.
  { unfold ntm. f_equal. apply Permutation_length, NoDup_Permutation; [by apply NoDup_filter|done|].
    intros x. rewrite elem_of_list_filter, Hlr, Ht. unfold is_term.
    destruct (ar_nodes a !! x) as [[t|h cs]|]; naive_solver. }
  do 2 f_equal. lia.
Qed.

Lemma size_l m f ln lt : bwf m → bdd_valid m f →
  NoDup ln → (∀ id, id ∈ ln ↔ bdd_reaches m [f] id ∧ ∃ h cs, ar_nodes (b_ar m) !! id = Some (NT h cs)) →
  NoDup lt → (∀ id, id ∈ lt ↔ bdd_reaches m [f] id ∧ ∃ t, ar_nodes (b_ar m) !! id = Some (Term t)) →
  bdd_node_size m f = Some (N.of_nat (length ln), N.of_nat (length lt), (2 * N.of_nat (length ln))%N).
Proof.
  intros Hw Vf Nn Hn Nt Ht. apply (size_gen Rb); try done.
  - apply (gd_wf _ (bw_good _ Hw)).
  - exact (gd_edges _ (bw_good _ Hw)).
  - intros id. by rewrite Hn, reaches_reach.
  - intros id. by rewrite Ht, reaches_reach.
Qed.
