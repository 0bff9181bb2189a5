(** Counting, sizes and enumeration on ZDDs: proofs. *)
From stdpp Require Import strings sorting.
From Verif Require Import Prelude ComputeCache Arena Trees ArenaProofs ArenaMore Bdd BddProofs SpecBdd BssAlg BssCount BssSize
  Zdd ZddTrees ZddProofs SpecZdd ZddMain ZddAlg.

(** the members with terminal in [ss], as increasing lists of levels, in the order of enumeration *)
Fixpoint zpaths (ss : list bool) (d : dd tv) : list (list nat) :=
  match d with
  | Leaf t => if hits ss t then [[]] else []
  | Br hd cs =>
      match cs with
      | [lo; hi] => zpaths ss lo ++ ((λ l, l ++ [h_level hd]) <$> zpaths ss hi)
      | _ => []
      end
  end.

Lemma zpaths_below ss d l x : okdd E2 d → l ∈ zpaths ss d → x ∈ l → x < rank d.
Proof.
  revert l. induction d as [t|hd ds IH] using dd_ind'; intros l Ho Hl Hx.
  - cbn in Hl. destruct (hits ss t); [|by apply elem_of_nil in Hl].
    apply elem_of_list_singleton in Hl as ->. by apply elem_of_nil in Hx.
  - destruct (ok2 _ _ Ho) as (lo & hi & -> & R0 & R1 & O0 & O1). rewrite !Forall_cons in IH.
    destruct IH as (IH0 & IH1 & _). cbn [zpaths rank] in *.
    apply elem_of_app in Hl as [Hl|Hl].
    + specialize (IH0 _ O0 Hl Hx). lia.
    + apply elem_of_list_fmap in Hl as (l' & -> & Hl). apply elem_of_app in Hx as [Hx|Hx].
      * specialize (IH1 _ O1 Hl Hx). lia.
      * apply elem_of_list_singleton in Hx as ->. lia.
Qed.

Lemma sorted_snoc (l : list nat) x : StronglySorted lt l → (∀ y, y ∈ l → y < x) → StronglySorted lt (l ++ [x]).
Proof.
  induction l as [|z l IH]; intros Hs Hb; cbn.
  - repeat constructor.
  - apply StronglySorted_inv in Hs as [Hs Hz]. constructor.
    + apply IH; [done|]. intros y Hy. apply Hb. by right.
    + apply Forall_app. split; [done|]. constructor; [|constructor]. apply Hb. by left.
Qed.
Lemma zpaths_sorted ss d l : okdd E2 d → l ∈ zpaths ss d → StronglySorted lt l.
Proof.
  revert l. induction d as [t|hd ds IH] using dd_ind'; intros l Ho Hl.
  - cbn in Hl. destruct (hits ss t); [|by apply elem_of_nil in Hl].
    apply elem_of_list_singleton in Hl as ->. constructor.
  - destruct (ok2 _ _ Ho) as (lo & hi & -> & R0 & R1 & O0 & O1). rewrite !Forall_cons in IH.
    destruct IH as (IH0 & IH1 & _). cbn [zpaths] in *. apply elem_of_app in Hl as [Hl|Hl]; [auto|].
    apply elem_of_list_fmap in Hl as (l' & -> & Hl). apply sorted_snoc; [auto|]. intros y Hy.
    pose proof (zpaths_below _ _ _ _ O1 Hl Hy). lia.
Qed.
Lemma NoDup_zpaths ss d : okdd E2 d → NoDup (zpaths ss d).
Proof.
  induction d as [t|hd ds IH] using dd_ind'; intros Ho.
  - cbn. destruct (hits ss t); [apply NoDup_singleton|constructor].
  - destruct (ok2 _ _ Ho) as (lo & hi & -> & R0 & R1 & O0 & O1). rewrite !Forall_cons in IH.
    destruct IH as (IH0 & IH1 & _). cbn [zpaths]. apply NoDup_app. sp; [auto| |].
    + intros l Hl Hl'. apply elem_of_list_fmap in Hl' as (l' & -> & _).
      assert (h_level hd < rank lo); [|lia]. eapply zpaths_below; [done|exact Hl|].
      apply elem_of_app. right. by left.
    + apply NoDup_fmap_2; [|auto]. intros x y H. by apply app_inj_tail in H as [? _].
Qed.

Lemma sorted_lt_NoDup (l : list nat) : StronglySorted lt l → NoDup l.
Proof.
  induction 1 as [|x l _ IH Hf]; [constructor|]. constructor; [|done]. intros Hx.
  rewrite Forall_forall in Hf. specialize (Hf _ Hx). lia.
Qed.
Lemma sorted_lt_unique (l l' : list nat) : StronglySorted lt l → StronglySorted lt l' →
  (list_to_set l : gset nat) = list_to_set l' → l = l'.
Proof.
  intros H H' He. assert (AntiSymm (=) lt) by (intros x y ? ?; lia). apply (StronglySorted_unique lt); [done|done|].
  apply NoDup_Permutation; [by apply sorted_lt_NoDup|by apply sorted_lt_NoDup|].
  intros x. rewrite <- !(elem_of_list_to_set (C := gset nat)). by rewrite He.
Qed.

(** the link with the specification *)
Lemma has_zpaths m ss d id S : zgood (z_ar m) → repr (z_ar m) d id →
  (∃ b, b ∈ ss ∧ zdd_has m (tvb b) id S) ↔ ∃ l, l ∈ zpaths ss d ∧ S = list_to_set l.
Proof.
  intros Hg Hr. split.
  - intros (b & Hb & H). revert d Hr. induction H as [id Hn|id h lo hi S Hn H IH|id h lo hi hd S Hn Hh H IH]; intros d Hr.
    + destruct d as [t'|hd ds].
      * apply repr_leaf in Hr as [_ Hn']. cbn [zpaths]. exists []. split; [|done].
        assert (hits ss t' = true) as ->; [|by left]. apply hits_spec. exists b. split; [done|congruence].
      * apply repr_br in Hr as [_ (h & cs & Hn' & _)]. congruence.
    + destruct d as [t'|hd' ds]; [apply repr_leaf in Hr as [_ Hn']; congruence|].
      destruct (zrepr_node2 _ _ _ _ Hg Hr) as (h' & lo' & hi' & dlo & dhi & -> & Hn' & Hh' & Hlo & Hhi & R0 & R1 & _).
      rewrite Hn in Hn'. injection Hn' as <- <- <-. destruct (IH _ Hlo) as (l & Hl & ->). exists l. split; [|done].
      cbn [zpaths]. apply elem_of_app. by left.
    + destruct d as [t'|hd' ds]; [apply repr_leaf in Hr as [_ Hn']; congruence|].
      destruct (zrepr_node2 _ _ _ _ Hg Hr) as (h' & lo' & hi' & dlo & dhi & -> & Hn' & Hh' & Hlo & Hhi & R0 & R1 & _).
      rewrite Hn in Hn'. injection Hn' as <- <- <-. rewrite Hh in Hh'. injection Hh' as <-.
      destruct (IH _ Hhi) as (l & Hl & ->). exists (l ++ [h_level hd]). split.
      * cbn [zpaths]. apply elem_of_app. right. apply elem_of_list_fmap. by exists l.
      * rewrite list_to_set_app_L. cbn. set_solver.
  - intros (l & Hl & ->). revert id l Hr Hl. induction d as [t'|hd ds IH] using dd_ind'; intros id l Hr Hl.
    + cbn [zpaths] in Hl. destruct (hits ss t') eqn:Hh; [|by apply elem_of_nil in Hl].
      apply elem_of_list_singleton in Hl as ->. apply hits_spec in Hh as (b & Hb & ->). exists b. split; [done|].
      apply repr_leaf in Hr as [_ Hn]. by constructor.
    + destruct (zrepr_node2 _ _ _ _ Hg Hr) as (h & lo & hi & dlo & dhi & -> & Hn & Hh & Hlo & Hhi & R0 & R1 & _).
      rewrite !Forall_cons in IH. destruct IH as (IH0 & IH1 & _). cbn [zpaths] in Hl. apply elem_of_app in Hl as [Hl|Hl].
      * destruct (IH0 _ _ Hlo Hl) as (b & ? & ?). exists b. split; [done|]. by eapply zh_low.
      * apply elem_of_list_fmap in Hl as (l' & -> & Hl). destruct (IH1 _ _ Hhi Hl) as (b & ? & ?). exists b. split; [done|].
        rewrite list_to_set_app_L. cbn.
        replace (list_to_set l' ∪ ({[h_level hd]} ∪ ∅)) with ({[h_level hd]} ∪ list_to_set l' : gset nat) by set_solver.
        by eapply zh_high.
Qed.

(** ** zdd_count *)
Definition nz ss d : N := N.of_nat (length (zpaths ss d)).
Lemma zdd_count_spec n (a : arena tv) ss : zgood a → ∀ d id cache, repr a d id → rank d < n →
  (∀ i x, cache !! i = Some x → ∃ di, repr a di i ∧ x = nz ss di) →
  ∃ cache', zdd_count_f n a ss id cache = Some (cache', nz ss d) ∧
    ∀ i x, cache' !! i = Some x → ∃ di, repr a di i ∧ x = nz ss di.
Proof.
  intros Hg. induction n as [|n IH]; intros d id cache Hr Hn Hc; [lia|]. cbn [zdd_count_f].
  destruct (cache !! id) as [x|] eqn:Hhit.
  { destruct (Hc _ _ Hhit) as (di & Hdi & ->). rewrite (repr_fun _ _ _ _ Hr Hdi). by exists cache. }
  assert (Hins : ∀ cache1 : gmap nat N, (∀ i x, cache1 !! i = Some x → ∃ di, repr a di i ∧ x = nz ss di) →
    ∀ i x, <[id := nz ss d]> cache1 !! i = Some x → ∃ di, repr a di i ∧ x = nz ss di).
  { intros c1 Hc1 i x. rewrite lookup_insert_Some. intros [[<- <-]|[_ H]]; [by exists d|eauto]. }
  destruct d as [t|hd ds].
  - apply repr_leaf in Hr as [Hl Hnd]. rewrite Hnd. cbn [mbind option_bind].
    assert (Hv : nz ss (Leaf t) = if hits ss t then 1%N else 0%N).
    { unfold nz. cbn. by destruct (hits ss t). }
    destruct t; cbn [mbind option_bind hits] in *; rewrite <- Hv; (eexists; split; [done|]); exact (Hins cache Hc).
  - destruct (zrepr_node2 _ _ _ _ Hg Hr) as (h & lo & hi & dlo & dhi & -> & Hnd & Hh & Hlo & Hhi & Rlo & Rhi & _).
    rewrite Hnd. cbn [mbind option_bind edges2]. cbn [rank] in Hn.
    destruct (IH dlo lo cache Hlo) as (c1 & -> & Hc1); [lia|done|]. cbn [mbind option_bind].
    destruct (IH dhi hi c1 Hhi) as (c2 & -> & Hc2); [lia|done|]. cbn [mbind option_bind].
    assert (Hv : (nz ss dlo + nz ss dhi)%N = nz ss (Br hd [dlo; dhi])).
    { unfold nz. cbn [zpaths]. rewrite app_length, fmap_length. lia. }
    rewrite Hv. eexists. split; [done|]. exact (Hins c2 Hc2).
Qed.

Lemma zcount_l m (ss : list bool) f L : zwf m → zdd_valid m f → NoDup L →
  (∀ S, S ∈ L ↔ ∃ b, b ∈ ss ∧ zdd_has m (tvb b) f S) →
  zdd_count m ss f = Some (N.of_nat (length L)).
Proof.
  intros Hw Vf Hnd HL. pose proof (zw_good _ Hw) as Hg. destruct (zvalid_repr _ _ Hw Vf) as [d Hd]. unfold zdd_count.
  destruct (zdd_count_spec (ar_fuel (z_ar m)) (z_ar m) ss Hg d f ∅ Hd) as (c' & -> & _);
    [by eapply a_fuel_enough|done|].
  cbn [mbind option_bind]. f_equal. unfold nz. f_equal. pose proof (zgood_ok _ _ _ Hg Hd) as Ho.
  rewrite <- (fmap_length (list_to_set : list nat → gset nat)).
  apply Permutation_length, NoDup_Permutation; [|done|].
  - assert (Hs : ∀ l, l ∈ zpaths ss d → StronglySorted lt l) by (intros l; by apply zpaths_sorted).
    pose proof (NoDup_zpaths ss d Ho) as Hn. revert Hn Hs. generalize (zpaths ss d). clear.
    induction 1 as [|l ls Hl _ IH]; intros Hs; cbn; constructor.
    + intros Hin. apply elem_of_list_fmap in Hin as (l' & He & Hin). apply sorted_lt_unique in He; [congruence|..].
      * apply Hs. by left.
      * apply Hs. by right.
    + apply IH. intros l' Hl'. apply Hs. by right.
  - intros S. rewrite HL, has_zpaths by done. rewrite elem_of_list_fmap. naive_solver.
Qed.

(** ** enumeration *)
Lemma zstep_collect k a ss x st p p' out : zpath_step a ss (ZPath (x :: st) p) = Some (p', out) →
  zpath_collect (S k) a ss (ZPath (x :: st) p) =
  rest ← zpath_collect k a ss p'; Some (match out with Some x => x :: rest | None => rest end).
Proof. intros Hs. cbn [zpath_collect zp_stack]. rewrite Hs. done. Qed.

Lemma zpath_spec (a : arena tv) ss name : zgood a →
  (∀ h hd, ar_headers a !! h = Some hd → h_label hd = name (h_level hd)) →
  ∀ d id st p, repr a d id →
  ∃ k, ∀ fuel, zpath_collect (k + fuel) a ss (ZPath (ZSNode id :: st) p) =
    rest ← zpath_collect fuel a ss (ZPath st p);
    Some (((λ l, (name <$> l) ++ p) <$> zpaths ss d) ++ rest).
Proof.
  intros Hg Hnm d. induction d as [t|hd ds IH] using dd_ind'; intros id st p Hr.
  - apply repr_leaf in Hr as [_ Hnd]. exists 1. intros fuel. cbn [Nat.add].
    assert (Hs : zpath_step a ss (ZPath (ZSNode id :: st) p) = Some (ZPath st p, if hits ss t then Some p else None)).
    { unfold zpath_step. cbn [zp_stack zp_path]. rewrite Hnd. cbn [mbind option_bind]. by destruct t. }
    rewrite (zstep_collect _ _ _ _ _ _ _ _ Hs).
    destruct (zpath_collect fuel _ _ _); [|done]. cbn. by destruct (hits ss t).
  - destruct (zrepr_node2 _ _ _ _ Hg Hr) as (h & lo & hi & dlo & dhi & -> & Hnd & Hh & Hlo & Hhi & Rlo & Rhi & _).
    rewrite !Forall_cons in IH. destruct IH as (IH0 & IH1 & _).
    destruct (IH0 lo (ZSPush (h_label hd) :: ZSNode hi :: ZSPop :: st) p Hlo) as [k1 Hk1].
    destruct (IH1 hi (ZSPop :: st) (h_label hd :: p) Hhi) as [k2 Hk2].
    exists (1 + (k1 + (1 + (k2 + 1)))). intros fuel.
    replace (1 + (k1 + (1 + (k2 + 1))) + fuel) with (S (k1 + S (k2 + S fuel))) by lia.
    rewrite (zstep_collect _ _ _ _ _ _ (ZPath (ZSNode lo :: ZSPush (h_label hd) :: ZSNode hi :: ZSPop :: st) p) None).
    2:{ unfold zpath_step. cbn [zp_stack zp_path]. rewrite Hnd. cbn [mbind option_bind]. by rewrite Hh. }
    rewrite Hk1.
    rewrite (zstep_collect _ _ _ _ _ _ (ZPath (ZSNode hi :: ZSPop :: st) (h_label hd :: p)) None) by done.
    rewrite Hk2.
    rewrite (zstep_collect _ _ _ _ _ _ (ZPath st p) None) by done.
    destruct (zpath_collect fuel _ _ _) as [rest|]; [|done]. cbn [mbind option_bind]. f_equal.
    cbn [zpaths]. rewrite fmap_app, <- !list_fmap_compose, <- app_assoc. do 2 f_equal.
    apply list_fmap_ext. intros i l _. cbn. rewrite fmap_app, <- app_assoc. cbn. by rewrite (Hnm _ _ Hh).
Qed.

Lemma zextract_l m ss name f : zwf m → zdd_valid m f →
  (∀ h hd, ar_headers (z_ar m) !! h = Some hd → h_label hd = name (h_level hd)) →
  ∃ Ls k0, NoDup Ls ∧
    (∀ l, l ∈ Ls ↔ StronglySorted lt l ∧ ∃ b, b ∈ ss ∧ zdd_has m (tvb b) f (list_to_set l)) ∧
    ∀ fuel, k0 ≤ fuel → zdd_extract fuel m ss f = Some (map (map name) Ls).
Proof.
  intros Hw Vf Hnm. pose proof (zw_good _ Hw) as Hg. destruct (zvalid_repr _ _ Hw Vf) as [d Hd].
  pose proof (zgood_ok _ _ _ Hg Hd) as Ho.
  destruct (zpath_spec (z_ar m) ss name Hg Hnm d f [] [] Hd) as [k Hk].
  exists (zpaths ss d), k. split; [by apply NoDup_zpaths|]. split.
  - intros l. split.
    + intros Hl. split; [by eapply zpaths_sorted|]. apply (has_zpaths _ _ _ _ _ Hg Hd). by exists l.
    + intros [Hs Hh]. apply (has_zpaths _ _ _ _ _ Hg Hd) in Hh as (l' & Hl' & He).
      apply sorted_lt_unique in He; [by subst|done|by eapply zpaths_sorted].
  - intros fuel Hf. unfold zdd_extract, zpath_new. replace fuel with (k + (fuel - k)) by lia. rewrite Hk.
    assert (∀ k, zpath_collect k (z_ar m) ss (ZPath [] []) = Some []) as -> by (intros k0; by destruct k0).
    cbn [mbind option_bind]. f_equal. rewrite app_nil_r. apply list_fmap_ext. intros i l _. by rewrite app_nil_r.
Qed.

Lemma zmembers_l m (ss : list bool) f : zwf m → zdd_valid m f →
  ∃ L, NoDup L ∧ ∀ S, S ∈ L ↔ ∃ b, b ∈ ss ∧ zdd_has m (tvb b) f S.
Proof.
  intros Hw Vf. pose proof (zw_good _ Hw) as Hg. destruct (zvalid_repr _ _ Hw Vf) as [d Hd].
  pose proof (zgood_ok _ _ _ Hg Hd) as Ho. exists (remove_dups (list_to_set <$> zpaths ss d)).
  split; [apply NoDup_remove_dups|]. intros S. rewrite elem_of_remove_dups, elem_of_list_fmap, has_zpaths by done. naive_solver.
Qed.

Lemma zsize_l m f ln lt : zwf m → zdd_valid m f →
  NoDup ln → (∀ id, id ∈ ln ↔ zdd_reaches m [f] id ∧ ∃ h cs, ar_nodes (z_ar m) !! id = Some (NT h cs)) →
  NoDup lt → (∀ id, id ∈ lt ↔ zdd_reaches m [f] id ∧ ∃ t, ar_nodes (z_ar m) !! id = Some (Term t)) →
  zdd_node_size m f = Some (N.of_nat (length ln), N.of_nat (length lt), (2 * N.of_nat (length ln))%N).
Proof.
  intros Hw Vf Nn Hn Nt Ht. apply (size_gen Rz); try done.
  - apply (zg_wf _ (zw_good _ Hw)).
  - exact (zg_edges _ (zw_good _ Hw)).
  - intros id. by rewrite Hn, zreaches_reach.
  - intros id. by rewrite Ht, zreaches_reach.
Qed.
