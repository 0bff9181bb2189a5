(** Sizes, probability and importance of multi-state diagrams: proofs. *)
From Coq Require Import Ring.
From stdpp Require Import strings.
From Verif Require Import Prelude ComputeCache Arena Trees ArenaProofs ArenaMore Bdd Mdd MtMdd MtMdd2 ZmddAlg BssMgr MssMgr MssAlg
  SpecMdd SpecZmddAlg SpecBss NaryProofs MddMain BssSize BssProb BssMeas MssAlgProofs.

Lemma reach_rank_le {T} (a : arena T) root dr id d : awf Rn a → hcons (ar_headers a) → repr a dr root →
  reach a [root] id → repr a d id → rank d ≤ rank dr.
Proof.
  intros Hwf Hc Hroot Hre. revert d. induction Hre as [r Hr|p h cs c Hre IH Hn Hin]; intros d Hd.
  - apply elem_of_list_singleton in Hr as ->. by rewrite (repr_fun _ _ _ _ Hd Hroot).
  - assert (Hlp : live a p).
    { eapply reach_live; [exact Hwf| |exact Hre]. intros r ->%elem_of_list_singleton. by eapply repr_live. }
    destruct (repr_exists _ _ _ Hwf Hlp) as [dp Hdp]. specialize (IH _ Hdp).
    destruct dp as [t|hd ds]; [apply repr_leaf in Hdp as [_ ?]; congruence|].
    pose proof (repr_E a Hwf Hc _ _ Hdp) as [_ Hk]%okdd_br. apply repr_br in Hdp as [_ (h' & cs' & Hn' & Hh & Hf)].
    rewrite Hn in Hn'. injection Hn' as <- <-. apply elem_of_list_lookup in Hin as [i Hi].
    destruct (list.Forall2_lookup_r _ _ _ _ _ Hf Hi) as (dc & Hdc & Hrc). rewrite (repr_fun _ _ _ _ Hd Hrc).
    rewrite Forall_lookup in Hk. destruct (Hk _ _ Hdc) as [Hk1 _]. cbn [rank] in IH. lia.
Qed.

(** ** Sizes *)
Ltac triple := apply (f_equal Some), (f_equal2 pair); [done|]; apply (f_equal2 pair); [apply (f_equal2 pair)|].
Section size.
Context {T : Type} (a : arena T) (Hwf : awf Rn a) (Hc : hcons (ar_headers a)).
Definition kidsof (id : nat) : list nat := match ar_nodes a !! id with Some nd => node_children nd | None => [] end.
Definition is_ntn (id : nat) : Prop := match ar_nodes a !! id with Some (NT _ _) => True | _ => False end.
Definition is_tmn (id : nat) : Prop := match ar_nodes a !! id with Some (Term _) => True | _ => False end.
Global Instance is_ntn_dec id : Decision (is_ntn id).
Proof. unfold is_ntn. destruct (_ !! _) as [[]|]; apply _. Defined.
Global Instance is_tmn_dec id : Decision (is_tmn id).
Proof. unfold is_tmn. destruct (_ !! _) as [[]|]; apply _. Defined.
Definition nns (l : list nat) : N := N.of_nat (length (filter is_ntn l)).
Definition nts (l : list nat) : N := N.of_nat (length (filter is_tmn l)).
Definition nes (l : list nat) : N := N.of_nat (sum_list ((λ id, length (kidsof id)) <$> l)).
Lemma nns_app l1 l2 : nns (l1 ++ l2) = (nns l1 + nns l2)%N.
Proof. unfold nns. rewrite filter_app, app_length. lia. Qed.
Lemma nts_app l1 l2 : nts (l1 ++ l2) = (nts l1 + nts l2)%N.
Proof. unfold nts. rewrite filter_app, app_length. lia. Qed.
Lemma nes_app l1 l2 : nes (l1 ++ l2) = (nes l1 + nes l2)%N.
Proof. unfold nes. rewrite fmap_app. induction l1 as [|x l1 IH]; [done|]. rewrite fmap_cons. cbn [app sum_list sum_list_with] in *. lia. Qed.
Lemma nes_cons x l : nes (x :: l) = (N.of_nat (length (kidsof x)) + nes l)%N.
Proof. unfold nes. rewrite fmap_cons. cbn [sum_list sum_list_with id]. unfold id. lia. Qed.

Definition nclosed (cache : gset nat) : Prop :=
  ∀ x h cs c, x ∈ cache → ar_nodes a !! x = Some (NT h cs) → c ∈ cs → c ∈ cache.

Lemma nsize_spec n : ∀ d id cache, repr a d id → rank d < n → nclosed cache →
  ∃ cache' l, nsize_f n a id cache = Some (cache', (nns l, nts l, (1 + nes l)%N)) ∧
    NoDup l ∧ (∀ x, x ∈ l → x ∉ cache ∧ reach a [id] x) ∧ (∀ x, x ∈ cache' ↔ x ∈ cache ∨ x ∈ l) ∧
    id ∈ cache' ∧ nclosed cache'.
Proof.
  induction n as [|n IH]; intros d id cache Hr Hn Hcl; [lia|]. cbn [nsize_f].
  destruct (decide (id ∈ cache)) as [Hin|Hnin].
  { exists cache, []. sp; try done; [apply NoDup_nil; done|by intros ? ?%elem_of_nil|].
    intros x. rewrite elem_of_nil. tauto. }
  destruct d as [t|hd ds].
  - apply repr_leaf in Hr as [Hl Hnd]. rewrite Hnd. cbn [mbind option_bind].
    exists ({[id]} ∪ cache), [id]. sp.
    + unfold nns, nts, nes, kidsof. rewrite !filter_cons. cbn. rewrite Hnd.
      rewrite decide_False by (unfold is_ntn; rewrite Hnd; tauto). by rewrite decide_True by (unfold is_tmn; by rewrite Hnd).
    + apply NoDup_singleton.
    + intros x ->%elem_of_list_singleton. split; [done|apply reach_self].
    + intros x. rewrite elem_of_list_singleton. set_solver.
    + set_solver.
    + intros x h cs c Hx Hxn Hin. apply elem_of_union in Hx as [Hx%elem_of_singleton|Hx]; [congruence|].
      apply elem_of_union_r. by eapply Hcl.
  - pose proof (repr_E a Hwf Hc _ _ Hr) as [_ Hk]%okdd_br. pose proof Hr as [_ (h & cs & Hnd & Hh & Hf)]%repr_br. cbn [rank] in Hn.
    rewrite Hnd. cbn [mbind option_bind].
    lazymatch goal with |- context [?g cs cache 1%N 0%N 1%N] => set (go := g) end.
    assert (Hgo : ∀ ds cs' cache nn nv ne, Forall2 (repr a) ds cs' → Forall (λ c, rank c ≤ h_level hd ∧ okdd (Ehs (ar_headers a)) c) ds →
      (∀ c, c ∈ cs' → c ∈ cs) → nclosed cache → id ∉ cache →
      ∃ cache' l, go cs' cache nn nv ne = Some (cache', ((nn + nns l)%N, (nv + nts l)%N, (ne + nes l + N.of_nat (length cs'))%N)) ∧
        NoDup l ∧ (∀ x, x ∈ l → x ∉ cache ∧ reach a [id] x ∧ x ≠ id) ∧ (∀ x, x ∈ cache' ↔ x ∈ cache ∨ x ∈ l) ∧
        (∀ c, c ∈ cs' → c ∈ cache') ∧ nclosed cache').
    { clear Hcl Hnin cache Hk Hf. intros ds' cs' cache nn nv ne Hf. revert cache nn nv ne.
      induction Hf as [|d c ds' cs' Hd _ IHf]; intros cache nn nv ne Hk Hsub Hcl Hnin.
      - exists cache, []. cbn. sp; try done.
        + triple; unfold nns, nts, nes; cbn; lia.
        + apply NoDup_nil_2.
        + by intros ? ?%elem_of_nil.
        + intros x. rewrite elem_of_nil. tauto.
        + by intros ? ?%elem_of_nil.
      - apply Forall_cons in Hk as [[Hk _] Hks]. cbn.
        destruct (IH d c cache Hd) as (c1 & l1 & -> & Nd1 & Hl1 & Hc1 & Hi1 & Cl1); [lia|done|]. cbn [mbind option_bind].
        assert (Hedge : ∀ x, reach a [c] x → reach a [id] x ∧ x ≠ id).
        { intros x Hre. split.
          - eapply reach_trans; [|exact Hre]. eapply reach_step; [apply reach_self|exact Hnd|]. apply Hsub. by left.
          - intros ->. pose proof (reach_rank_le a c d id _ Hwf Hc Hd Hre Hr) as Hle. cbn [rank] in Hle. lia. }
        destruct (IHf c1 (nn + nns l1)%N (nv + nts l1)%N (ne + (1 + nes l1))%N Hks) as (c2 & l2 & -> & Nd2 & Hl2 & Hc2 & Hi2 & Cl2).
        { intros x Hx. apply Hsub. by right. }
        { done. }
        { rewrite Hc1. intros [?|Hx]; [done|]. apply Hl1 in Hx as [_ Hx]. by apply Hedge in Hx as [_ ?]. }
        exists c2, (l1 ++ l2). rewrite nns_app, nts_app, nes_app. sp.
        + triple; cbn [length]; lia.
        + apply NoDup_app. sp; try done. intros x Hx1 [Hx2 _]%Hl2. apply Hx2, Hc1. by right.
        + intros x [Hx|Hx]%elem_of_app.
          * apply Hl1 in Hx as [? Hx]. split; [done|]. by apply Hedge.
          * apply Hl2 in Hx as [Hx ?]. split; [|done]. intros ?. apply Hx, Hc1. by left.
        + intros x. rewrite Hc2, Hc1, elem_of_app. tauto.
        + intros x [->|Hx]%elem_of_cons; [apply Hc2; by left|by apply Hi2].
        + done. }
    destruct (Hgo ds cs cache 1%N 0%N 1%N Hf Hk) as (c' & l & -> & Nd & Hl & Hc' & Hi & Cl); [done|done|done|]. cbn [mbind option_bind].
    exists ({[id]} ∪ c'), (id :: l). sp.
    + triple.
      * unfold nns. rewrite filter_cons, decide_True by (unfold is_ntn; by rewrite Hnd). cbn [length]. lia.
      * unfold nts. rewrite filter_cons, decide_False by (unfold is_tmn; rewrite Hnd; tauto). lia.
      * rewrite nes_cons. unfold kidsof. rewrite Hnd. cbn [node_children]. lia.
    + apply NoDup_cons. split; [|done]. intros Hx. by apply Hl in Hx as (_ & _ & ?).
    + intros x [->|Hx]%elem_of_cons; [split; [done|apply reach_self]|]. by apply Hl in Hx as (? & ? & _).
    + intros x. rewrite elem_of_union, elem_of_singleton, Hc', elem_of_cons. tauto.
    + set_solver.
    + intros x h' cs' c Hx Hxn Hin. apply elem_of_union in Hx as [Hx%elem_of_singleton|Hx].
      * subst x. rewrite Hnd in Hxn. injection Hxn as <- <-. apply elem_of_union_r. by apply Hi.
      * apply elem_of_union_r. by eapply Cl.
Qed.

Lemma nsize_ok f ln lt : live a f →
  NoDup ln → (∀ id, id ∈ ln ↔ reach a [f] id ∧ ∃ h cs, ar_nodes a !! id = Some (NT h cs)) →
  NoDup lt → (∀ id, id ∈ lt ↔ reach a [f] id ∧ ∃ t, ar_nodes a !! id = Some (Term t)) →
  nsize a f = Some (N.of_nat (length ln), N.of_nat (length lt), N.of_nat (sum_list ((λ id, length (kidsof id)) <$> ln))).
Proof.
  intros Vf Nn Hn Nt Ht. destruct (repr_exists _ _ _ Hwf Vf) as [d Hd]. unfold nsize.
  destruct (nsize_spec (ar_fuel a) d f ∅ Hd) as (c' & l & -> & Nd & Hl & Hc' & Hid & Hcl);
    [by eapply a_fuel_enough|by intros ? ? ? ? ?%elem_of_empty|].
  cbn [mbind option_bind].
  assert (Hlr : ∀ x, x ∈ l ↔ reach a [f] x).
  { intros x. split; [intros Hx; apply (Hl x Hx)|]. intros Hx.
    assert (x ∈ c') as Hxc; [|apply Hc' in Hxc as [?%elem_of_empty|?]; done].
    induction Hx as [r Hr|id h cs c _ IH Hnd Hin]; [by apply elem_of_list_singleton in Hr as ->|by eapply Hcl]. }
  assert (Hpn : filter is_ntn l ≡ₚ ln).
  { apply NoDup_Permutation; [by apply NoDup_filter|done|].
    intros x. rewrite elem_of_list_filter, Hlr, Hn. unfold is_ntn.
    destruct (ar_nodes a !! x) as [[t|h cs]|]; naive_solver. }
  assert (nns l = N.of_nat (length ln)) as ->.
  { unfold nns. f_equal. by apply Permutation_length. }
  assert (nts l = N.of_nat (length lt)) as ->.
  { unfold nts. f_equal. apply Permutation_length, NoDup_Permutation; [by apply NoDup_filter|done|].
    intros x. rewrite elem_of_list_filter, Hlr, Ht. unfold is_tmn.
    destruct (ar_nodes a !! x) as [[t|h cs]|]; naive_solver. }
  assert (nes l = N.of_nat (sum_list ((λ id, length (kidsof id)) <$> ln))) as ->.
  { fold (nes ln). transitivity (nes (filter is_ntn l)).
    - clear. induction l as [|x l IH]; [done|]. rewrite filter_cons, nes_cons, IH.
      destruct (decide (is_ntn x)) as [Hd|Hd]; [by rewrite nes_cons|].
      unfold is_ntn, kidsof in *. destruct (ar_nodes a !! x) as [[t|h cs]|]; [done|by destruct Hd|done].
    - unfold nes. f_equal. clear -Hpn. induction Hpn; rewrite ?fmap_cons; cbn [sum_list sum_list_with id]; lia. }
  do 2 f_equal. lia.
Qed.
End size.

(** ** Probability *)
Section prob.
Context {R : Type} (rO rI : R) (radd rmul rsub : R → R → R) (ropp : R → R)
  (Rth : ring_theory rO rI radd rmul rsub ropp eq).
Add Ring Rring3 : Rth.
Local Notation "0" := rO.
Local Notation "1" := rI.
Local Notation "x + y" := (radd x y).
Local Notation "x * y" := (rmul x y).
Local Notation "x - y" := (rsub x y).
Local Notation rsum := (ring_sum rO radd).
Context {T : Type} (hit : T → option bool).
Implicit Types d : dd T.

Definition dot (ps qs : list R) : R := rsum (zip_with rmul ps qs).
Lemma dot_cons p ps q qs : dot (p :: ps) (q :: qs) = p * q + dot ps qs.
Proof. done. Qed.
Lemma rsum_cons x l : rsum (x :: l) = x + rsum l.
Proof. done. Qed.

Section fixed.
Context (pv : gmap string (list R)).
Definition row (hd : header) : list R := default [] (pv !! h_label hd).
Definition lf (t : T) : R := match hit t with Some true => 1 | _ => 0 end.
Fixpoint npr d : R := match d with Leaf t => lf t | Br hd cs => dot (row hd) (map npr cs) end.

(** the sum over the hits *)
Section levels.
Context (E : nat → nat) (W : nat → list R).
Definition wgt (v : list nat) : R := foldr rmul 1 (imap (λ l i, default 0 (W l !! i)) v).
Definition wsum n d : R := rsum (wgt <$> enum hit E n d).
Lemma wgt_snoc v i : wgt (v ++ [i]) = wgt v * default 0 (W (length v) !! i).
Proof.
  unfold wgt. rewrite imap_app. rewrite (rprod_app rO rI radd rmul rsub ropp Rth). cbn. rewrite Nat.add_0_r. ring.
Qed.
Lemma wsum_S n d : okdd E d → rank d ≤ S n →
  wsum (S n) d = rsum ((λ i, default 0 (W n !! i) * wsum n (cof d n i)) <$> seq 0%nat (E n)).
Proof.
  intros Ho Hk. unfold wsum. cbn [enum].
  assert (Hs : ∀ is, (∀ i, i ∈ is → i < E n) →
    rsum (wgt <$> concat ((λ i, (λ v, v ++ [i]) <$> enum hit E n (cof d n i)) <$> is)) =
    rsum ((λ i, default 0 (W n !! i) * rsum (wgt <$> enum hit E n (cof d n i))) <$> is)).
  { induction is as [|i is IH]; intros Hi; [done|]. rewrite !fmap_cons. cbn [concat]. rewrite fmap_app, (rsum_app rO rI radd rmul rsub ropp Rth), rsum_cons, IH
      by (intros j Hj; apply Hi; by right).
    f_equal. rewrite <- list_fmap_compose.
    transitivity (rsum ((λ v, wgt v * default 0 (W n !! i)) <$> enum hit E n (cof d n i))).
    - f_equal. apply list_fmap_ext. intros j v Hv. assert (i < E n) by (apply Hi; by left).
      apply elem_of_list_lookup_2, elem_of_enum in Hv as [Hl _]; [|by apply cof_ok|by apply (cof_rank E)].
      unfold compose. by rewrite wgt_snoc, Hl.
    - rewrite (rsum_scale rO rI radd rmul rsub ropp Rth). ring. }
  apply Hs. intros i [_ ?]%elem_of_seq. lia.
Qed.
Lemma rsum_seq (ps : list R) (f : nat → R) : rsum ((λ i, default 0 (ps !! i) * f i) <$> seq 0%nat (length ps)) = dot ps (f <$> seq 0%nat (length ps)).
Proof.
  assert (Hg : ∀ qs k, (∀ i q, qs !! i = Some q → ps !! (k + i)%nat = Some q) →
    rsum ((λ i, default 0 (ps !! i) * f i) <$> seq k (length qs)) = dot qs (f <$> seq k (length qs))).
  { induction qs as [|q qs IH]; intros k Hk; [done|]. cbn [length seq]. rewrite !fmap_cons, rsum_cons, dot_cons.
    pose proof (Hk 0%nat q eq_refl) as H0. rewrite Nat.add_0_r in H0. rewrite H0. cbn [default]. f_equal. apply IH.
    intros i q' Hi. replace (S k + i)%nat with (k + S i)%nat by lia. by apply Hk. }
  apply Hg. done.
Qed.
Lemma dot_const (ps : list R) c : dot ps (replicate (length ps) c) = rsum ps * c.
Proof.
  induction ps as [|p ps IH]; [unfold dot, ring_sum; cbn; ring|]. cbn [length replicate]. rewrite dot_cons, rsum_cons, IH. ring.
Qed.
Lemma wsum_low n d : okdd E d → rank d ≤ n → length (W n) = E n → rsum (W n) = 1 → wsum (S n) d = wsum n d.
Proof.
  intros Ho Hr Hl H1. rewrite wsum_S by (done || lia). rewrite <- Hl, (rsum_seq (W n) (λ i, wsum n (cof d n i))).
  replace ((λ i, wsum n (cof d n i)) <$> seq 0%nat (length (W n))) with (replicate (length (W n)) (wsum n d)).
  { rewrite dot_const, H1. ring. }
  symmetry. apply list_eq_same_length with (n := length (W n)); [by rewrite replicate_length|by rewrite fmap_length, seq_length|].
  intros i x y Hi Hx Hy. apply lookup_replicate in Hy as [-> _]. rewrite list_lookup_fmap, lookup_seq_lt in Hx by done.
  cbn in Hx. rewrite cof_low in Hx by done. congruence.
Qed.
Lemma wsum_npr n : ∀ d, okdd E d → rank d ≤ n → (∀ l, l < n → length (W l) = E l ∧ rsum (W l) = 1) →
  allhd (λ hd, W (h_level hd) = row hd) d → wsum n d = npr d.
Proof.
  induction n as [|n IH]; intros d Ho Hk HW Hh.
  - destruct d as [t|]; [|cbn in Hk; lia]. unfold wsum. cbn. unfold lf. destruct (hit t) as [[]|]; cbn; [|done|done]. unfold wgt. cbn. ring.
  - destruct (HW n) as [Hl H1]; [lia|].
    assert (HW' : ∀ l, l < n → length (W l) = E l ∧ rsum (W l) = 1) by (intros; apply HW; lia).
    destruct (decide (rank d ≤ n)) as [Hle|Hgt]; [rewrite wsum_low by done; by apply IH|].
    destruct d as [t|hd cs]; [cbn in Hgt; lia|]. cbn [rank] in Hk, Hgt. assert (h_level hd = n) as Hn by lia.
    rewrite wsum_S by (done || (cbn [rank]; lia)). rewrite <- Hl, (rsum_seq (W n) (λ i, wsum n (cof (Br hd cs) n i))).
    apply okdd_br in Ho as [Hlen Hcs]. apply allhd_br in Hh as [Hh Hhs]. cbn [npr]. rewrite <- Hh, Hn. f_equal.
    rewrite Hn, <- Hl in Hlen.
    apply list_eq_same_length with (n := length (W n)); [by rewrite map_length|by rewrite fmap_length, seq_length|].
    intros i x y Hi Hx Hy. rewrite list_lookup_fmap, lookup_seq_lt in Hx by done. cbn in Hx. injection Hx as <-.
    destruct (lookup_lt_is_Some_2 cs i) as [c Hc]; [lia|].
    change (map npr cs) with (npr <$> cs) in Hy. rewrite list_lookup_fmap, Hc in Hy. cbn in Hy. injection Hy as <-.
    rewrite decide_True by done. rewrite Hc. cbn [default].
    rewrite Forall_lookup in Hcs, Hhs. destruct (Hcs i c Hc) as [Hr Ho]. apply IH; try done; [lia|]. by apply (Hhs i).
Qed.
End levels.

(** the code *)
Context (a : arena T) (Hwf : awf Rn a) (Hc : hcons (ar_headers a)).
Definition rows_ok : Prop := ∀ hd, hd ∈ ar_headers a → ∃ ps, pv !! h_label hd = Some ps ∧ length ps = h_edges hd.
Definition npcache (cache : gmap nat R) : Prop := ∀ i x, cache !! i = Some x → ∃ d, repr a d i ∧ x = npr d.
Lemma nprob_spec n : rows_ok → ∀ d id cache, repr a d id → rank d < n → npcache cache →
  ∃ cache', nprob_f rO rI radd rmul hit n a pv id cache = Some (cache', npr d) ∧ npcache cache'.
Proof.
  intros Hrows. induction n as [|n IH]; intros d id cache Hr Hn Hca; [lia|]. cbn [nprob_f].
  destruct (cache !! id) as [x|] eqn:Hhit.
  { destruct (Hca _ _ Hhit) as (di & Hdi & ->). rewrite (repr_fun _ _ _ _ Hr Hdi). by exists cache. }
  assert (Hins : ∀ cache1, npcache cache1 → npcache (<[id := npr d]> cache1)).
  { intros c1 Hc1 i x. rewrite lookup_insert_Some. intros [[<- <-]|[_ H]]; [by exists d|by apply Hc1]. }
  destruct d as [t|hd ds].
  - apply repr_leaf in Hr as [Hl Hnd]. rewrite Hnd. cbn [mbind option_bind]. eexists. split; [done|]. exact (Hins cache Hca).
  - pose proof (repr_E a Hwf Hc _ _ Hr) as [Hlen Hk]%okdd_br. pose proof Hr as [_ (h & cs & Hnd & Hh & Hf)]%repr_br. cbn [rank] in Hn.
    rewrite Hnd. cbn [mbind option_bind]. rewrite Hh. cbn [mbind option_bind].
    assert (Hin : hd ∈ ar_headers a) by (by eapply elem_of_list_lookup_2).
    destruct (Hrows hd Hin) as (fp & Hfp & Hfl). rewrite Hfp. cbn [mbind option_bind].
    unfold Ehs in Hlen. rewrite <- (Eof_edges (ar_headers a) (λ _, 0%nat) hd Hc Hin) in Hlen.
    lazymatch goal with |- context [?g 0%nat cs cache 0] => set (go := g) end.
    assert (Hgo : ∀ ds cs' i cache r, Forall2 (repr a) ds cs' → Forall (λ c, rank c ≤ h_level hd) ds → (i + length ds ≤ length fp)%nat → npcache cache →
      ∃ cache', go i cs' cache r = Some (cache', r + dot (drop i fp) (npr <$> ds)) ∧ npcache cache').
    { clear Hca Hk Hf cache Hlen Hhit. intros ds' cs' i cache r Hf. revert i cache r.
      induction Hf as [|d c ds' cs' Hd _ IHf]; intros i cache r Hk Hi Hca.
      - exists cache. split; [|done]. cbn. do 2 f_equal. unfold dot, ring_sum. destruct (drop i fp); cbn; ring.
      - apply Forall_cons in Hk as [Hk Hks]. cbn [length] in Hi. cbn.
        destruct (IH d c cache Hd) as (c1 & -> & Hc1); [lia|done|]. cbn [mbind option_bind].
        destruct (lookup_lt_is_Some_2 fp i) as [p Hp]; [lia|]. rewrite Hp. cbn [mbind option_bind].
        destruct (IHf (S i) c1 (r + p * npr d) Hks) as (c2 & Heq & Hc2); [lia|done|]. exists c2. split; [|done].
        etransitivity; [exact Heq|]. do 2 f_equal.
        transitivity (r + dot (drop i fp) (npr <$> d :: ds')); [|done]. rewrite (drop_S fp p i Hp), fmap_cons, dot_cons. ring. }
    destruct (Hgo ds cs 0%nat cache 0 Hf) as (c' & Heq & Hc'); [|lia|done|].
    { eapply Forall_impl; [exact Hk|]. by intros ? [? _]. }
    rewrite Heq. cbn [mbind option_bind]. rewrite drop_0.
    assert (0 + dot fp (npr <$> ds) = npr (Br hd ds)) as ->.
    { transitivity (dot fp (npr <$> ds)); [ring|]. cbn [npr]. unfold row. by rewrite Hfp. }
    eexists. split; [done|]. exact (Hins c' Hc').
Qed.
Lemma nprob_ok d id : rows_ok → repr a d id → nprob rO rI radd rmul hit a pv id = Some (npr d).
Proof.
  intros Hrows Hr. unfold nprob.
  destruct (nprob_spec (ar_fuel a) Hrows d id ∅ Hr) as (c & -> & _); [by eapply a_fuel_enough|by intros ? ? ?|done].
Qed.
End fixed.
End prob.
