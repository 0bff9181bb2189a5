(** Analyses of one multi-state diagram: from diagrams to handles. *)
From Coq Require Import Ring.
From stdpp Require Import strings.
From Verif Require Import Prelude ComputeCache Arena Bdd Mdd MtMdd MtMdd2 Zmdd ZmddAlg BssMgr MddMinsol MssConv MssMgr MssAlg
  Trees ArenaProofs ArenaMore SpecBdd SpecMdd SpecZmdd SpecZmddAlg SpecBss SpecBssMgr SpecMss SpecMssAlg NaryProofs MddProofs MddMain MtProofs MmProofs MmMain
  BssSize BssProb BssMeas MssTrees MssSolMain MssMgrProofs MssMgrVar MssRpn MssSolMgr MssAlgProofs MssProb MssMeas MssFam.

Section half.
Context {T : Type} (hit : T → option bool) (a : arena T) (Hwf : awf Rn a) (Hc : hcons (ar_headers a))
  (Hlv : ∀ i hd, ar_headers a !! i = Some hd → h_level hd = i) (Hnd : NoDup (h_label <$> ar_headers a)).
Notation hs := (ar_headers a).
Notation E := (Ehs hs).
Notation enum := (enum hit E).
Notation vars := ((λ hd, (h_label hd, h_edges hd)) <$> hs).
Context (f : nat) (d : dd T) (Hd : repr a d f) (P : menv → Prop).
Context (HP : ∀ e rho, states vars e → (∀ hd, hd ∈ hs → rho (h_level hd) = e (h_label hd)) →
  ∃ t, eval rho d = Some t ∧ (hit t = Some true ↔ P e)).

Lemma dmap_dense (v : list nat) (e : menv) n : length v = n → n ≤ length hs →
  (∀ l hd, l < n → hs !! l = Some hd → v !! l = Some (e (h_label hd))) → dmap a v = dense (take n vars) e.
Proof.
  intros Hv Hn He. unfold dmap, dense. f_equal. apply list_eq. intros l.
  rewrite lookup_zip_with, !list_lookup_fmap. destruct (decide (l < n)) as [Hl|Hl].
  - rewrite lookup_take by done. rewrite list_lookup_fmap. destruct (lookup_lt_is_Some_2 hs l) as [hd Hh]; [lia|].
    rewrite Hh. cbn. by rewrite (He l hd Hl Hh).
  - rewrite lookup_take_ge by lia. rewrite (lookup_ge_None_2 v) by lia. by destruct (hs !! l).
Qed.
Lemma dmap_lookup (v : list nat) l hd : hs !! l = Some hd → dmap a v !! h_label hd = v !! l.
Proof.
  intros Hh. unfold dmap. assert (Hl : (h_label <$> hs) !! l = Some (h_label hd)) by by rewrite list_lookup_fmap, Hh.
  assert (Hn : NoDup ((zip (h_label <$> hs) v).*1)).
  { revert Hnd. generalize (h_label <$> hs). clear. intros l. revert v.
    induction l as [|x l IH]; intros [|y v] Hnd; cbn; try apply NoDup_nil_2. apply NoDup_cons in Hnd as [Hx Hnd].
    apply NoDup_cons. split; [|by apply IH]. intros ([s j] & -> & Hin)%elem_of_list_fmap. apply Hx.
    by apply elem_of_zip_l in Hin. }
  destruct (v !! l) as [i|] eqn:Hv.
  - apply elem_of_list_to_map; [done|]. apply elem_of_list_lookup. exists l. by rewrite lookup_zip_with, Hl, Hv.
  - apply not_elem_of_list_to_map. intros ([s j] & Hs & (k & Hk)%elem_of_list_lookup)%elem_of_list_fmap. cbn in Hs. subst s.
    rewrite lookup_zip_with in Hk. destruct ((h_label <$> hs) !! k) as [s|] eqn:Hlk; [|done]. destruct (v !! k) as [x|] eqn:Hvk; [|done].
    cbn in Hk. injection Hk as -> ->. pose proof (NoDup_lookup _ _ _ _ Hnd Hl Hlk). congruence.
Qed.

(** the vectors over the lowest [n] levels *)
Definition found_at (n : nat) : list (gmap string nat) := dmap a <$> enum n d.
Lemma found_ok n : rank d ≤ n → n ≤ length hs →
  NoDup (found_at n) ∧ ∀ M, M ∈ found_at n ↔ ∃ e, states vars e ∧ P e ∧ M = dense (take n vars) e.
Proof.
  intros Hr Hn. pose proof (repr_E a Hwf Hc _ _ Hd) as Ho.
  assert (Hel : ∀ v, v ∈ enum n d ↔ length v = n ∧ inE E v ∧ ∃ t, eval (vec v) d = Some t ∧ yes hit t) by (intros; by apply elem_of_enum).
  assert (Hlt : ∀ l, l < n → ∃ hd, hs !! l = Some hd) by (intros l Hl; apply lookup_lt_is_Some_2; lia).
  split.
  - unfold found_at. apply NoDup_fmap_2_strong; [|apply NoDup_enum]. intros v w [Hv _]%Hel [Hw _]%Hel Heq.
    apply list_eq. intros l. destruct (decide (l < n)) as [Hl|Hl]; [|by rewrite !lookup_ge_None_2 by lia].
    destruct (Hlt l Hl) as [hd Hh]. by rewrite <- !(dmap_lookup _ _ _ Hh), Heq.
  - intros M. unfold found_at. rewrite elem_of_list_fmap. split.
    + intros (v & -> & (Hv & Hin & t & Ht & Hy)%Hel).
      assert (Hvok : vokh hs (vec v)).
      { intros hd (i & Hi)%elem_of_list_lookup. rewrite (Hlv _ _ Hi). unfold vec. destruct (v !! i) as [j|] eqn:Hj.
        - cbn. specialize (Hin i j Hj). by rewrite (Ehs_at hs i hd) in Hin.
        - cbn. apply Hc. by eapply elem_of_list_lookup_2. }
      destruct (off_surj hs Hlv Hnd false (vec v) Hvok) as (e & He & Hoff).
      assert (Hoe : ∀ l hd, hs !! l = Some hd → vec v l = e (h_label hd)).
      { intros l hd Hl. rewrite <- Hoff by (by eapply lookup_lt_Some). by rewrite (off_at hs false e l hd Hl). }
      exists e. destruct (HP e (vec v) He) as (t' & Ht' & HPe).
      { intros hd (i & Hi)%elem_of_list_lookup. rewrite (Hlv _ _ Hi). by apply Hoe. }
      sp; [done| |].
      * apply HPe. rewrite Ht in Ht'. by injection Ht' as <-.
      * apply dmap_dense; [done|done|]. intros l hd Hl Hh. rewrite <- (Hoe l hd Hh). unfold vec.
        destruct (lookup_lt_is_Some_2 v l) as [i Hi]; [lia|]. by rewrite Hi.
    + intros (e & He & HPe & ->). pose proof (proj1 (states_iff hs e) He) as Hr'.
      set (v := (λ hd, e (h_label hd)) <$> take n hs).
      assert (Hv : length v = n) by (unfold v; rewrite fmap_length, take_length; lia).
      assert (Hvl : ∀ l hd, l < n → hs !! l = Some hd → v !! l = Some (e (h_label hd))).
      { intros l hd Hl Hh. unfold v. by rewrite list_lookup_fmap, lookup_take, Hh. }
      exists v. split; [symmetry; by apply dmap_dense|]. apply Hel. sp; [done| |].
      * intros l i Hi. assert (l < n) as Hl by (rewrite <- Hv; by eapply lookup_lt_Some). destruct (Hlt l Hl) as [hd Hh].
        rewrite (Hvl l hd Hl Hh) in Hi. injection Hi as <-. rewrite (Ehs_at hs l hd) by done. apply Hr'. by eapply elem_of_list_lookup_2.
      * set (rho := λ l, match hs !! l with Some hd => e (h_label hd) | None => 0 end).
        destruct (HP e rho He) as (t & Ht & Hy).
        { intros hd (i & Hi)%elem_of_list_lookup. unfold rho. by rewrite (Hlv _ _ Hi), Hi. }
        exists t. split; [|by apply Hy]. rewrite <- Ht. eapply eval_agree; [exact Ho|]. intros l Hl.
        destruct (Hlt l) as [hd Hh]; [lia|]. unfold vec, rho. by rewrite (Hvl l hd), Hh by (done || lia).
Qed.

Lemma found_perm n L : rank d ≤ n → n ≤ length hs → NoDup L →
  (∀ M, M ∈ L ↔ ∃ e, states vars e ∧ P e ∧ M = dense (take n vars) e) → L ≡ₚ found_at n.
Proof.
  intros Hr Hn Hl HL. destruct (found_ok n Hr Hn) as [Hf1 Hf2]. apply NoDup_Permutation; [done|done|]. intros M. by rewrite HL, Hf2.
Qed.

Section weights.
Context {R : Type} (rO rI : R) (radd rmul rsub : R → R → R) (ropp : R → R)
  (Rth : ring_theory rO rI radd rmul rsub ropp eq) (pv : gmap string (list R)).
Local Notation npr := (npr rO rI radd rmul hit).

Lemma table_rows : table_for vars pv → rows_ok pv a.
Proof.
  intros H hd Hin. apply (H (h_label hd) (h_edges hd)). apply elem_of_list_fmap. by exists hd.
Qed.
Lemma npr_sum L : table_for vars pv → sums_to_one rO rI radd vars pv → NoDup L →
  (∀ M, M ∈ L ↔ ∃ e, states vars e ∧ P e ∧ M = dense vars e) →
  npr pv d = ring_sum rO radd (mweight rO rI rmul pv vars <$> L).
Proof.
  intros Ht H1 Hl HL. set (n := length hs).
  assert (Hp : L ≡ₚ found_at n).
  { apply found_perm; [by eapply repr_rank|done|done|]. rewrite take_ge by (rewrite fmap_length; done). done. }
  rewrite (rsum_perm rO rI radd rmul rsub ropp Rth _ _ (fmap_Permutation _ _ _ Hp)). pose proof (repr_E a Hwf Hc _ _ Hd) as Ho. pose proof (repr_rank a Hlv _ _ Hd) as Hr.
  set (W := λ l, match hs !! l with Some hd => row pv hd | None => [] end).
  rewrite <- (wsum_npr rO rI radd rmul rsub ropp Rth hit pv E W n d Ho Hr).
  - unfold wsum, found_at. rewrite <- list_fmap_compose. f_equal. apply list_fmap_ext. intros i v Hv%elem_of_list_lookup_2.
    apply elem_of_enum in Hv as (Hv & _ & _); [|done|done]. unfold compose, mweight, wgt. f_equal.
    apply list_eq. intros l. rewrite list_lookup_imap, !list_lookup_fmap.
    destruct (decide (l < n)) as [Hln|Hln].
    + destruct (lookup_lt_is_Some_2 hs l Hln) as [hd Hh]. destruct (lookup_lt_is_Some_2 v l) as [j Hj]; [lia|].
      rewrite Hj, Hh. cbn. f_equal. unfold state_weight, W. rewrite Hh, (dmap_lookup v l hd Hh), Hj. unfold row.
      by destruct (pv !! h_label hd).
    + rewrite (lookup_ge_None_2 v), (lookup_ge_None_2 hs) by lia. done.
  - intros l Hln. destruct (lookup_lt_is_Some_2 hs l Hln) as [hd Hh]. unfold W. rewrite Hh, (Ehs_at hs l hd) by done. unfold row.
    assert (Hin : (h_label hd, h_edges hd) ∈ vars).
    { apply elem_of_list_fmap. exists hd. split; [done|]. by eapply elem_of_list_lookup_2. }
    destruct (Ht _ _ Hin) as (ps & Hps & Hpl). rewrite Hps. cbn. split; [done|]. by eapply H1.
  - eapply repr_allhd; [|exact Hd]. intros h hd Hh. unfold W. by rewrite (Hlv _ _ Hh), Hh.
Qed.

Lemma half_prob : table_for vars pv → nprob rO rI radd rmul hit a pv f = Some (npr pv d).
Proof. intros Ht. eapply nprob_ok; [exact Rth|done|done|by apply table_rows|done]. Qed.

Lemma table_certain s n j : table_for vars pv → (s, n) ∈ vars → table_for vars (<[s := certain rO rI n j]> pv).
Proof.
  intros Ht Hs s' n' Hs'. destruct (decide (s' = s)) as [->|Hne].
  - exists (certain rO rI n j). rewrite lookup_insert. split; [done|]. unfold certain. rewrite fmap_length, seq_length.
    apply elem_of_list_fmap in Hs as (hd & [= Hl ->] & Hh), Hs' as (hd' & [= Hl' ->] & Hh').
    by rewrite (hd_fun a Hnd hd hd') by congruence.
  - rewrite lookup_insert_ne by done. by apply Ht.
Qed.
Lemma sums_certain s n j : sums_to_one rO rI radd vars pv → j < n → sums_to_one rO rI radd vars (<[s := certain rO rI n j]> pv).
Proof.
  intros H1 Hj s' n' ps Hs'. destruct (decide (s' = s)) as [->|Hne].
  - rewrite lookup_insert. intros [= <-]. pose proof (dot_onehot rO rI radd rmul rsub ropp Rth n j (replicate n rI)) as Hdot.
    rewrite replicate_length in Hdot. specialize (Hdot eq_refl). rewrite lookup_replicate_2 in Hdot by done. cbn in Hdot.
    unfold certain. change ((λ i, if decide (i = j) then rI else rO) <$> seq 0 n) with (onehot rO rI n j).
    pose proof (dot_const rO rI radd rmul rsub ropp Rth (onehot rO rI n j) rI) as Hdc.
    unfold onehot at 2 in Hdc. rewrite fmap_length, seq_length in Hdc. rewrite Hdc in Hdot. rewrite <- Hdot at 2.
    rewrite (Rmul_comm Rth), (Rmul_1_l Rth). done.
  - rewrite lookup_insert_ne by done. by apply (H1 s' n').
Qed.

Lemma half_meas : table_for vars pv → ∃ g, nmeas rO rI radd rmul rsub hit a pv f = Some g ∧
  (∀ s, is_Some (g !! s) ↔ occurs_in a f s) ∧
  ∀ s n slot, g !! s = Some slot → (s, n) ∈ vars → S (length slot) = n ∧
    ∀ k, S k < n → slot !! k = Some (rsub (npr (<[s := certain rO rI n (S k)]> pv) d) (npr (<[s := certain rO rI n k]> pv) d)).
Proof.
  intros Ht. pose proof (table_rows Ht) as Hrows.
  destruct (nmeas_ok rO rI radd rmul rsub ropp Rth hit pv a Hwf Hc Hnd Hrows d f Hd) as (g & Heq & Hs & Hv & Hk).
  exists g. sp; [exact Heq| |].
  - intros s. rewrite Hk. unfold occurs_in. by setoid_rewrite nreaches_reach.
  - intros s n slot Hg Hsn. destruct (Hs _ _ Hg) as (hd & Hh & Hl & Hlen). subst s.
    apply elem_of_list_fmap in Hsn as (hd' & [= Hl' ->] & Hh'). pose proof (hd_fun a Hnd hd hd' Hh Hh' Hl') as <-.
    split; [done|]. intros k Hkn. specialize (Hv (h_label hd) k). unfold sat_ in Hv. rewrite Hg in Hv. cbn [mbind option_bind] in Hv.
    destruct (lookup_lt_is_Some_2 slot k) as [z Hz]; [lia|]. rewrite Hz in Hv |- *. cbn in Hv. subst z. f_equal.
    apply (ND_diff rO rI radd rmul rsub ropp Rth hit pv a Hc Hnd); [|done|by eapply repr_E|].
    + intros hd2 Hh2 Hl2. by rewrite (hd_fun a Hnd hd2 hd).
    + eapply repr_allhd; [|exact Hd]. intros h hd2 Hh2. unfold hdok. by rewrite (Hlv _ _ Hh2).
Qed.
Lemma half_absent s n k : table_for vars pv → (s, n) ∈ vars → ¬ occurs_in a f s → S k < n →
  npr (<[s := certain rO rI n (S k)]> pv) d = npr (<[s := certain rO rI n k]> pv) d.
Proof.
  intros Ht Hsn Hno Hkn. pose proof (table_rows Ht) as Hrows.
  destruct (nmeas_ok rO rI radd rmul rsub ropp Rth hit pv a Hwf Hc Hnd Hrows d f Hd) as (g & Heq & Hs & Hv & Hk).
  apply elem_of_list_fmap in Hsn as (hd & [= -> ->] & Hh). specialize (Hv (h_label hd) k). unfold sat_ in Hv.
  destruct (g !! h_label hd) as [slot|] eqn:Hg.
  { exfalso. apply Hno. unfold occurs_in. setoid_rewrite nreaches_reach. apply Hk. by rewrite Hg. }
  cbn in Hv. rewrite (ND_diff rO rI radd rmul rsub ropp Rth hit pv a Hc Hnd _ _ (h_edges hd)) in Hv; [|..|done|by eapply repr_E|].
  - unfold onehot in Hv. unfold certain. revert Hv. clear -Rth. generalize (npr (<[h_label hd := (λ i, if decide (i = S k) then rI else rO) <$> seq 0 (h_edges hd)]> pv) d).
    generalize (npr (<[h_label hd := (λ i, if decide (i = k) then rI else rO) <$> seq 0 (h_edges hd)]> pv) d). intros p p' Hv.
    rewrite (Rsub_def Rth) in Hv. rewrite <- (Radd_0_l Rth p), Hv, <- (Radd_assoc Rth), (Radd_comm Rth (ropp p)), (Ropp_def Rth), (Radd_comm Rth).
    by rewrite (Radd_0_l Rth).
  - intros hd2 Hh2 Hl2. by rewrite (hd_fun a Hnd hd2 hd).
  - eapply repr_allhd; [|exact Hd]. intros h hd2 Hh2. unfold hdok. by rewrite (Hlv _ _ Hh2).
Qed.
End weights.
End half.

(** ** One half of a manager *)
Section gen.
Context (I : vint) {B : mbase} (w : mmgr) (H : handles) (Hk : gok I w H).
Definition halfok {T} (hit : T → option bool) (a : arena T) (f : nat) (P : menv → Prop) : Prop :=
  awf Rn a ∧ ar_headers a = hdrs (g_mm w) ∧
  ∃ d, repr a d f ∧ ∀ e rho, states (declared w) e → (∀ hd, hd ∈ hdrs (g_mm w) → rho (h_level hd) = e (h_label hd)) →
    ∃ t, eval rho d = Some t ∧ (hit t = Some true ↔ P e).
Definition sols (over : list (string * nat)) (P : menv → Prop) (L : list (gmap string nat)) : Prop :=
  NoDup L ∧ ∀ M, M ∈ L ↔ ∃ e, states (declared w) e ∧ P e ∧ M = dense over e.

Context {T : Type} (hit : T → option bool) (a : arena T) (f : nat) (P : menv → Prop) (Hh : halfok hit a f P).
Lemma half_hyps : hcons (ar_headers a) ∧ (∀ i hd, ar_headers a !! i = Some hd → h_level hd = i) ∧ NoDup (h_label <$> ar_headers a).
Proof.
  destruct Hh as (_ & -> & _). sp; [by eapply gok_hc|apply (gk_lvl _ _ _ Hk)|apply (gk_nodup _ _ _ Hk)].
Qed.
Lemma half_declared : declared w = (λ hd, (h_label hd, h_edges hd)) <$> ar_headers a.
Proof. destruct Hh as (_ & -> & _). done. Qed.

Lemma sols_ex n : (∃ d, repr a d f ∧ rank d ≤ n) → n ≤ length (declared w) → ∃ L, sols (take n (declared w)) P L.
Proof.
  destruct half_hyps as (Hc & Hlv & Hnd). pose proof half_declared as Hde.
  destruct Hh as (Hwf & Hhs & d & Hd & HP). intros (d' & Hd' & Hr) Hn. rewrite (repr_fun _ _ _ _ Hd' Hd) in Hr.
  unfold sols. rewrite Hde in *. rewrite <- Hhs in HP. rewrite fmap_length in Hn.
  eexists. exact (found_ok hit a Hwf Hc Hlv Hnd f d Hd P HP n Hr Hn).
Qed.

Section ring.
Context {R : Type} (rO rI : R) (radd rmul rsub : R → R → R) (ropp : R → R)
  (Rth : ring_theory rO rI radd rmul rsub ropp eq) (pv : gmap string (list R)).
Lemma gen_prob : table_for (declared w) pv → sums_to_one rO rI radd (declared w) pv →
  (∃ L, sols (declared w) P L) ∧
  ∀ L, sols (declared w) P L → nprob rO rI radd rmul hit a pv f = Some (ring_sum rO radd (mweight rO rI rmul pv (declared w) <$> L)).
Proof.
  intros Ht H1. destruct half_hyps as (Hc & Hlv & Hnd). pose proof half_declared as Hde. split.
  - destruct (sols_ex (length (declared w))) as [L HL]; [|done|by exists L; rewrite firstn_all in HL].
    destruct Hh as (Hwf & Hhs & d & Hd & HP). exists d. split; [done|]. rewrite Hde, fmap_length. by eapply repr_rank.
  - destruct Hh as (Hwf & Hhs & d & Hd & HP). unfold sols. rewrite Hde in *. rewrite <- Hhs in HP. intros L [Hl HL].
    rewrite (half_prob hit a Hwf Hc f d Hd rO rI radd rmul rsub ropp Rth pv Ht). f_equal.
    exact (npr_sum hit a Hwf Hc Hlv Hnd f d Hd P HP rO rI radd rmul rsub ropp Rth pv L Ht H1 Hl HL).
Qed.
Lemma gen_meas : table_for (declared w) pv →
  ∃ g, nmeas rO rI radd rmul rsub hit a pv f = Some g ∧ (∀ s, is_Some (g !! s) ↔ occurs_in a f s) ∧
  ∀ s n slot, g !! s = Some slot → (s, n) ∈ declared w → S (length slot) = n ∧
    ∀ k, S k < n → ∃ p p', nprob rO rI radd rmul hit a (<[s := certain rO rI n k]> pv) f = Some p ∧
      nprob rO rI radd rmul hit a (<[s := certain rO rI n (S k)]> pv) f = Some p' ∧ slot !! k = Some (rsub p' p).
Proof.
  intros Ht. destruct half_hyps as (Hc & Hlv & Hnd). pose proof half_declared as Hde.
  destruct Hh as (Hwf & Hhs & d & Hd & HP). rewrite Hde in *.
  destruct (half_meas hit a Hwf Hc Hlv Hnd f d Hd rO rI radd rmul rsub ropp Rth pv Ht) as (g & Hg & Ho & Hs).
  exists g. sp; [done|done|]. intros s n slot Hsl Hin. destruct (Hs s n slot Hsl Hin) as [Hlen Hv]. split; [done|].
  intros k Hkn. eexists _, _. sp; [| |exact (Hv k Hkn)];
    (eapply half_prob; [done|done|done|exact Rth|]; by apply table_certain).
Qed.
Lemma gen_absent s n k : table_for (declared w) pv → (s, n) ∈ declared w → ¬ occurs_in a f s → S k < n → ∃ p,
  nprob rO rI radd rmul hit a (<[s := certain rO rI n k]> pv) f = Some p ∧
  nprob rO rI radd rmul hit a (<[s := certain rO rI n (S k)]> pv) f = Some p.
Proof.
  intros Ht Hsn Hno Hkn. destruct half_hyps as (Hc & Hlv & Hnd). pose proof half_declared as Hde.
  destruct Hh as (Hwf & Hhs & d & Hd & HP). rewrite Hde in *. eexists. split.
  - eapply half_prob; [done|done|done|exact Rth|]. by apply table_certain.
  - rewrite <- (half_absent hit a Hwf Hc Hlv Hnd f d Hd rO rI radd rmul rsub ropp Rth pv s n k Ht Hsn Hno Hkn).
    eapply half_prob; [done|done|done|exact Rth|]. by apply table_certain.
Qed.
Lemma gen_meas_sum : table_for (declared w) pv → sums_to_one rO rI radd (declared w) pv →
  ∀ L, sols (declared w) P L → ∃ g, nmeas rO rI radd rmul rsub hit a pv f = Some g ∧ (∀ s, is_Some (g !! s) ↔ occurs_in a f s) ∧
  ∀ s n slot, g !! s = Some slot → (s, n) ∈ declared w → S (length slot) = n ∧
    ∀ k, S k < n → slot !! k = Some (rsub
      (ring_sum rO radd (mweight rO rI rmul (<[s := certain rO rI n (S k)]> pv) (declared w) <$> L))
      (ring_sum rO radd (mweight rO rI rmul (<[s := certain rO rI n k]> pv) (declared w) <$> L))).
Proof.
  intros Ht H1. destruct half_hyps as (Hc & Hlv & Hnd). pose proof half_declared as Hde.
  destruct Hh as (Hwf & Hhs & d & Hd & HP). unfold sols. rewrite Hde in *. rewrite <- Hhs in HP. intros L [Hl HL].
  destruct (half_meas hit a Hwf Hc Hlv Hnd f d Hd rO rI radd rmul rsub ropp Rth pv Ht) as (g & Hg & Ho & Hs).
  exists g. sp; [done|done|]. intros s n slot Hsl Hin. destruct (Hs s n slot Hsl Hin) as [Hlen Hv]. split; [done|].
  intros k Hkn. rewrite (Hv k Hkn). do 2 f_equal;
    (eapply npr_sum; [done|done|done|done|done|exact HP|exact Rth|by apply table_certain| |done|done]);
    (apply (sums_certain a rO rI radd rmul rsub ropp Rth); [done|lia]).
Qed.
End ring.

Lemma gen_level : ∃ d, repr a d f ∧ rank d = lvn (nlevel a f) ∧ rank d ≤ length (declared w).
Proof.
  destruct half_hyps as (Hc & Hlv & Hnd). pose proof half_declared as Hde. destruct Hh as (Hwf & Hhs & d & Hd & HP).
  exists d. sp; [done| |rewrite Hde, fmap_length; by eapply repr_rank].
  destruct (repr_level a d f Hd) as (nl & Hnl & <-). unfold nlevel. by rewrite Hnl.
Qed.
Lemma gen_count l L : nlevel a f = Some l → sols (take (S l) (declared w)) P L → ncount true hit a f = Some (N.of_nat (length L)).
Proof.
  intros Hl. destruct half_hyps as (Hc & Hlv & Hnd). pose proof half_declared as Hde. destruct gen_level as (d' & Hd' & Hr & Hle).
  destruct Hh as (Hwf & Hhs & d & Hd & HP). rewrite (repr_fun _ _ _ _ Hd' Hd) in *. rewrite Hl in Hr. cbn [lvn] in Hr.
  unfold sols. rewrite Hde in *. rewrite <- Hhs in HP. rewrite fmap_length in Hle. intros [Hn HL].
  rewrite (vcount_ok hit a Hwf Hc Hlv d f l Hd) by (unfold nlevel in Hl; destruct (ar_node_level a f); [cbn in Hl; by subst|done]).
  unfold cnt. do 2 f_equal. rewrite <- (fmap_length (dmap a)). symmetry. apply Permutation_length.
  apply (found_perm hit a Hwf Hc Hlv Hnd f d Hd P HP (S l) L); [lia|lia|done|done].
Qed.
Lemma gen_count_one l L : one_entry a f → nlevel a f = Some l → sols (take (S l) (declared w)) P L →
  ncount false hit a f = Some (N.of_nat (length L)).
Proof.
  intros H1 Hl. destruct half_hyps as (Hc & Hlv & Hnd). pose proof half_declared as Hde. destruct gen_level as (d' & Hd' & Hr & Hle).
  destruct Hh as (Hwf & Hhs & d & Hd & HP). rewrite (repr_fun _ _ _ _ Hd' Hd) in *. rewrite Hl in Hr. cbn [lvn] in Hr.
  unfold sols. rewrite Hde in *. rewrite <- Hhs in HP. rewrite fmap_length in Hle. intros [Hn HL].
  rewrite (bcount_ok hit a Hwf Hc Hlv f l d Hd Hr).
  - unfold cnt. do 2 f_equal. rewrite <- (fmap_length (dmap a)). symmetry. apply Permutation_length.
    apply (found_perm hit a Hwf Hc Hlv Hnd f d Hd P HP (S l) L); [lia|lia|done|done].
  - intros p hd p' hd' c (h & cs & Hre & Hn1 & Hh1 & Hin) (h' & cs' & Hre' & Hn1' & Hh1' & Hin'). apply (H1 c).
    + exists p, h, cs, hd. rewrite nreaches_reach. done.
    + exists p', h', cs', hd'. rewrite nreaches_reach. done.
Qed.
Lemma gen_extract nh : nh = length (hdrs (g_mm w)) → ∃ L k,
  sols (match nlevel a f with Some l => take (S l) (declared w) | None => [] end) P L ∧
  ∀ fuel, k ≤ fuel → nextract fuel hit nh a f = Some L.
Proof.
  intros ->. destruct half_hyps as (Hc & Hlv & Hnd). pose proof half_declared as Hde. destruct gen_level as (d' & Hd' & Hr & Hle).
  destruct Hh as (Hwf & Hhs & d & Hd & HP). rewrite (repr_fun _ _ _ _ Hd' Hd) in *.
  destruct (extract_ok hit a Hwf Hc Hlv Hnd d f Hd) as [k Hk']. exists (dmap a <$> enum hit (Ehs (ar_headers a)) (rank d) d), k.
  split; [|by rewrite <- Hhs]. unfold sols. rewrite Hde in *. rewrite <- Hhs in HP. rewrite fmap_length in Hle.
  replace (match nlevel a f with Some l => take (S l) ((λ hd, (h_label hd, h_edges hd)) <$> ar_headers a) | None => [] end)
    with (take (rank d) ((λ hd, (h_label hd, h_edges hd)) <$> ar_headers a)).
  - exact (found_ok hit a Hwf Hc Hlv Hnd f d Hd P HP (rank d) (le_n _) Hle).
  - rewrite Hr. by destruct (nlevel a f).
Qed.
Lemma gen_size ln lt : nodes_of a f ln lt → nsize a f = Some (N.of_nat (length ln), N.of_nat (length lt), N.of_nat (edges_of a ln)).
Proof.
  intros (Nn & Hn & Nt & Ht). destruct half_hyps as (Hc & Hlv & Hnd). destruct Hh as (Hwf & Hhs & d & Hd & HP).
  rewrite (nsize_ok a Hwf Hc f ln lt); try done.
  - do 3 f_equal. unfold edges_of. f_equal. apply list_fmap_ext. intros i id _. unfold kidsof. by destruct (ar_nodes a !! id) as [[]|].
  - by eapply repr_live.
  - intros id. by rewrite Hn, nreaches_reach.
  - intros id. by rewrite Ht, nreaches_reach.
Qed.
End gen.

(** both halves *)
Lemma in_zs_iff ss z : in_zs ss z = true ↔ z ∈ ss.
Proof.
  unfold in_zs. rewrite existsb_exists. split.
  - intros (y & Hy & Heq). apply Z.eqb_eq in Heq as ->. by apply elem_of_list_In.
  - intros Hz. exists z. split; [by apply elem_of_list_In|apply Z.eqb_refl].
Qed.
Lemma held_half I {B : mbase} w H x F ss : gok I w H → (x, Some F) ∈ H →
  match x with
  | NVal f => halfok w (vhit ss) (var (g_mm w)) f (λ e, chosen ss (F e))
  | NBool f => halfok w (bhit ss) (bar (g_mm w)) f (λ e, chosen ss (F e))
  end.
Proof.
  intros Hk Hx. pose proof (gk_held _ _ _ Hk _ _ Hx) as [Hv Hd]. specialize (Hd F eq_refl). pose proof (gk_wf _ _ _ Hk) as Hw.
  assert (Hb : ∀ e, states (declared w) e → mrange (g_mm w) e) by (intros e He; exact (proj1 (states_iff (hdrs (g_mm w)) e) He)).
  destruct x as [f|f].
  - assert (Hwf : awf Rn (var (g_mm w))) by apply Hw. unfold halfok. sp; [done|apply (mmw_h _ _ Hw)|].
    destruct (nvalid_repr Rn (var (g_mm w)) f Hwf Hv) as [d Hr]. exists d. split; [done|]. intros e rho He Hrho.
    specialize (Hd e (Hb e He)). destruct (F e) as [b|t] eqn:HF; cbn [mvalue] in Hd; [done|]. exists t. split.
    + apply (nval_eval (var (g_mm w)) rho d f t Hr). apply (named_level _ e); [|done]. by rewrite (mmw_h _ _ Hw).
    + unfold chosen. destruct t as [|z]; cbn.
      * split; [done|]. by intros (z' & _ & ?).
      * split.
        -- intros [= Hz]. exists z. split; [by apply in_zs_iff|done].
        -- intros (z' & Hz & [= <-]). f_equal. by apply in_zs_iff.
  - assert (Hwf : awf Rn (bar (g_mm w))) by apply Hw. unfold halfok. sp; [done|done|].
    destruct (nvalid_repr Rn (bar (g_mm w)) f Hwf Hv) as [d Hr]. exists d. split; [done|]. intros e rho He Hrho.
    specialize (Hd e (Hb e He)). destruct (F e) as [b|t] eqn:HF; cbn [mvalue] in Hd; [|done]. exists (tvb b). split.
    + apply (nval_eval (bar (g_mm w)) rho d f _ Hr). by apply (named_level _ e).
    + unfold chosen. destruct b; cbn; split.
      1,3: intros [= Hz]; eexists; split; [by apply in_zs_iff|done].
      1,2: intros (z' & Hz & [= <-]); f_equal; by apply in_zs_iff.
Qed.

(** more fuel does not change what the iterator yields *)
Lemma collect_mono {T} (hit : T → option bool) (a : arena T) tab k : ∀ k' p L, k ≤ k' →
  mdpath_collect k hit a tab p = Some L → mdpath_collect k' hit a tab p = Some L.
Proof.
  induction k as [|k IH]; intros k' p L Hle Hc.
  - cbn in Hc. destruct k'; cbn; by destruct (dp_stack p).
  - destruct k' as [|k']; [lia|]. cbn in *. destruct (dp_stack p); [done|].
    destruct (mdpath_step hit a tab p) as [[p' out]|]; [|done]. cbn [mbind option_bind] in *.
    destruct (mdpath_collect k hit a tab p') as [rest|] eqn:Hr; [|done]. cbn [mbind option_bind] in *.
    rewrite (IH k' p' rest) by (done || lia). done.
Qed.
Lemma extract_mono k k' w x ss L : k ≤ k' → g_extract k w x ss = Some L → g_extract k' w x ss = Some L.
Proof.
  intros Hle. unfold g_extract, nextract. destruct x as [f|f]; (destruct (path_tables _ _) as [tab|]; [|done]);
    cbn [mbind option_bind]; by apply collect_mono.
Qed.

(** ** Handles *)
Section held.
Context (I : vint) (w : mmgr) (H : handles) (x : mnode) (F : mfn) (ss : list Z) (Hm : mdd_held I w H) (Hx : (x, Some F) ∈ H).
Lemma held_extract : ∃ L k, solutions (declared w) (scope w x) F ss L ∧ ∀ fuel, k ≤ fuel → g_extract fuel w x ss = Some L.
Proof.
  pose proof (held_gok I w H Hm) as Hk. pose proof (held_half I w H x F ss Hk Hx) as Hh. unfold solutions, scope, g_extract, g_level.
  destruct x as [f|f]; apply (gen_extract I w H Hk _ _ f _ Hh); [|rewrite (mmw_h _ _ (gk_wf _ _ _ Hk))]; try done.
  all: by rewrite (mmw_h _ _ (gk_wf _ _ _ Hk)).
Qed.
Lemma held_extract_at fuel L : g_extract fuel w x ss = Some L → solutions (declared w) (scope w x) F ss L.
Proof.
  intros Hf. destruct held_extract as (L' & k & HL & Hk). specialize (Hk (max k fuel) ltac:(lia)).
  apply (extract_mono _ (max k fuel)) in Hf; [|lia]. congruence.
Qed.
Lemma held_count f l L : x = NVal f → g_level w x = Some l → solutions (declared w) (scope w x) F ss L →
  g_count w x ss = Some (N.of_nat (length L)).
Proof.
  intros -> Hl. pose proof (held_gok I w H Hm) as Hk. pose proof (held_half I w H _ F ss Hk Hx) as Hh.
  unfold solutions, scope. rewrite Hl. exact (gen_count I w H Hk _ _ f _ Hh l L Hl).
Qed.
Lemma held_count_bool f l L : x = NBool f → one_entry (d_ar (mm_b (g_mm w))) f → g_level w x = Some l →
  solutions (declared w) (scope w x) F ss L → g_count w x ss = Some (N.of_nat (length L)).
Proof.
  intros -> H1 Hl. pose proof (held_gok I w H Hm) as Hk. pose proof (held_half I w H _ F ss Hk Hx) as Hh.
  unfold solutions, scope. rewrite Hl. exact (gen_count_one I w H Hk _ _ f _ Hh l L H1 Hl).
Qed.
Lemma held_count_const : g_level w x = None → g_count w x ss = Some 1%N.
Proof.
  pose proof (held_gok I w H Hm) as Hk. pose proof (held_half I w H x F ss Hk Hx) as Hh. unfold g_level, g_count, nlevel, ncount.
  destruct x as [f|f]; destruct Hh as (_ & _ & d & Hd & _); rewrite (a_node_level _ _ _ Hd); by destruct d.
Qed.
Lemma held_size ln lt : m_nodes_of w x ln lt →
  g_size w x = Some (N.of_nat (length ln), N.of_nat (length lt), N.of_nat (m_edges_of w x ln)).
Proof.
  pose proof (held_gok I w H Hm) as Hk. pose proof (held_half I w H x F ss Hk Hx) as Hh.
  destruct x as [f|f]; cbn [m_nodes_of m_edges_of g_size]; exact (gen_size I w H Hk _ _ f _ Hh ln lt).
Qed.
Context {R : Type} (rO rI : R) (radd rmul rsub : R → R → R) (ropp : R → R)
  (Rth : ring_theory rO rI radd rmul rsub ropp eq) (pv : gmap string (list R)) (Ht : table_for (declared w) pv).
Lemma held_prob : sums_to_one rO rI radd (declared w) pv →
  (∃ L, solutions (declared w) (declared w) F ss L) ∧
  ∀ L, solutions (declared w) (declared w) F ss L →
    g_prob rO rI radd rmul w x pv ss = Some (ring_sum rO radd (mweight rO rI rmul pv (declared w) <$> L)).
Proof.
  intros H1. pose proof (held_gok I w H Hm) as Hk. pose proof (held_half I w H x F ss Hk Hx) as Hh.
  destruct x as [f|f]; exact (gen_prob I w H Hk _ _ f _ Hh rO rI radd rmul rsub ropp Rth pv Ht H1).
Qed.
Lemma held_meas : ∃ g, g_bmeas rO rI radd rmul rsub w x pv ss = Some g ∧ (∀ s, is_Some (g !! s) ↔ m_occurs w x s) ∧
  ∀ s n slot, g !! s = Some slot → (s, n) ∈ declared w → S (length slot) = n ∧
    ∀ k, S k < n → ∃ p p', g_prob rO rI radd rmul w x (<[s := certain rO rI n k]> pv) ss = Some p ∧
      g_prob rO rI radd rmul w x (<[s := certain rO rI n (S k)]> pv) ss = Some p' ∧ slot !! k = Some (rsub p' p).
Proof.
  pose proof (held_gok I w H Hm) as Hk. pose proof (held_half I w H x F ss Hk Hx) as Hh.
  destruct x as [f|f]; exact (gen_meas I w H Hk _ _ f _ Hh rO rI radd rmul rsub ropp Rth pv Ht).
Qed.
Lemma held_absent s n k : (s, n) ∈ declared w → ¬ m_occurs w x s → S k < n → ∃ p,
  g_prob rO rI radd rmul w x (<[s := certain rO rI n k]> pv) ss = Some p ∧
  g_prob rO rI radd rmul w x (<[s := certain rO rI n (S k)]> pv) ss = Some p.
Proof.
  pose proof (held_gok I w H Hm) as Hk. pose proof (held_half I w H x F ss Hk Hx) as Hh.
  destruct x as [f|f]; exact (gen_absent I w H Hk _ _ f _ Hh rO rI radd rmul rsub ropp Rth pv s n k Ht).
Qed.
Lemma held_meas_sum : sums_to_one rO rI radd (declared w) pv → ∀ L, solutions (declared w) (declared w) F ss L →
  ∃ g, g_bmeas rO rI radd rmul rsub w x pv ss = Some g ∧ (∀ s, is_Some (g !! s) ↔ m_occurs w x s) ∧
  ∀ s n slot, g !! s = Some slot → (s, n) ∈ declared w → S (length slot) = n ∧
    ∀ k, S k < n → slot !! k = Some (rsub
      (ring_sum rO radd (mweight rO rI rmul (<[s := certain rO rI n (S k)]> pv) (declared w) <$> L))
      (ring_sum rO radd (mweight rO rI rmul (<[s := certain rO rI n k]> pv) (declared w) <$> L))).
Proof.
  pose proof (held_gok I w H Hm) as Hk. pose proof (held_half I w H x F ss Hk Hx) as Hh.
  destruct x as [f|f]; exact (gen_meas_sum I w H Hk _ _ f _ Hh rO rI radd rmul rsub ropp Rth pv Ht).
Qed.
End held.
