(** The size of a k-out-of-n gate over variables: proofs. *)
From stdpp Require Import strings sorting.
From Verif Require Import Prelude ComputeCache ComputeCacheProofs Arena Trees ArenaProofs ArenaMore Subdd Bdd BddProofs SpecBdd SpecBss BddMain BssAlg BssSize
  BssMgr SpecBssMgr BssMgrProofs BssMgrMain BssLook SpecSize SizeBound.

Fixpoint thr (hs : list header) (j : nat) : dd tv :=
  match hs with
  | [] => Leaf (tvb (j =? 0))
  | hd :: hs' => if j =? 0 then Leaf TOne else if length hs <? j then Leaf TZero else Br hd [thr hs' j; thr hs' (j - 1)]
  end.
Definition ones (hs : list header) (ρ : nat → nat) : nat := length (filter (λ hd, ρ (h_level hd) = 1) hs).
Lemma ones_le hs ρ : ones hs ρ ≤ length hs.
Proof. apply filter_length. Qed.
Lemma thr_eval hs j ρ : vok E2 ρ → eval ρ (thr hs j) = Some (tvb (j <=? ones hs ρ)).
Proof.
  intros Hv. revert j. induction hs as [|hd hs IH]; intros j; cbn [thr]; [by destruct j|].
  destruct (Nat.eqb_spec j 0) as [->|Hj]; [done|]. pose proof (ones_le (hd :: hs) ρ). cbn [length] in *.
  destruct (Nat.ltb_spec (S (length hs)) j) as [Hlt|Hge].
  { destruct (Nat.leb_spec j (ones (hd :: hs) ρ)); [lia|done]. }
  assert (Hones : ones (hd :: hs) ρ = (if ρ (h_level hd) =? 1 then 1 else 0) + ones hs ρ).
  { unfold ones. rewrite filter_cons. destruct (decide _) as [Hd|Hd]; destruct (Nat.eqb_spec (ρ (h_level hd)) 1); done. }
  rewrite eval_br, Hones. destruct (vok_2 ρ (h_level hd) Hv) as [Hz|Hz]; rewrite Hz; cbn [Nat.eqb lookup list_lookup mbind option_bind Nat.add]; rewrite IH; [done|].
  do 2 f_equal. destruct (Nat.leb_spec (j - 1) (ones hs ρ)), (Nat.leb_spec j (S (ones hs ρ))); done || lia.
Qed.
Definition above (x y : header) : Prop := h_level y < h_level x.
Lemma thr_ok hs : StronglySorted above hs → ∀ j l, Forall (λ hd, h_level hd < l) hs → okdd E2 (thr hs j) ∧ rank (thr hs j) ≤ l.
Proof.
  induction 1 as [|hd hs _ IH Hhd]; intros j l Hl; cbn [thr]; [split; [done|cbn; lia]|].
  destruct (j =? 0); [split; [done|cbn; lia]|]. destruct (_ <? _); [split; [done|cbn; lia]|]. apply Forall_cons in Hl as [Hl _].
  destruct (IH j (h_level hd) Hhd), (IH (j - 1) (h_level hd) Hhd). split; [|cbn; lia]. apply okdd_br. split; [done|]. repeat constructor; done.
Qed.

(** the grid of thresholds below [thr hs k] *)
Definition cell (hs : list header) (p : nat * nat) : dd tv := thr (drop (length hs - (p.1 + p.2)) hs) p.1.
Definition grid (k t : nat) : list (nat * nat) := seq 1 k ≫= λ j, pair j <$> seq 0 t.
Lemma grid_elem k t j i : (j, i) ∈ grid k t ↔ 1 ≤ j ≤ k ∧ i < t.
Proof.
  unfold grid. rewrite elem_of_list_bind. split.
  - intros (j' & Hp & Hj). apply elem_of_list_fmap in Hp as (i' & [= -> ->] & Hi). rewrite elem_of_seq in Hj, Hi. lia.
  - intros [Hj Hi]. exists j. rewrite elem_of_seq. split; [|lia]. apply elem_of_list_fmap. exists i. rewrite elem_of_seq. split; [done|lia].
Qed.
Lemma grid_length k t : length (grid k t) = k * t.
Proof.
  unfold grid. generalize 1 at 1. induction k as [|k IH]; intros n; [done|]. cbn [seq]. rewrite bind_cons, app_length, fmap_length, seq_length, IH. lia.
Qed.
Lemma thr_sub hs k : ∀ hs' j s, (∃ m, hs' = drop m hs) → j ≤ k → length hs' - j ≤ length hs - k → sub s (thr hs' j) →
  s ∈ Leaf TZero :: Leaf TOne :: (cell hs <$> grid k (S (length hs - k))).
Proof.
  induction hs' as [|hd hs' IH]; intros j s Hm Hj Hlen Hs; cbn [thr] in Hs.
  { inversion Hs; subst. destruct (j =? 0); cbn; [by right; left|by left]. }
  destruct (Nat.eqb_spec j 0) as [->|Hj0]; [inversion Hs; subst; by right; left|].
  destruct (Nat.ltb_spec (length (hd :: hs')) j) as [Hlt|Hge]; [inversion Hs; subst; by left|].
  assert (∃ m, hs' = drop m hs) as Hm'.
  { destruct Hm as [m Hm]. exists (S m). change hs' with (tail (hd :: hs')). rewrite Hm. clear. revert m. induction hs; intros [|m]; try done. cbn. apply IHhs. }
  cbn [length] in *. inversion Hs as [Hsd|hd' cs c Hc Hsc Hsd]; subst.
  - do 2 right. apply elem_of_list_fmap. exists (j, S (length hs') - j). split; [|apply grid_elem; lia].
    unfold cell. cbn [fst snd]. replace (j + (S (length hs') - j)) with (S (length hs')) by lia.
    destruct Hm as [m Hm]. pose proof (f_equal length Hm) as Hl. rewrite drop_length in Hl. cbn [length] in Hl.
    replace (length hs - S (length hs')) with m by lia. rewrite <- Hm. cbn [thr].
    destruct (Nat.eqb_spec j 0); [lia|]. destruct (Nat.ltb_spec (length (hd :: hs')) j); [cbn [length] in *; lia|done].
  - apply elem_of_cons in Hc as [->|Hc].
    + apply (IH j); try done. lia.
    + apply elem_of_list_singleton in Hc as ->. apply (IH (j - 1)); try done; lia.
Qed.

Lemma held_kofn w H k xs r R names s : bss_held w H → (r, R) ∈ H → w_varorder w = Some names → NoDup xs → (∀ x, x ∈ xs → x ∈ names) →
  (∀ e, R e = (k <=? length (filter (λ x, e x = true) xs))) → w_size w r = Some s →
  (vertices s ≤ N.of_nat (k * (length xs + 1 - k) + 2))%N.
Proof.
  intros Hh Hr Hn Hnx Hx HR Hs. apply held_wok in Hh as Hk. pose proof (wk_wf _ _ Hk) as Hw. pose proof (bw_good _ Hw) as Hgd.
  pose proof (gd_wf _ Hgd) as Hwf. pose proof (levels_distinct _ _ Hk) as Hlv. rewrite (varorder_ok w H Hk) in Hn. injection Hn as <-.
  set (a := b_ar (w_bdd w)) in *. set (hs := ar_headers a) in *. pose proof (wk_lvl _ _ Hk) as Hl. pose proof (wk_nodup _ _ Hk) as Hnd. fold a hs in Hl, Hnd.
  assert (bdd_valid (w_bdd w) r) as Vr by (apply (wk_held _ _ Hk r R); done).
  destruct (valid_repr _ _ Hw Vr) as [dr Hdr]. destruct (size_nodes _ _ Hw Vr) as (lr & s2 & Hs2 & Hv2 & Hndr & Hlr).
  unfold w_size in Hs. rewrite Hs in Hs2. injection Hs2 as <-. rewrite Hv2.
  destruct (decide (k ≤ length xs)) as [Hkn|Hkn].
  2:{ (* constantly false *)
    assert (length lr ≤ length [Leaf TZero : dd tv] * 1); [|cbn [length] in *; lia].
    apply (comb_bound Rb E2 a (λ os, match os with [o] => o | _ => None end) lr r dr [Leaf TZero] [[Leaf TZero]]); try done.
    - unfold E2. lia.
    - intros d j. by apply good_ok.
    - intros d1 d2 j j'. by apply canon_eval.
    - intros x. apply Hlr.
    - by constructor.
    - constructor; [|constructor]. intros t Ht. inversion Ht; subst. by left.
    - intros ρ Hvk. destruct (env_of_rho w H (λ l, ρ l =? 1) Hk) as [e He]. cbn [map eval].
      rewrite (held_eval w H r R dr ρ Hk) with (e := e) by (try done; by apply Hk). rewrite HR.
      pose proof (filter_length (λ x, e x = true) xs). destruct (Nat.leb_spec k (length (filter (λ x, e x = true) xs))); [lia|done]. }
  set (vs := filter (λ hd, h_label hd ∈ xs) (rev hs)).
  assert (Hsort : StronglySorted above vs).
  { subst vs. assert (StronglySorted above (rev hs)) as Hso.
    { clear -Hl. assert (∀ l, (∀ i hd, l !! i = Some hd → h_level hd = i) → StronglySorted above (rev l)) as Hgen; [|by apply Hgen].
      intros l. induction l as [|hd l IH] using rev_ind; intros Hi; [constructor|]. rewrite rev_app_distr. cbn [rev app]. constructor.
      - apply IH. intros i hd' Hi'. apply Hi. by apply lookup_app_l_Some.
      - apply Forall_forall. intros hd' [i Hi']%elem_of_list_In%in_rev%elem_of_list_In%elem_of_list_lookup. unfold above.
        rewrite (Hi (length l) hd) by (rewrite list_lookup_middle; done). rewrite (Hi i hd') by (by apply lookup_app_l_Some). by eapply lookup_lt_Some. }
    revert Hso. generalize (rev hs). induction 1 as [|hd l _ IH Hf]; [constructor|]. rewrite filter_cons. destruct (decide _); [|done]. constructor; [done|].
    apply Forall_forall. intros y [_ Hy]%elem_of_list_filter. rewrite Forall_forall in Hf. by apply Hf. }
  assert (Hperm : h_label <$> vs ≡ₚ xs).
  { apply NoDup_Permutation.
    - subst vs. assert (NoDup (h_label <$> rev hs)) as Hnr.
      { apply (NoDup_Permutation_proper _ (h_label <$> hs)); [|done]. apply fmap_Permutation. symmetry. apply Permutation_rev. }
      revert Hnr. generalize (rev hs). induction l as [|hd l IH]; intros Hl'; [done|]. rewrite fmap_cons, NoDup_cons in Hl'. destruct Hl' as [Hni Hl'].
      rewrite filter_cons. destruct (decide _); [|by apply IH]. rewrite fmap_cons, NoDup_cons. split; [|by apply IH].
      intros (hd' & E & [_ Hin]%elem_of_list_filter)%elem_of_list_fmap. apply Hni, elem_of_list_fmap. by exists hd'.
    - done.
    - intros x. split.
      + by intros (hd & -> & [? _]%elem_of_list_filter)%elem_of_list_fmap.
      + intros Hxx. pose proof (Hx x Hxx) as (hd & -> & Hhd)%elem_of_list_fmap. apply elem_of_list_fmap. exists hd. split; [done|].
        apply elem_of_list_filter. split; [done|]. by apply elem_of_list_In, in_rev, elem_of_list_In in Hhd. }
  assert (Hlen : length vs = length xs) by (by rewrite <- Hperm, fmap_length).
  set (Lt := Leaf TZero :: Leaf TOne :: (cell vs <$> grid k (S (length vs - k)))).
  assert (length lr ≤ length Lt * 1); [|subst Lt; cbn [length] in *; rewrite fmap_length, grid_length in *; rewrite Hlen in *;
    replace (length xs + 1 - k) with (S (length xs - k)) by lia; lia].
  destruct (thr_ok vs Hsort k (length hs)) as [Hok _].
  { apply Forall_forall. intros hd [_ [i Hi]%elem_of_list_In%in_rev%elem_of_list_In%elem_of_list_lookup]%elem_of_list_filter.
    rewrite (Hl _ _ Hi). by eapply lookup_lt_Some. }
  apply (comb_bound Rb E2 a (λ os, match os with [o] => o | _ => None end) lr r dr [thr vs k] [Lt]); try done.
  - unfold E2. lia.
  - intros d j. by apply good_ok.
  - intros d1 d2 j j'. by apply canon_eval.
  - intros x. apply Hlr.
  - by constructor.
  - constructor; [|constructor]. intros t Ht. apply (thr_sub vs k vs k t); try done. by exists 0.
  - intros ρ Hvk. destruct (env_of_rho w H (λ l, ρ l =? 1) Hk) as [e He]. cbn [map].
    rewrite (held_eval w H r R dr ρ Hk) with (e := e) by (try done; by apply Hk). rewrite thr_eval, HR by done. do 3 f_equal.
    rewrite <- Hperm. unfold ones. clear -He Hvk Hl. assert (Hin : ∀ hd, hd ∈ vs → e (h_label hd) = true ↔ ρ (h_level hd) = 1).
    { intros hd [_ [i Hi]%elem_of_list_In%in_rev%elem_of_list_In%elem_of_list_lookup]%elem_of_list_filter. rewrite (Hl _ _ Hi).
      assert (e (h_label hd) = (ρ i =? 1)) as ->; [|destruct (Nat.eqb_spec (ρ i) 1); naive_solver].
      rewrite <- He by (by eapply lookup_lt_Some). unfold rho_of, lab. fold a hs. by rewrite Hi. }
    revert Hin. generalize vs. induction vs0 as [|hd l IH]; intros Hin; [done|]. rewrite fmap_cons, !filter_cons.
    specialize (IH (λ x Hx, Hin x (elem_of_list_further _ _ _ Hx))). pose proof (Hin hd (elem_of_list_here _ _)) as [H1 H2].
    destruct (decide (e (h_label hd) = true)), (decide (ρ (h_level hd) = 1)); cbn [length]; tauto || congruence.
Qed.
