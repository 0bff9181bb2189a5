(** minpath and mincut: the listed vectors are the minimal / maximal state vectors. *)
From stdpp Require Import strings.
From Verif Require Import Prelude ComputeCache Arena Bdd Mdd MtMdd MtMdd2 Zmdd ZmddAlg BssMgr MddMinsol MssConv MssMgr
  Trees ArenaProofs ArenaMore SpecBdd SpecMdd SpecZmdd SpecZmddAlg SpecBssMgr SpecMss NaryProofs MddProofs MddMain MtProofs MmProofs MmMain
  ZmddTrees ZmddProofs ZmddMain MssTrees MssSol MddMinsolProofs MssConvProofs.

(** ** State vectors by name and by level *)
Section vecs.
Context (hs : list header) (Hc : hcons hs) (Hlv : ∀ i hd, hs !! i = Some hd → h_level hd = i)
  (Hnd : NoDup (h_label <$> hs)) (rv : bool).
Notation vars := ((λ hd, (h_label hd, h_edges hd)) <$> hs).
Notation off := (offset rv vars).

Lemma off_at e i hd : hs !! i = Some hd → off e i = if rv then h_edges hd - 1 - e (h_label hd) else e (h_label hd).
Proof. intros Hi. unfold offset. by rewrite list_lookup_fmap, Hi. Qed.
Lemma off_out e l : length hs ≤ l → off e l = 0.
Proof. intros Hl. unfold offset. rewrite list_lookup_fmap, lookup_ge_None_2 by done. done. Qed.
Lemma states_iff e : states vars e ↔ ∀ hd, hd ∈ hs → e (h_label hd) < h_edges hd.
Proof.
  split.
  - intros H hd Hin. apply H. apply elem_of_list_fmap. by exists hd.
  - intros H s n (hd & [= -> ->] & Hin)%elem_of_list_fmap. by apply H.
Qed.
Lemma names_elem s : s ∈ vars.*1 ↔ ∃ hd, hd ∈ hs ∧ h_label hd = s.
Proof.
  rewrite <- list_fmap_compose, elem_of_list_fmap. split; intros (hd & H1 & H2); exists hd; naive_solver.
Qed.
Lemma off_vokh e : states vars e → vokh hs (off e).
Proof.
  rewrite states_iff. intros H hd Hin. specialize (H hd Hin). apply elem_of_list_lookup in Hin as [i Hi].
  rewrite (Hlv _ _ Hi), (off_at e i hd Hi). destruct rv; lia.
Qed.
Lemma off_surj y : vokh hs y → ∃ e, states vars e ∧ ∀ l, l < length hs → off e l = y l.
Proof.
  intros Hy.
  set (e := λ s, match list_find (λ hd, h_label hd = s) hs with
    | Some (i, hd) => if rv then h_edges hd - 1 - y i else y i | None => 0 end).
  assert (He : ∀ i hd, hs !! i = Some hd → e (h_label hd) = if rv then h_edges hd - 1 - y i else y i).
  { intros i hd Hi. unfold e. destruct (list_find _ _) as [[j hd']|] eqn:Hf.
    - apply list_find_Some in Hf as (Hj & Hlab & _).
      assert (j = i) as ->.
      { eapply NoDup_lookup; [exact Hnd|rewrite list_lookup_fmap, Hj; done|]. rewrite list_lookup_fmap, Hi. cbn. by rewrite Hlab. }
      rewrite Hi in Hj. by injection Hj as <-.
    - apply list_find_None in Hf. rewrite Forall_forall in Hf. by destruct (Hf hd (elem_of_list_lookup_2 _ _ _ Hi)). }
  exists e. split.
  - apply states_iff. intros hd [i Hi]%elem_of_list_lookup. rewrite (He i hd Hi).
    specialize (Hy hd (elem_of_list_lookup_2 _ _ _ Hi)). rewrite (Hlv _ _ Hi) in Hy. destruct rv; lia.
  - intros l [hd Hl]%lookup_lt_is_Some. rewrite (off_at e l hd Hl), (He l hd Hl).
    specialize (Hy hd (elem_of_list_lookup_2 _ _ _ Hl)). rewrite (Hlv _ _ Hl) in Hy. destruct rv; lia.
Qed.
Lemma off_le e e' : states vars e → states vars e' →
  (∀ l, off e l ≤ off e' l) ↔ if rv then below_on vars e' e else below_on vars e e'.
Proof.
  rewrite !states_iff. intros He He'. split.
  - intros H. assert (Hs : ∀ hd, hd ∈ hs → if rv then e' (h_label hd) ≤ e (h_label hd) else e (h_label hd) ≤ e' (h_label hd)).
    { intros hd Hin. specialize (He hd Hin). specialize (He' hd Hin). apply elem_of_list_lookup in Hin as [i Hi].
      specialize (H i). rewrite !(off_at _ i hd Hi) in H. destruct rv; lia. }
    clear H. destruct rv; intros s (hd & Hin & <-)%names_elem; by apply Hs.
  - intros H l. destruct (decide (l < length hs)) as [[hd Hl]%lookup_lt_is_Some|Hge].
    + rewrite !(off_at _ l hd Hl). apply elem_of_list_lookup_2 in Hl.
      destruct rv; specialize (H (h_label hd) (proj2 (names_elem _) (ex_intro _ hd (conj Hl eq_refl)))); lia.
    + rewrite !off_out by lia. done.
Qed.
Lemma off_eq e e' : states vars e → states vars e' → (∀ l, off e l = off e' l) ↔ same_on vars e e'.
Proof.
  rewrite !states_iff. intros He He'. split.
  - intros H s (hd & Hin & <-)%names_elem. specialize (He hd Hin). specialize (He' hd Hin). apply elem_of_list_lookup in Hin as [i Hi].
    specialize (H i). rewrite !(off_at _ i hd Hi) in H. destruct rv; lia.
  - intros H l. destruct (decide (l < length hs)) as [[hd Hl]%lookup_lt_is_Some|Hge].
    + rewrite !(off_at _ l hd Hl). rewrite H; [done|]. apply names_elem. exists hd. split; [|done]. by eapply elem_of_list_lookup_2.
    + rewrite !off_out by lia. done.
Qed.

Lemma df_rank {T} (df : dd T) : okh hs df → rank df ≤ length hs.
Proof.
  intros Ho. destruct df as [t|hd cs]; [cbn; lia|]. destruct (okh_level hs hd cs Hc Ho) as (hd' & [i Hi]%elem_of_list_lookup & Hl & _).
  cbn [rank]. rewrite <- Hl, (Hlv _ _ Hi). by apply lookup_lt_Some in Hi.
Qed.
Lemma eval_low {T} (df : dd T) x y : okh hs df → (∀ l, l < length hs → x l = y l) → eval x df = eval y df.
Proof. intros Ho H. apply (eval_agree (Eof hs (λ _, 0))); [apply Ho|]. intros l Hl. apply H. pose proof (df_rank df Ho). lia. Qed.

(** ** The structure function and its diagram, read in the direction [rv] *)
Section phi.
Context {T : Type} (sc : T → option Z) (le : T → T → Prop)
  (le_refl : ∀ a, le a a) (le_trans : ∀ a b e, le a b → le b e → le a e) (le_anti : ∀ a b, le a b → le b a → a = b)
  (sc_le : ∀ t t' z z', sc t = Some z → sc t' = Some z' → le t t' ↔ (z <= z')%Z)
  (sc_inj : ∀ t t' z, sc t = Some z → sc t' = Some z → t = t')
  (df : dd T) (Ho : okh hs df) (phi : menv → Z)
  (Hval : ∀ e, states vars e → ∃ t, eval (off e) df = Some t ∧ sc t = Some (phi e)).

(** every vector in range is that of some states *)
Lemma vec_states x : vokh hs x → ∃ e t, states vars e ∧ (∀ l, l < length hs → off e l = x l) ∧
  eval x df = Some t ∧ sc t = Some (phi e).
Proof.
  intros Hx. destruct (off_surj x Hx) as (e & He & Hl). destruct (Hval e He) as (t & Ht & Hs). exists e, t. sp; try done.
  rewrite <- Ht. apply eval_low; [done|]. intros l ?. symmetry. by apply Hl.
Qed.
Lemma off_le_low e e' x y : states vars e → states vars e' → (∀ l, l < length hs → off e l = x l) →
  (∀ l, l < length hs → off e' l = y l) → (∀ l, x l ≤ y l) → if rv then below_on vars e' e else below_on vars e e'.
Proof.
  intros He He' Hx Hy Hxy. apply off_le; try done. intros l. destruct (decide (l < length hs)) as [Hl|Hl].
  - by rewrite Hx, Hy.
  - rewrite !off_out by lia. done.
Qed.

Lemma monotone_iff : monotone vars phi ↔ monot (lle rv le) hs df.
Proof.
  split.
  - intros Hm x y a b Hx Hy Hxy Ha Hb. destruct (vec_states x Hx) as (e & t & He & Hex & Ht & Hs).
    destruct (vec_states y Hy) as (e' & t' & He' & Hey & Ht' & Hs'). rewrite Ha in Ht. injection Ht as <-.
    rewrite Hb in Ht'. injection Ht' as <-. pose proof (off_le_low e e' x y He He' Hex Hey Hxy) as Hb'. unfold lle.
    destruct rv; [rewrite (sc_le _ _ _ _ Hs' Hs)|rewrite (sc_le _ _ _ _ Hs Hs')]; by apply Hm.
  - intros Hm e e' He He' Hb. destruct (Hval e He) as (t & Ht & Hs). destruct (Hval e' He') as (t' & Ht' & Hs').
    rewrite <- (sc_le _ _ _ _ Hs Hs').
    pose proof (off_le e e' He He') as L1. pose proof (off_le e' e He' He) as L2. pose proof (off_vokh e He) as V1. pose proof (off_vokh e' He') as V2.
    unfold lle in Hm. destruct rv.
    + eapply Hm; [exact V2|exact V1| |exact Ht'|exact Ht]. by apply L2.
    + eapply Hm; [exact V1|exact V2| |exact Ht|exact Ht']. by apply L1.
Qed.

Lemma lmin x t : monot (lle rv le) hs df → locmin hs df x t ↔ vokh hs x ∧ eval x df = Some t ∧
    ∀ y, (∀ l, y l ≤ x l) → eval y df = Some t → ∀ l, y l = x l.
Proof.
  intros Hm. apply (locmin_min (lle rv le)); try done; unfold lle; destruct rv; eauto.
Qed.

(** the recorded extremal vectors *)
Lemma extremal_iff x z : monot (lle rv le) hs df → extremal rv vars phi x z ↔ ∃ t, sc t = Some z ∧ locmin hs df x t.
Proof.
  intros Hm.
  assert (Hext : ∀ e, (if rv then maximal else minimal) vars (λ e, phi e = z) e ↔
    states vars e ∧ phi e = z ∧ ∀ e', states vars e' → phi e' = z → (∀ l, off e' l ≤ off e l) → ∀ l, off e' l = off e l).
  { intros e. split.
    - intros H. assert (H0 : states vars e ∧ phi e = z) by (destruct rv; split; apply H). destruct H0 as [He Hz]. sp; try done.
      intros e' He' Hz' Hle. apply off_eq; try done. apply off_le in Hle; try done. destruct rv; by apply H.
    - intros (He & Hz & H). assert (H' : ∀ e', states vars e' → phi e' = z →
         (if rv then below_on vars e e' else below_on vars e' e) → same_on vars e' e).
      { intros e' He' Hz' Hb. apply off_eq; try done. apply H; try done. by apply off_le. }
      clear H. destruct rv; sp; done. }
  unfold extremal. setoid_rewrite Hext. clear Hext. split.
  - intros (e & (He & Hz & Hmin) & Hx). destruct (Hval e He) as (t & Ht & Hs). rewrite Hz in Hs. exists t. split; [done|].
    apply lmin; [done|]. pose proof (off_vokh e He) as Hv. sp.
    + intros hd Hin. rewrite Hx. by apply Hv.
    + rewrite <- Ht. apply eval_zeq. intros l. by rewrite Hx.
    + intros y Hy Hey. assert (Hvy : vokh hs y).
      { intros hd Hin. specialize (Hv hd Hin). specialize (Hy (h_level hd)). rewrite Hx in Hy. lia. }
      destruct (vec_states y Hvy) as (e' & t' & He' & Hle & Ht' & Hs'). rewrite Hey in Ht'. injection Ht' as <-.
      rewrite Hs in Hs'. injection Hs' as Hz'. 
      assert (Hall : ∀ l, off e' l ≤ off e l).
      { intros l. destruct (decide (l < length hs)) as [Hl|Hl]; [rewrite Hle, <- Hx by done; done|by rewrite !off_out by lia]. }
      intros l. specialize (Hmin e' He' (eq_sym Hz') Hall l). destruct (decide (l < length hs)) as [Hl|Hl].
      * rewrite <- Hle, Hx by done. done.
      * specialize (Hy l). rewrite Hx in *. rewrite off_out in * by lia. lia.
  - intros (t & Hs & (Hv & Ht & Hmin)%lmin); [|done]. destruct (vec_states x Hv) as (e & t' & He & Hle & Ht' & Hs').
    rewrite Ht in Ht'. injection Ht' as <-. rewrite Hs in Hs'. injection Hs' as Hz.
    assert (Hxo : ∀ l, x l = off e l).
    { intros l. destruct (decide (l < length hs)) as [Hl|Hl]; [by rewrite Hle|]. symmetry.
      assert (Hout : ∀ k, off e k = x k); [|apply Hout]. apply Hmin.
      - intros k. destruct (decide (k < length hs)) as [Hk|Hk]; [by rewrite Hle|]. rewrite off_out by lia. lia.
      - rewrite <- Ht. by apply eval_low. }
    exists e. sp; try done. intros e' He' Hz' Hb l. destruct (Hval e' He') as (t' & Ht' & Hs').
    rewrite Hz', Hz in Hs'. rewrite (sc_inj _ _ _ Hs' (eq_trans Hs (f_equal Some Hz))) in Ht'.
    rewrite <- Hxo. apply Hmin; [|done]. intros k. by rewrite Hxo.
Qed.

(** adding the base vector to the listed ones *)
Lemma baseline_iff (listed : T → Prop) (D : family) x z t0 b :
  monot (lle rv le) hs df → eval (λ _, 0) df = Some t0 → sc t0 = Some b →
  (∀ t z, sc t = Some z → listed t ∨ ¬ listed t ∧ ∀ t' z', sc t' = Some z' → lle rv le t' t → t' = t) →
  (∀ x z, D x z ↔ ∃ t, listed t ∧ sc t = Some z ∧ locmin hs df x t) →
  (D x z ∨ ((∀ l, x l = 0) ∧ z = b ∧ ∀ z', ¬ D (λ _, 0) z')) ↔ extremal rv vars phi x z.
Proof.
  intros Hm H0 Hb Hmin HD. rewrite (extremal_iff x z Hm), (HD x z).
  assert (Hv0 : vokh hs (λ _, 0)). { intros hd Hin. by apply Hc. }
  split.
  - intros [(t & _ & ? & ?)|(Hx & -> & _)]; [by exists t|]. exists t0. split; [done|]. apply lmin; [done|]. sp.
    + intros hd Hin. rewrite Hx. by apply Hc.
    + rewrite <- H0. by apply eval_zeq.
    + intros y Hy _ l. specialize (Hy l). rewrite Hx in *. lia.
  - intros (t & Hs & Hl). destruct (Hmin t z Hs) as [Hli|[Hn Ht]]; [left; by exists t|right].
    apply lmin in Hl as (Hv & He & Hxm); [|done].
    assert (t0 = t) as ->.
    { eapply Ht; [done|]. eapply (Hm (λ _, 0) x); try done. intros l. lia. }
    rewrite Hs in Hb. injection Hb as <-. sp.
    + intros l. symmetry. apply (Hxm (λ _, 0)); [intros k; lia|done].
    + done.
    + intros z' (t' & Hli & _ & (_ & He' & _))%HD. rewrite H0 in He'. by injection He' as <-.
Qed.
End phi.
End vecs.
