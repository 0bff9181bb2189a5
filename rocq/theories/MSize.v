(** Bounds on the sizes of multi-state diagrams: proofs. *)
From stdpp Require Import strings.
From Verif Require Import Prelude ComputeCache Arena Bdd Mdd MtMdd MtMdd2 Zmdd ZmddAlg BssMgr MddMinsol MssConv MssMgr MssAlg
  Trees ArenaProofs ArenaMore Subdd SpecBdd SpecMdd SpecZmdd SpecZmddAlg SpecBss SpecBssMgr SpecMss SpecMssAlg NaryProofs MddProofs MddMain MtProofs MmProofs MmMain
  SpecSize SpecMSize SizeBound MssMgrProofs MssMgrVar MssRpn MssSolMgr MssAlgProofs MssProb MssFam MssAlgMain.

(** ** relabelling leaves *)
Fixpoint ddm {T U} (g : T → U) (d : dd T) : dd U := match d with Leaf t => Leaf (g t) | Br hd cs => Br hd (map (ddm g) cs) end.
Lemma ddm_rank {T U} (g : T → U) d : rank (ddm g d) = rank d.
Proof. by destruct d. Qed.
Lemma ddm_ok {T U} (g : T → U) E d : okdd E d → okdd E (ddm g d).
Proof.
  induction d as [t|hd cs IH] using dd_ind'; [done|]. intros [Hl Hcs]%okdd_br. cbn [ddm]. apply okdd_br. split; [by rewrite map_length|].
  rewrite Forall_forall in IH. rewrite Forall_forall in Hcs. apply Forall_forall. intros c Hc%elem_of_list_In%in_map_iff. destruct Hc as (c' & <- & Hc'%elem_of_list_In).
  rewrite ddm_rank. destruct (Hcs _ Hc'). split; [done|]. by apply IH.
Qed.
Lemma ddm_eval {T U} (g : T → U) d ρ : eval ρ (ddm g d) = g <$> eval ρ d.
Proof.
  induction d as [t|hd cs IH] using dd_ind'; [done|]. cbn [ddm]. rewrite !eval_br. rewrite Forall_lookup in IH.
  change (map (ddm g) cs) with (ddm g <$> cs). rewrite list_lookup_fmap. destruct (cs !! ρ (h_level hd)) as [c|] eqn:E; [|done]. by eapply IH.
Qed.
Lemma ddm_sub {T U} (g : T → U) s d : sub s (ddm g d) → ∃ s', s = ddm g s' ∧ sub s' d.
Proof.
  intros Hs. remember (ddm g d) as d' eqn:Hd. revert d Hd. induction Hs as [|hd cs c Hc _ IH]; intros d Hd.
  - exists d. split; [done|constructor].
  - destruct d as [t|hd' cs']; [done|]. cbn [ddm] in Hd. injection Hd as -> ->.
    apply elem_of_list_In, in_map_iff in Hc as (c' & <- & Hc'%elem_of_list_In). destruct (IH c' eq_refl) as (s' & -> & Hs').
    exists s'. split; [done|]. by eapply sub_child.
Qed.

(** ** what [nsize] counts *)
Lemma nsize_nodes {T} (a : arena T) f : awf Rn a → hcons (ar_headers a) → live a f → ∃ l s, nsize a f = Some s ∧ vertices s = N.of_nat (length l) ∧
  NoDup l ∧ ∀ x, x ∈ l ↔ reach a [f] x.
Proof.
  intros Hwf Hhc Vf. destruct (repr_exists _ _ _ Hwf Vf) as [d Hd]. unfold nsize.
  destruct (nsize_spec a Hwf Hhc (ar_fuel a) d f ∅ Hd) as (c' & l & -> & Nd & Hl & Hc & Hid & Hcl);
    [by eapply a_fuel_enough|by intros ? ? ? ? ?%elem_of_empty|].
  cbn [mbind option_bind]. eexists l, _. split; [done|].
  assert (Hlr : ∀ x, x ∈ l ↔ reach a [f] x).
  { intros x. split; [intros Hx; apply (Hl x Hx)|]. intros Hx.
    assert (x ∈ c') as Hxc; [|apply Hc in Hxc as [?%elem_of_empty|?]; done].
    induction Hx as [r Hr|id h cs c _ IH Hnd Hin]; [by apply elem_of_list_singleton in Hr as ->|by eapply Hcl]. }
  sp; try done. unfold vertices. cbn [fst snd].
  assert (Hall : ∀ x, x ∈ l → is_Some (ar_nodes a !! x)).
  { intros x Hx%Hlr. apply lookup_lt_is_Some. assert (live a x) as [? _]; [|done].
    eapply (reach_live Rn); [done| |exact Hx]. by intros ? ->%elem_of_list_singleton. }
  clear -Hall. induction l as [|x l IH]; [done|]. unfold nns, nts in *. rewrite !filter_cons.
  specialize (IH (λ y Hy, Hall y (elem_of_list_further _ _ _ Hy))). destruct (Hall x) as [nd Hx]; [by left|].
  unfold is_ntn, is_tmn in *. destruct nd; (destruct (decide _) as [D|D]; destruct (decide _) as [D'|D']); rewrite Hx in *; try done; cbn [length] in *; lia.
Qed.

Lemma ncanon_tree {T} (a : arena T) d1 d2 i j : awf Rn a → hcons (ar_headers a) → levels_distinct a → repr a d1 i → repr a d2 j →
  (∀ ρ, vok (Ehs (ar_headers a)) ρ → eval ρ d1 = eval ρ d2) → d1 = d2.
Proof.
  intros Hwf Hc Hd H1 H2 He. destruct (a_hdby _ Hd) as [H HH].
  eapply (canon (Ehs (ar_headers a)) H); eauto using nredd.
  - intros l. by apply Eof_pos.
  - by eapply repr_okh.
  - by eapply repr_okh.
Qed.

(** ** both forests *)
Definition tvm (t : tv) : mval := match t with TZero => VB false | TOne => VB true | TUndef => VI VUndet end.

Section bound.
Context (I : vint) {B : mbase} (w : mmgr) (H : handles) (Hk : gok I w H).
Let E := Ehs (hdrs (g_mm w)).
(** a tree that computes [F] and the number of its subtrees *)
Definition mtree (F : mfn) (d : dd mval) (l : list (dd mval)) : Prop :=
  okdd E d ∧ (∀ s, sub s d → s ∈ l) ∧
  ∀ e ρ, mrange (g_mm w) e → nagree (g_mm w) ρ e → eval ρ d = Some (F e).

Lemma mtree_half x F ss : (x, Some F) ∈ H → g_size w x = Some ss → ∃ d l, mtree F d l ∧ vertices ss = N.of_nat (length l).
Proof.
  intros Hx Hs. pose proof (gk_held _ _ _ Hk _ _ Hx) as [Hv Hd]. specialize (Hd F eq_refl). pose proof (gk_wf _ _ _ Hk) as Hw.
  pose proof (gok_hc _ _ _ Hk) as Hhc.
  destruct x as [f|f]; cbn [g_size mm_valid] in *.
  - assert (Hwf : awf Rn (var (g_mm w))) by apply Hw. destruct (nvalid_repr Rn (var (g_mm w)) f Hwf Hv) as [d Hr].
    assert (ar_headers (var (g_mm w)) = hdrs (g_mm w)) as Hh by apply (mmw_h _ _ Hw).
    destruct (nsize_nodes (var (g_mm w)) f Hwf) as (l & s' & Hs' & Hlen & _ & Hl); [by rewrite Hh|by eapply repr_live|].
    destruct (nodes_trees Rn _ f d l Hwf Hr Hl) as (Lt & HLlen & HLt). rewrite Hs in Hs'. injection Hs' as <-.
    exists (ddm VI d), (ddm VI <$> Lt). split; [|by rewrite fmap_length, HLlen]. unfold mtree. sp.
    + apply ddm_ok. unfold E. rewrite <- Hh. eapply repr_okh; try done. by rewrite Hh.
    + intros s (s' & -> & Hsub)%ddm_sub. apply elem_of_list_fmap. exists s'. split; [done|]. by apply HLt.
    + intros e ρ He Ha. rewrite ddm_eval. specialize (Hd e He). destruct (F e) as [b|t] eqn:HF; cbn [mvalue] in Hd; [done|].
      assert (eval ρ d = Some t) as ->; [|done]. apply (nval_eval (var (g_mm w)) ρ d f t Hr). apply (named_level _ e); [|done].
      rewrite Hh. exact Ha.
  - assert (Hwf : awf Rn (bar (g_mm w))) by apply Hw. destruct (nvalid_repr Rn (bar (g_mm w)) f Hwf Hv) as [d Hr].
    destruct (nsize_nodes (bar (g_mm w)) f Hwf) as (l & s' & Hs' & Hlen & _ & Hl); [done|by eapply repr_live|].
    destruct (nodes_trees Rn _ f d l Hwf Hr Hl) as (Lt & HLlen & HLt). rewrite Hs in Hs'. injection Hs' as <-.
    exists (ddm tvm d), (ddm tvm <$> Lt). split; [|by rewrite fmap_length, HLlen]. unfold mtree. sp.
    + apply ddm_ok. by eapply repr_okh.
    + intros s (s' & -> & Hsub)%ddm_sub. apply elem_of_list_fmap. exists s'. split; [done|]. by apply HLt.
    + intros e ρ He Ha. rewrite ddm_eval. specialize (Hd e He). destruct (F e) as [b|t] eqn:HF; cbn [mvalue] in Hd; [|done].
      assert (eval ρ d = Some (tvb b)) as ->; [|by destruct b]. apply (nval_eval (bar (g_mm w)) ρ d f _ Hr). by apply (named_level _ e).
Qed.

Definition omv (o : option mval) : mval := default (VB false) o.
Lemma mtree_bound r R s (op : list mval → mval) Fs ds Ls : (r, Some R) ∈ H → g_size w r = Some s →
  Forall2 (λ F dl, mtree F dl.1 dl.2) Fs (zip ds Ls) → length ds = length Ls →
  (∀ e, mrange (g_mm w) e → R e = op ((λ F, F e) <$> Fs)) → (vertices s ≤ N.of_nat (foldr (λ l n, length l * n) 1 Ls)%nat)%N.
Proof.
  intros Hr Hs HF Hll HR. pose proof (gk_held _ _ _ Hk _ _ Hr) as [Hv Hd]. specialize (Hd R eq_refl). pose proof (gk_wf _ _ _ Hk) as Hw.
  pose proof (gok_hc _ _ _ Hk) as Hhc. destruct (gok_levels _ _ _ Hk) as [Lb Lv].
  assert (Hsub : Forall2 (λ d l, ∀ s, sub s d → s ∈ l) ds Ls).
  { clear -HF Hll. revert Fs Ls HF Hll. induction ds as [|d ds IH]; intros Fs [|l Ls] HF Hll; try done. cbn [zip] in HF.
    inversion HF as [|F ? Fs' ? HF1 HF2]; subst. constructor; [apply HF1|]. eapply IH; [done|]. by injection Hll. }
  assert (Hok : Forall (okdd E) ds).
  { clear -HF Hll. revert Fs Ls HF Hll. induction ds as [|d ds IH]; intros Fs [|l Ls] HF Hll; try done. cbn [zip] in HF.
    inversion HF as [|F ? Fs' ? HF1 HF2]; subst. constructor; [apply HF1|]. eapply IH; [done|]. by injection Hll. }
  assert (Hev : ∀ e ρ, mrange (g_mm w) e → nagree (g_mm w) ρ e → map (eval ρ) ds = Some <$> ((λ F, F e) <$> Fs)).
  { intros e ρ He Ha. clear -HF Hll He Ha. revert Fs Ls HF Hll. induction ds as [|d ds IH]; intros Fs [|l Ls] HF Hll; try done; cbn [zip] in HF.
    - by inversion HF.
    - inversion HF as [|F ? Fs' ? HF1 HF2]; subst. rewrite map_cons, !fmap_cons. f_equal; [by apply HF1|]. eapply IH; [done|]. by injection Hll. }
  assert (Hpos : ∀ l, 0 < E l) by (intros l; by apply Eof_pos).
  assert (Hrho : ∀ ρ, vok E ρ → ∃ e, mrange (g_mm w) e ∧ nagree (g_mm w) ρ e).
  { intros ρ Hv'. destruct (menv_of_rho (g_mm w) ρ (gk_lvl _ _ _ Hk) (gk_nodup _ _ _ Hk)) as [e Ha]. exists e. split; [|done].
    apply (mrange_rho _ _ _ Ha). by eapply vok_vokh. }
  assert (Homv : ∀ l : list mval, omv <$> (Some <$> l) = l).
  { clear. intros l. induction l as [|v l IH]; [done|]. rewrite !fmap_cons, IH. done. }
  destruct r as [f|f]; cbn [g_size mm_valid] in *.
  - assert (Hwf : awf Rn (var (g_mm w))) by apply Hw. destruct (nvalid_repr Rn (var (g_mm w)) f Hwf Hv) as [d Hr'].
    assert (ar_headers (var (g_mm w)) = hdrs (g_mm w)) as Hh by apply (mmw_h _ _ Hw).
    destruct (nsize_nodes (var (g_mm w)) f Hwf) as (l & s' & Hs' & Hlen & Hnd & Hl); [by rewrite Hh|by eapply repr_live|].
    rewrite Hs in Hs'. injection Hs' as <-. rewrite Hlen. assert (length l ≤ foldr (λ l n, length l * n) 1 Ls); [|lia].
    apply (comb_bound Rn E (var (g_mm w)) (λ os, match op (omv <$> os) with VI t => Some t | VB _ => None end) l f d ds Ls); try done.
    + intros d' i Hi. unfold E. rewrite <- Hh. eapply repr_okh; try done. by rewrite Hh.
    + intros d1 d2 i j H1 H2 He. eapply (ncanon_tree (var (g_mm w))); try done; rewrite Hh; done.
    + intros x. apply Hl.
    + intros ρ Hv'. destruct (Hrho ρ Hv') as (e & He & Ha). rewrite (Hev e ρ He Ha), Homv, <- (HR e He).
      specialize (Hd e He). destruct (R e) as [b|t]; cbn [mvalue] in Hd; [done|].
      apply (nval_eval (var (g_mm w)) ρ d f t Hr'). apply (named_level _ e); [|done]. rewrite Hh. exact Ha.
  - assert (Hwf : awf Rn (bar (g_mm w))) by apply Hw. destruct (nvalid_repr Rn (bar (g_mm w)) f Hwf Hv) as [d Hr'].
    destruct (nsize_nodes (bar (g_mm w)) f Hwf) as (l & s' & Hs' & Hlen & Hnd & Hl); [done|by eapply repr_live|].
    rewrite Hs in Hs'. injection Hs' as <-. rewrite Hlen. assert (length l ≤ foldr (λ l n, length l * n) 1 Ls); [|lia].
    apply (comb_bound Rn E (bar (g_mm w)) (λ os, match op (omv <$> os) with VB b => Some (tvb b) | VI _ => None end) l f d ds Ls); try done.
    + intros d' i Hi. by eapply repr_okh.
    + intros d1 d2 i j H1 H2 He. by eapply (ncanon_tree (bar (g_mm w))).
    + intros x. apply Hl.
    + intros ρ Hv'. destruct (Hrho ρ Hv') as (e & He & Ha). rewrite (Hev e ρ He Ha), Homv, <- (HR e He).
      specialize (Hd e He). destruct (R e) as [b|t]; cbn [mvalue] in Hd; [|done].
      apply (nval_eval (bar (g_mm w)) ρ d f _ Hr'). by apply (named_level _ e).
Qed.
End bound.

(** ** handles *)
Lemma m_held_sized I w H x F : mdd_held I w H → (x, Some F) ∈ H → ∃ s, g_size w x = Some s.
Proof.
  intros Hk%held_gok Hx. pose proof (gk_held _ _ _ Hk _ _ Hx) as [Hv _]. pose proof (gk_wf _ _ _ Hk) as Hw. pose proof (gok_hc _ _ _ Hk) as Hhc.
  destruct x as [f|f]; cbn [g_size mm_valid] in *.
  - assert (Hwf : awf Rn (var (g_mm w))) by apply Hw. destruct (nvalid_repr Rn (var (g_mm w)) f Hwf Hv) as [d Hr].
    destruct (nsize_nodes (var (g_mm w)) f Hwf) as (l & s & Hs & _); [by rewrite (mmw_h _ _ Hw)|by eapply repr_live|by exists s].
  - assert (Hwf : awf Rn (bar (g_mm w))) by apply Hw. destruct (nvalid_repr Rn (bar (g_mm w)) f Hwf Hv) as [d Hr].
    destruct (nsize_nodes (bar (g_mm w)) f Hwf) as (l & s & Hs & _); [done|by eapply repr_live|by exists s].
Qed.

Lemma m_held_comb I w H (L : list (mnode * mfn)) r R (op : list mval → mval) s ss : mdd_held I w H →
  (∀ x F, (x, F) ∈ L → (x, Some F) ∈ H) → (r, Some R) ∈ H → (∀ e, mrange (g_mm w) e → R e = op ((λ x, x.2 e) <$> L)) →
  g_size w r = Some s → Forall2 (λ x s, g_size w x.1 = Some s) L ss → (vertices s ≤ foldr (λ s n, vertices s * n) 1 ss)%N.
Proof.
  intros Hk%held_gok HL Hr HR Hs Hss.
  assert (∃ ds Ls, length ds = length Ls ∧ Forall2 (λ F dl, mtree w F dl.1 dl.2) L.*2 (zip ds Ls) ∧
    foldr (λ s n, vertices s * n)%N 1%N ss = N.of_nat (foldr (λ l n, length l * n) 1 Ls)) as (ds & Ls & Hll & HF & ->).
  { clear HR. revert ss Hss. induction L as [|[x F] L IH]; intros ss Hss; inversion Hss as [|? s1 ? ss1 Hs1 Hss1]; subst; [exists [], []; sp; [done|constructor|done]|].
    destruct (IH (λ x F Hx, HL x F (elem_of_list_further _ _ _ Hx)) ss1 Hss1) as (ds & Ls & H1 & H2 & H3).
    destruct (mtree_half I w H Hk x F s1) as (d & l & Hd & Hl); [apply HL; by left|done|]. exists (d :: ds), (l :: Ls).
    sp; [cbn [length]; lia|cbn [zip]; rewrite fmap_cons; by constructor|cbn [foldr]; rewrite H3, Hl; lia]. }
  apply (mtree_bound I w H Hk r R s op L.*2 ds Ls); try done. intros e He. rewrite HR by done. f_equal. by rewrite <- list_fmap_compose.
Qed.

(** ** any other decision graph with the same order *)
Inductive mgtree (hs : list header) (g : list mvertex) : dd mval → nat → Prop :=
  | mgt_answer i v : g !! i = Some (MAnswer v) → mgtree hs g (Leaf v) i
  | mgt_test i hd next ds : g !! i = Some (MTest (h_label hd) next) → hs !! h_level hd = Some hd →
      Forall2 (mgtree hs g) ds next → mgtree hs g (Br hd ds) i.
Notation vars hs := ((λ hd, (h_label hd, h_edges hd)) <$> hs).
Section graph.
Context (hs : list header) (g : list mvertex) (Hlv : ∀ i hd, hs !! i = Some hd → h_level hd = i) (Hnd : NoDup (h_label <$> hs)) (Hhc : hcons hs).
Lemma mg_pos k k' x n n' : vars hs !! k = Some (x, n) → vars hs !! k' = Some (x, n') → k = k'.
Proof.
  rewrite !list_lookup_fmap. intros H1 H2. destruct (hs !! k) as [hd|] eqn:E1; [|done]. destruct (hs !! k') as [hd'|] eqn:E2; [|done].
  injection H1 as <- _. injection H2 as Hl _. eapply NoDup_lookup; [exact Hnd|rewrite list_lookup_fmap, E1; done|]. rewrite list_lookup_fmap, E2. cbn. by rewrite Hl.
Qed.
Lemma mgtree_exists : m_graph_ordered (vars hs) g → ∀ k j, m_earlier (vars hs) g k j → ∃ d, mgtree hs g d j ∧ okdd (Ehs hs) d ∧ rank d ≤ k.
Proof.
  intros Hg. induction k as [k IH] using lt_wf_ind. intros j Hj. unfold m_earlier in Hj. destruct (g !! j) as [[v|y next]|] eqn:E; [| |done].
  { exists (Leaf v). sp; [by constructor|done|cbn; lia]. }
  destruct Hj as (l & n & Hl & Hy). destruct (Hg _ _ _ E) as (l' & n' & Hy' & Hlen & Hnx). pose proof (mg_pos _ _ _ _ _ Hy' Hy) as ->.
  rewrite Hy in Hy'. injection Hy' as <-. rewrite list_lookup_fmap in Hy. destruct (hs !! l) as [hd|] eqn:Eh; [|done]. injection Hy as <- Hne. pose proof (Hlv _ _ Eh) as Hhl.
  assert (∃ ds, Forall2 (λ d i, mgtree hs g d i ∧ okdd (Ehs hs) d ∧ rank d ≤ l) ds next) as [ds Hds].
  { clear E Hlen. induction next as [|i next IHn]; [by exists []|]. destruct IHn as [ds Hds]; [intros i' Hi'; apply Hnx; by right|].
    destruct (IH l Hl i) as (d & Hd); [apply Hnx; by left|]. exists (d :: ds). by constructor. }
  exists (Br hd ds). sp.
  - eapply mgt_test; [done|by rewrite Hhl|]. eapply Forall2_impl; [exact Hds|]. by intros ? ? [? _].
  - apply okdd_br. split.
    + rewrite (Forall2_length _ _ _ Hds), Hlen, <- Hne, Hhl. symmetry. by apply Ehs_at.
    + apply Forall_lookup. intros i d Hd. destruct (Forall2_lookup_l _ _ _ _ _ Hds Hd) as (? & _ & _ & ? & ?). rewrite Hhl. done.
  - cbn [rank]. lia.
Qed.
Lemma mgtree_fun d : ∀ d' i, mgtree hs g d i → mgtree hs g d' i → d = d'.
Proof.
  induction d as [v|hd ds IH] using dd_ind'; intros d' i Hd Hd'; inversion Hd as [i0 v0 Hv|i0 hd0 nx ds0 Hi Hh Hf]; subst;
    inversion Hd' as [i1 v1 Hv1|i1 hd1 nx1 ds1 Hi1 Hh1 Hf1]; subst; [congruence|congruence|congruence|].
  rewrite Hi in Hi1. injection Hi1 as Hlab <-. assert (h_level hd = h_level hd1) as He.
  { eapply NoDup_lookup; [exact Hnd|rewrite list_lookup_fmap, Hh; done|]. rewrite list_lookup_fmap, Hh1. cbn. by rewrite Hlab. }
  assert (hd = hd1) as <- by congruence. f_equal. clear -IH Hf Hf1. revert nx ds1 Hf Hf1.
  induction IH as [|d ds IHd _ IHds]; intros nx ds1 Hf Hf1; inversion Hf; subst; inversion Hf1; subst; [done|]. f_equal; [by eapply IHd|by eapply IHds].
Qed.
Lemma mgtree_sub d s i : mgtree hs g d i → sub s d → ∃ j, mgtree hs g s j.
Proof.
  intros Hd Hs. revert i Hd. induction Hs as [|hd cs c Hc _ IH]; intros i Hd; [by exists i|].
  inversion Hd as [|i0 hd0 nx ds0 Hi Hh Hf]; subst. apply elem_of_list_lookup in Hc as [k Hk]. destruct (Forall2_lookup_l _ _ _ _ _ Hf Hk) as (j & _ & Hj). by eapply IH.
Qed.
Lemma mgtree_eval d i e v ρ : (∀ hd, hd ∈ hs → ρ (h_level hd) = e (h_label hd)) →
  mgtree hs g d i → m_answer_of g e i v → eval ρ d = Some v.
Proof.
  intros He Hd Ha. revert d Hd. induction Ha as [i v Hv|i x nx j v Hi Hj _ IH]; intros d Hd; inversion Hd as [i' v' Hv'|i' hd nx' ds Hi' Hh Hf]; subst;
    [cbn; congruence|congruence|congruence|].
  rewrite Hi in Hi'. injection Hi' as -> <-. rewrite eval_br, He by (by eapply elem_of_list_lookup_2).
  destruct (Forall2_lookup_r _ _ _ _ _ Hf Hj) as (c & Hc & Hg'). rewrite Hc. by apply IH.
Qed.
End graph.

Lemma m_held_minimal I w H x F g i s : mdd_held I w H → (x, Some F) ∈ H → m_graph_ordered (declared w) g →
  (∀ e, mrange (g_mm w) e → m_answer_of g e i (F e)) → g_size w x = Some s → (vertices s ≤ N.of_nat (length g))%N.
Proof.
  intros Hk%held_gok Hx Hg Ha Hs. pose proof (gk_lvl _ _ _ Hk) as Hl. pose proof (gk_nodup _ _ _ Hk) as Hnd. pose proof (gok_hc _ _ _ Hk) as Hhc.
  assert (i < length g) as Hi.
  { destruct (Ha (λ _, 0)); [|by eapply lookup_lt_Some..]. intros hd Hin. destruct Hhc as [Hp _]. by apply Hp. }
  unfold declared in Hg. set (hs := ar_headers (d_ar (mm_b (g_mm w)))) in *.
  assert (Hall : ∀ j, j < length g → ∃ d, mgtree hs g d j ∧ okdd (Ehs hs) d).
  { intros j Hj. destruct (mgtree_exists hs g Hl Hnd Hhc Hg (length hs) j) as (d & ? & ? & _); [|by exists d].
    unfold m_earlier. destruct (lookup_lt_is_Some_2 g j Hj) as [[v|y nx] E]; rewrite E; [done|].
    destruct (Hg _ _ _ E) as (k & n & Hy & _). exists k, n. split; [|done]. apply lookup_lt_Some in Hy. by rewrite fmap_length in Hy. }
  assert (∃ Lt, length Lt = length g ∧ ∀ j d, mgtree hs g d j → d ∈ Lt) as (Lt & Hlen & HLt).
  { assert (∃ Lt, Forall2 (λ j d, mgtree hs g d j) (seq 0 (length g)) Lt) as [Lt HLt].
    { assert (∀ j, j ∈ seq 0 (length g) → ∃ d, mgtree hs g d j) as Hex.
      { intros j [_ Hj]%elem_of_seq. destruct (Hall j Hj) as (d & ? & _). by exists d. }
      revert Hex. generalize (seq 0 (length g)). induction l as [|j l IH]; intros Hex; [by exists []|]. destruct IH as [L HL]; [intros j' Hj'; apply Hex; by right|].
      destruct (Hex j) as [d Hd]; [by left|]. exists (d :: L). by constructor. }
    exists Lt. split; [by rewrite <- (Forall2_length _ _ _ HLt), seq_length|]. intros j d Hd.
    assert (j < length g) as Hj by (inversion Hd; by eapply lookup_lt_Some).
    destruct (Forall2_lookup_l _ _ _ j j HLt) as (d' & Hd' & Hg'); [rewrite lookup_seq_lt by done; done|].
    rewrite (mgtree_fun hs g Hnd d d' j Hd Hg'). by eapply elem_of_list_lookup_2. }
  destruct (Hall i Hi) as (dg & Hdg & Hog).
  pose proof (mtree_bound I w H Hk x F s (λ l, match l with [v] => v | _ => VB false end) [F] [dg] [Lt] Hx Hs) as Hb. cbn [foldr] in Hb.
  rewrite Nat.mul_1_r, Hlen in Hb. apply Hb; try done. constructor; [|constructor]. unfold mtree. cbn [fst snd]. sp.
  - done.
  - intros t Ht. destruct (mgtree_sub hs g dg t i Hdg Ht) as [j Hj]. by eapply HLt.
  - intros e ρ He Hag. eapply mgtree_eval; [exact Hag|exact Hdg|by apply Ha].
Qed.

Lemma m_held_binary I o w H f F g G w' r R : mdd_held I w H → (f, Some F) ∈ H → (g, Some G) ∈ H →
  g_bin (mm_bin I o) w f g = Some (w', r) → o ≠ OCmp Lte → (∀ e, mrange (g_mm w) e → val2 I o (F e) (G e) = Some (R e)) →
  ∃ s sf sg, g_size w' r = Some s ∧ g_size w' f = Some sf ∧ g_size w' g = Some sg ∧ (vertices s ≤ vertices sf * vertices sg)%N.
Proof.
  intros Hh Hf Hg Hb Ho HR. pose proof (held_gok I w H Hh) as Hk. pose proof (g_bin_ok I w H Hk o f _ g _ Hf Hg) as Hok. rewrite Hb in Hok.
  destruct (Hok (Some R)) as [_ Hhd]; [exact HR|done|].
  assert (Hh' : mdd_held I w' ((r, Some R) :: H)) by (eapply dh_step; [exact Hh|]; eapply (ds_bin I o w H f _ g _ w' r (Some R) Hf Hg Hb); done).
  assert ((f, Some F) ∈ (r, Some R) :: H) as Hf' by by right. assert ((g, Some G) ∈ (r, Some R) :: H) as Hg' by by right.
  destruct (m_held_sized _ _ _ _ _ Hh' Hf') as [sf Hsf], (m_held_sized _ _ _ _ _ Hh' Hg') as [sg Hsg].
  destruct (m_held_sized _ _ _ _ _ Hh' (elem_of_list_here _ _)) as [s Hs]. exists s, sf, sg. sp; try done.
  pose proof (m_held_comb I w' _ [(f, F); (g, G)] r R (λ l, match l with [a; b] => omv (val2 I o a b) | _ => VB false end) s [sf; sg] Hh') as Hc.
  cbn [foldr] in Hc. rewrite N.mul_1_r in Hc. apply Hc; try done.
  - intros x K Hin. rewrite !elem_of_cons, elem_of_nil in Hin. destruct Hin as [[= -> ->]|[[= -> ->]|[]]]; done.
  - by left.
  - intros e He. cbn. rewrite HR; [done|]. unfold mrange in *. by rewrite <- Hhd.
  - by repeat constructor.
Qed.
