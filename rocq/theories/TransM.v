(** Two runs of an MddMgr client program that differ in housekeeping only stay in step. *)
From stdpp Require Import strings.
From Verif Require Import Prelude ComputeCache ComputeCacheProofs Arena Trees ArenaProofs ArenaMore Bdd Mdd MtMdd MtMdd2 NaryProofs MddProofs MtProofs MmProofs.
From Verif Require Import SpecBdd SpecMdd SpecExactM MddMain MmMain MddExact MmExact MmExactMain BssMgr MssMgr MssAlg MssLook SpecBssMgr SpecMss MssMgrProofs MssMgrVar MssRpn Iso IsoM IsoN SpecTransM.

(** ** nodes kept by a collection *)
Definition kept_node (m m' : mm) (x : mnode) : Prop :=
  match x with
  | NVal f => ∀ d, repr (var m) d f → repr (var m') d f
  | NBool f => ∀ d, repr (bar m) d f → repr (bar m') d f
  end.
Lemma kept_refl m x : kept_node m m x.
Proof. destruct x; cbn; auto. Qed.
Lemma kept_ext I m m' x : mext I m m' → kept_node m m' x.
Proof. intros (_ & Eb & Ev). destruct x; cbn; intros d Hd; by eapply repr_mono. Qed.
Lemma miso_kept m1 m2 m1' m2' x y : kept_node m1 m1' x → kept_node m2 m2' y → miso m1 m2 x y → miso m1' m2' x y.
Proof. destruct x, y; try done; cbn; intros K1 K2 (d & R1 & R2); exists d; auto. Qed.

Section mss.
Context (I : vint).
Local Notation ok := (@gok I mbase0).

Lemma gc_kept m roots m' n : xmm I m → Forall (mm_valid m) roots → mm_gc m roots = Some (m', n) →
  xmm I m' ∧ hdrs m' = hdrs m ∧ ∀ x, x ∈ roots → kept_node m m' x.
Proof.
  intros X Hv E. rewrite Forall_forall in Hv. pose proof (xm_wf _ _ X) as W.
  destruct (mm_gc_ok I m roots W) as (m1 & nv & nb & E1 & W1 & Hh & Nb & Nv & Lb & Lv & _).
  { intros f Hf. by apply (Hv _ Hf). }
  { intros f Hf. by apply (Hv _ Hf). }
  rewrite E in E1. injection E1 as <- _. sp; [|done|].
  - eapply (xmm_exec I m (XGc roots)); [done|by apply Forall_forall|]. cbn. by rewrite E.
  - intros [f|f] Hf; cbn; intros d Hd; eapply repr_gc; try exact Hd; try done.
    + by apply (wv I).
    + by rewrite (mmw_h _ _ W), (mmw_h _ _ W1).
    + apply Lv. right. apply reach_root. by apply in_vroots.
    + by apply (wb I).
    + apply Lb. right. apply reach_root. by apply in_broots.
Qed.
Lemma gok_weak w H x F : ok w ((x, F) :: H) → ok w ((x, None) :: H).
Proof.
  intros [? ? ? ? ? ? Hr Hh ?]. constructor; try done. intros y G [[= -> ->]|Hy]%elem_of_cons; [|apply Hh; by right].
  destruct (Hh x F) as [V _]; [by left|]. by split.
Qed.
Lemma root_held w H x : ok w H → x ∈ H.*1 → x ∈ mroot_keys (g_roots w).
Proof. intros Hk Hx. destruct (gk_roots _ _ _ Hk) as (l & -> & Hp). apply mroot_keys_elem. rewrite Hp, elem_of_app. by left. Qed.
Lemma roots_valid w H : ok w H → Forall (mm_valid (g_mm w)) (mroot_keys (g_roots w)).
Proof. intros Hk. apply Forall_forall. intros x. by eapply gok_root_valid. Qed.

Lemma maybe_kept w H : ok w H → xmm I (g_mm w) → ∃ w', g_maybe_gc w = Some w' ∧ ok w' H ∧ xmm I (g_mm w') ∧ hdrs (g_mm w') = hdrs (g_mm w) ∧
  ∀ x, x ∈ H.*1 → kept_node (g_mm w) (g_mm w') x.
Proof.
  intros Hk X. destruct (gok_maybe_gc I w H Hk) as (w' & E & Hk' & Hh). exists w'. split; [done|]. split; [done|].
  unfold g_maybe_gc in E. destruct (_ <? _).
  - injection E as <-. sp; [done|done|]. intros x _. apply kept_refl.
  - destruct (mm_gc _ _) as [[m n]|] eqn:G; [|done]. cbn in E. injection E as <-. cbn [g_mm].
    destruct (gc_kept _ _ _ _ X (roots_valid _ _ Hk) G) as (X' & Hh' & Hkp). sp; [done|done|]. intros x Hx. apply Hkp. by eapply root_held.
Qed.

(** ** two wrappers in step *)
Record duo (w1 w2 : mmgr) (H1 H2 : handles) : Prop := {
  du_1 : ok w1 H1;
  du_2 : ok w2 H2;
  du_x1 : xmm I (g_mm w1);
  du_x2 : xmm I (g_mm w2);
  du_h : hdrs (g_mm w1) = hdrs (g_mm w2);
}.
Lemma lvl_distinct m : lvl_ok m → levels_distinct (bar m).
Proof.
  intros Hl. unfold levels_distinct. apply NoDup_alt. intros i j x Hi Hj. rewrite list_lookup_fmap in Hi, Hj.
  destruct (hdrs m !! i) as [h1|] eqn:E1; [|done]. destruct (hdrs m !! j) as [h2|] eqn:E2; [|done]. cbn in *.
  pose proof (Hl _ _ E1). pose proof (Hl _ _ E2). congruence.
Qed.
Lemma duo_pair w1 w2 H1 H2 : duo w1 w2 H1 H2 → pair I (g_mm w1) (g_mm w2).
Proof. intros [K1 _ X1 X2 HH]. constructor; try done. apply lvl_distinct, (gk_lvl _ _ _ K1). Qed.
Lemma duo_step w1 w2 H1 H2 m1 m2 : duo w1 w2 H1 H2 → mmstep I (g_mm w1) m1 → mmstep I (g_mm w2) m2 → pair I m1 m2 →
  duo (with_mm w1 m1) (with_mm w2 m2) H1 H2.
Proof.
  intros [K1 K2 _ _ _] S1 S2 [X1 X2 HH _]. constructor; try done; by apply gok_step.
Qed.
Lemma wrap_sim w1 w2 H1 H2 x y : duo w1 w2 H1 H2 → miso (g_mm w1) (g_mm w2) x y →
  ∃ w1' w2', g_wrap w1 x = Some (w1', x) ∧ g_wrap w2 y = Some (w2', y) ∧ duo w1' w2' ((x, None) :: H1) ((y, None) :: H2) ∧
    miso (g_mm w1') (g_mm w2') x y ∧
    (∀ u, u ∈ H1.*1 → kept_node (g_mm w1) (g_mm w1') u) ∧ ∀ u, u ∈ H2.*1 → kept_node (g_mm w2) (g_mm w2') u.
Proof.
  intros [K1 K2 X1 X2 HH] Hi. unfold g_wrap.
  destruct (maybe_kept (g_pin w1 x) ((x, None) :: H1)) as (w1' & E1 & K1' & X1' & Hh1 & P1); [apply gok_pin; [done|split; [by eapply miso_l|done]]|done|].
  destruct (maybe_kept (g_pin w2 y) ((y, None) :: H2)) as (w2' & E2 & K2' & X2' & Hh2 & P2); [apply gok_pin; [done|split; [by eapply miso_r|done]]|done|].
  rewrite E1, E2. exists w1', w2'. sp; [done|done| | | |].
  - constructor; try done. rewrite Hh1, Hh2. done.
  - eapply miso_kept; [| |exact Hi]; [apply P1; by left|apply P2; by left].
  - intros u Hu. apply P1. by right.
  - intros u Hu. apply P2. by right.
Qed.

(** ** variables *)
Lemma var_dom w1 w2 H1 H2 x : ok w1 H1 → ok w2 H2 → hdrs (g_mm w1) = hdrs (g_mm w2) → is_Some (g_vars w1 !! x) → is_Some (g_vars w2 !! x).
Proof.
  intros K1 K2 HH [n Hn]. destruct (gk_var _ _ _ K1 _ _ Hn) as [_ (id & i & hd & _ & Hi & <- & _)]. rewrite HH in Hi. by apply (gk_lab _ _ _ K2 _ _ Hi).
Qed.
Lemma var_iso w1 w2 H1 H2 x n1 n2 : duo w1 w2 H1 H2 → g_vars w1 !! x = Some n1 → g_vars w2 !! x = Some n2 → miso (g_mm w1) (g_mm w2) n1 n2.
Proof.
  intros D E1 E2. pose proof D as [K1 K2 X1 X2 HH].
  destruct (gk_var _ _ _ K1 _ _ E1) as [[V1 D1] (id1 & _ & _ & -> & _)]. destruct (gk_var _ _ _ K2 _ _ E2) as [[V2 D2] (id2 & _ & _ & -> & _)].
  apply (same_miso I); [by eapply duo_pair|done|done|]. cbn. apply same_intro. intros rho R1 R2.
  destruct (menv_of_rho0 (g_mm w1) rho (gk_lvl _ _ _ K1) (gk_nodup _ _ _ K1)) as (e & He & _).
  assert (He2 : nagree (g_mm w2) rho e) by (unfold nagree; by rewrite <- HH).
  assert (G1 : mrange (g_mm w1) e) by (apply (mrange_rho (g_mm w1) rho e He); unfold mm_range, in_range in *; by rewrite <- (mmw_h _ _ (gk_wf _ _ _ K1))).
  assert (G2 : mrange (g_mm w2) e) by (unfold mrange; by rewrite <- HH).
  specialize (D1 _ eq_refl e G1). specialize (D2 _ eq_refl e G2).
  apply (mvalue_lval I _ _ _ _ _ (gk_wf _ _ _ K1) He) in D1 as (f1 & [= <-] & D1).
  apply (mvalue_lval I _ _ _ _ _ (gk_wf _ _ _ K2) He2) in D2 as (f2 & [= <-] & D2). by eexists.
Qed.
Lemma values_frame n m l m' ns : n = length l → mapst (λ m i, Some (mm_value m (Z.of_nat i))) m l = Some (m', ns) →
  mm_b m' = mm_b m ∧ mm_vite m' = mm_vite m ∧ Forall (λ x, ∃ f, x = NVal f) ns.
Proof.
  intros _. revert m ns. induction l as [|i l IH]; intros m ns; cbn [mapst]; [by intros [= <- <-]|].
  cbn [mbind option_bind]. unfold mm_value at 1. destruct (mt_value _ _) as [v y]. 
  destruct (mapst _ _ l) as [[m1 ys]|] eqn:E; [|done]. cbn. intros [= <- <-]. destruct (IH _ _ E) as (-> & -> & Hf). sp; [done|done|].
  constructor; [by eexists|done].
Qed.
Lemma defvar_x w H x n w' r : ok w H → xmm I (g_mm w) → g_defvar w x n = Some (w', r) → xmm I (g_mm w').
Proof.
  intros Hk X E. destruct (defvar_ok I w H x n w' r Hk E) as (_ & He & _). unfold g_defvar in E.
  destruct (g_vars w !! x) as [n0|] eqn:Hx; [by injection E as <- <-|].
  destruct (mapst _ _ _) as [[m1 ns]|] eqn:Em; [|done]. cbn [mbind option_bind] in E. destruct (values_frame _ _ _ _ _ eq_refl Em) as (Hb & Hv & Hns).
  unfold mm_create_header in E. destruct (mt_create_header _ _ _ _) as [v h1]. destruct (mdd_create_header _ _ _ _) as [b h2] eqn:Hc.
  destruct (h1 =? h2); [|done]. cbn [mbind option_bind] in E. unfold mm_create_node in E. destruct ns as [|y ns]; [done|].
  apply Forall_cons in Hns as [[f ->] _]. destruct (mt_create_node _ _ _) as [v2 z]. cbn in E. injection E as <- <-.
  eapply (xmm_intro I (g_mm w)); [done|exact He| |by cbn]. cbn. rewrite Hb in Hc. 
  apply xmdd_create_header_ok in Hc as (? & _); try done; [apply X|]. apply hfits_new. 
  split; [|apply Forall_forall].
  { destruct n; [|lia]. cbn in Em. done. }
  intros hd [i Hi]%elem_of_list_lookup Hlv. rewrite (gk_lvl _ _ _ Hk _ _ Hi), (gk_size _ _ _ Hk) in Hlv. apply lookup_lt_Some in Hi. lia.
Qed.
Lemma defvar_sim w1 w2 H1 H2 x n : duo w1 w2 H1 H2 →
  osim (λ p q, duo p.1 q.1 ((p.2, None) :: H1) ((q.2, None) :: H2) ∧ miso (g_mm p.1) (g_mm q.1) p.2 q.2 ∧
    mext I (g_mm w1) (g_mm p.1) ∧ mext I (g_mm w2) (g_mm q.1)) (g_defvar w1 x n) (g_defvar w2 x n).
Proof.
  intros D. pose proof D as [K1 K2 X1 X2 HH].
  assert (Hfin : ∀ w1' r1 w2' r2, g_defvar w1 x n = Some (w1', r1) → g_defvar w2 x n = Some (w2', r2) → hdrs (g_mm w1') = hdrs (g_mm w2') →
    duo w1' w2' ((r1, None) :: H1) ((r2, None) :: H2) ∧ miso (g_mm w1') (g_mm w2') r1 r2 ∧ mext I (g_mm w1) (g_mm w1') ∧ mext I (g_mm w2) (g_mm w2')).
  { intros w1' r1 w2' r2 E1 E2 HH'. destruct (defvar_ok I w1 H1 x n w1' r1 K1 E1) as (K1' & M1 & V1). destruct (defvar_ok I w2 H2 x n w2' r2 K2 E2) as (K2' & M2 & V2).
    assert (D' : duo w1' w2' ((r1, None) :: H1) ((r2, None) :: H2)).
    { constructor; [by eapply gok_weak|by eapply gok_weak|exact (defvar_x _ _ _ _ _ _ K1 X1 E1)|exact (defvar_x _ _ _ _ _ _ K2 X2 E2)|done]. }
    sp; try done. by eapply var_iso. }
  destruct (g_vars w1 !! x) as [n1|] eqn:V1.
  - destruct (var_dom _ _ _ _ x K1 K2 HH ltac:(by rewrite V1)) as [n2 V2].
    destruct (defvar_old I w1 H1 x n n1 K1 V1) as [E1 _]. destruct (defvar_old I w2 H2 x n n2 K2 V2) as [E2 _].
    pose proof (Hfin _ _ _ _ E1 E2 HH) as HF. rewrite E1, E2. by constructor.
  - assert (V2 : g_vars w2 !! x = None). { destruct (g_vars w2 !! x) eqn:V2; [|done]. destruct (var_dom _ _ _ _ x K2 K1 (eq_sym HH) ltac:(by rewrite V2)). congruence. }
    destruct n as [|n]; [rewrite !defvar_none by done; constructor|].
    destruct (defvar_new I w1 H1 x (S n) K1 V1) as (w1' & r1 & E1 & _ & _ & Hh1 & _); [lia|].
    destruct (defvar_new I w2 H2 x (S n) K2 V2) as (w2' & r2 & E2 & _ & _ & Hh2 & _); [lia|].
    pose proof (Hfin _ _ _ _ E1 E2 ltac:(by rewrite Hh1, Hh2, HH)) as HF. rewrite E1, E2. by constructor.
Qed.
Lemma order_none w H : ok w H → (∃ hd, hd ∈ hdrs (g_mm w) ∧ ¬ 2 ≤ h_edges hd) → g_varorder w = None.
Proof.
  intros Hk (hd & [i Hi]%elem_of_list_lookup & H2). destruct (gk_lab _ _ _ Hk _ _ Hi) as [v Hv]. unfold g_varorder.
  assert (Hin : (h_label hd, v) ∈ map_to_list (g_vars w)) by by apply elem_of_map_to_list.
  assert (Hn : g_header w v = None).
  { destruct (gk_var _ _ _ Hk _ _ Hv) as [_ (id & j & hd' & -> & Hj & Hl & Hn)].
    assert (hd' = hd) as ->.
    { assert (j = i) as ->; [|congruence]. eapply NoDup_lookup; [apply (gk_nodup _ _ _ Hk)|by rewrite list_lookup_fmap, Hj|rewrite list_lookup_fmap, Hi; cbn; by f_equal]. }
    rewrite decide_False in Hn by done. destruct Hn as [t Hn]. unfold g_header. by rewrite Hn. }
  generalize (replicate (size (g_vars w)) ("?"%string, 0)). revert Hin. generalize (map_to_list (g_vars w)) as vs.
  induction vs as [|[k u] vs IH]; intros Hin acc; [by apply elem_of_nil in Hin|]. cbn [g_varorder_go]. apply elem_of_cons in Hin as [[= <- <-]|Hin]; [by rewrite Hn|].
  destruct (g_header w u) as [h|]; [|done]. cbn [mbind option_bind]. destruct (ar_headers (t_ar (mm_v (g_mm w))) !! h) as [hd'|]; [|done]. cbn [mbind option_bind].
  destruct (h_level hd' <? length acc); [by apply IH|done].
Qed.
Lemma order_sim w1 w2 H1 H2 : duo w1 w2 H1 H2 → g_varorder w1 = g_varorder w2.
Proof.
  intros [K1 K2 _ _ HH]. destruct (decide (Forall (λ hd, 2 ≤ h_edges hd) (hdrs (g_mm w1)))) as [Hf|Hf].
  - rewrite (varorder_ok I w1 H1 K1) by (by apply Forall_forall). rewrite HH in Hf. rewrite (varorder_ok I w2 H2 K2) by (by apply Forall_forall).
    unfold vorder. by rewrite HH.
  - apply not_Forall_Exists, Exists_exists in Hf; [|apply _]. rewrite (order_none w1 H1 K1) by done. rewrite HH in Hf. by rewrite (order_none w2 H2 K2).
Qed.

(** ** create_node *)
Lemma nfits_iso {T} (a1 a2 : arena T) h cs1 cs2 : awf Rn a1 → awf Rn a2 → ar_headers a1 = ar_headers a2 → Forall2 (iso a1 a2) cs1 cs2 →
  node_fits a1 h cs1 ↔ node_fits a2 h cs2.
Proof.
  intros W1 W2 HH Hf. unfold node_fits. rewrite HH. destruct (ar_headers a2 !! h) as [hd|]; [|done].
  rewrite (Forall2_length _ _ _ Hf). apply and_iff_compat_l. clear HH. induction Hf as [|u v l1 l2 Hu Hl IH]; [by split; constructor|].
  rewrite !Forall_cons, IH. unfold node_below. rewrite (iso_level _ _ _ _ W1 W2 _ _ Hu). destruct Hu as (d & R1 & R2).
  apply repr_live in R1, R2. unfold node_valid, live in *. tauto.
Qed.
Lemma kinds m1 m2 xs ys : Forall2 (miso m1 m2) xs ys →
  (Forall (λ x, ∃ f, x = NVal f) xs ↔ Forall (λ x, ∃ f, x = NVal f) ys) ∧ (Forall (λ x, ∃ f, x = NBool f) xs ↔ Forall (λ x, ∃ f, x = NBool f) ys) ∧
  (Forall (λ x, ∃ f, x = NVal f) xs → Forall2 (iso (var m1) (var m2)) (map node_id xs) (map node_id ys)) ∧
  (Forall (λ x, ∃ f, x = NBool f) xs → Forall2 (iso (bar m1) (bar m2)) (map node_id xs) (map node_id ys)).
Proof.
  induction 1 as [|x y l1 l2 Hx Hl (I1 & I2 & I3 & I4)]; [sp; try done; intros _; constructor|]. rewrite !Forall_cons, I1, I2. cbn [map].
  destruct x, y; try done; cbn in Hx; (sp; [|..|intros [[? E] ?]|intros [[? E] ?]]); try discriminate E;
    try (split; (intros [[? E] ?]; split; [first [done|by eexists]|done])); (constructor; [exact Hx|]); first [apply I3|apply I4]; first [by apply I1|by apply I2].
Qed.
Lemma iso_value {T} (a1 a2 : arena T) i j rho : awf Rn a1 → hcons (ar_headers a1) → in_range a1 rho → iso a1 a2 i j →
  ∃ t, node_value a1 rho i t ∧ node_value a2 rho j t.
Proof.
  intros W Hc Hr (d & R1 & R2). destruct (okh_total (ar_headers a1) d rho) as [t Ht]; [by eapply repr_okh|done|].
  exists t. by rewrite (nval_eval a1 rho d i t R1), (nval_eval a2 rho d j t R2).
Qed.
Lemma make_fits m1 m2 h xs ys : pair I m1 m2 → Forall2 (miso m1 m2) xs ys → mm_fits m1 h xs ↔ mm_fits m2 h ys.
Proof.
  intros P Hf. destruct (kinds _ _ _ _ Hf) as (K1 & K2 & K3 & K4). unfold mm_fits.
  pose proof (λ A, nfits_iso (var m1) (var m2) h _ _ (pair_wv1 I _ _ P) (pair_wv2 I _ _ P) (pair_vh I _ _ P) (K3 A)) as V.
  pose proof (λ A, nfits_iso (bar m1) (bar m2) h _ _ (pair_wb1 I _ _ P) (pair_wb2 I _ _ P) (pr_h _ _ _ P) (K4 A)) as B. tauto.
Qed.
Lemma make_sim m1 m2 h xs ys : pair I m1 m2 → Forall2 (miso m1 m2) xs ys → mm_fits m1 h xs →
  osim (after I m1 m2) (mm_create_node m1 h xs) (mm_create_node m2 h ys).
Proof.
  intros P Hf F1. pose proof (proj1 (make_fits _ _ h _ _ P Hf) F1) as F2.
  destruct (mm_create_node_l I m1 h xs (xm_wf _ _ (pr_1 _ _ _ P)) F1) as (hd & m1' & r1 & Hh & E1 & A1 & V1 & N1).
  destruct (mm_create_node_l I m2 h ys (xm_wf _ _ (pr_2 _ _ _ P)) F2) as (hd2 & m2' & r2 & Hh2 & E2 & A2 & V2 & N2).
  rewrite <- (pr_h _ _ _ P) in Hh2. assert (hd2 = hd) as -> by congruence.
  assert (Hlen : length xs = h_edges hd).
  { destruct F1 as [[_ F]|[_ F]]; unfold node_fits in F; rewrite map_length in F;
      rewrite ?(mmw_h _ _ (xm_wf _ _ (pr_1 _ _ _ P))), Hh in F; by destruct F. }
  assert (P' : pair I m1' m2').
  { apply (pair_step I m1 m2). 1: exact P. 1: exact A1. 1: exact A2.
    - apply (xmm_exec I m1 (XNode h xs)); [apply P|done|]. cbn. by rewrite E1.
    - apply (xmm_exec I m2 (XNode h ys)); [apply P|done|]. cbn. by rewrite E2. }
  assert (HV : ∀ rho, in_range (bar m1) rho → (∃ t, mm_bool m1' rho r1 t ∧ mm_bool m2' rho r2 t) ∨ ∃ t, mm_int m1' rho r1 t ∧ mm_int m2' rho r2 t).
  { intros rho Hr. destruct (lookup_lt_is_Some_2 xs (rho (h_level hd))) as [x Hx].
    { rewrite Hlen. apply Hr. by eapply elem_of_list_lookup_2. }
    destruct (Forall2_lookup_l _ _ _ _ _ Hf Hx) as (y & Hy & Hi). destruct (N1 _ _ Hx) as [B1 C1]. destruct (N2 _ _ Hy) as [B2 C2].
    destruct x as [f|f], y as [g|g]; try done; cbn in Hi.
    - right. destruct (iso_value (var m1) (var m2) f g rho) as (t & T1 & T2); try done; [by eapply (pair_wv1 I)| | |].
      + rewrite (mmw_h _ _ (xm_wf _ _ (pr_1 _ _ _ P))). by eapply (pair_hc I).
      + unfold in_range. by rewrite (mmw_h _ _ (xm_wf _ _ (pr_1 _ _ _ P))).
      + exists t. split; [apply C1|apply C2]; by eexists.
    - left. destruct (iso_value (bar m1) (bar m2) f g rho) as (t & T1 & T2); try done; [by eapply (pair_wb1 I)|by eapply (pair_hc I)|].
      exists t. split; [apply B1|apply B2]; by eexists. }
  assert (Hs : same_mnode m1' r1 m2' r2).
  { destruct A1 as (W1' & _ & _ & H1). assert (Hrg : ∀ rho, in_range (bar m1') rho → in_range (bar m1) rho) by (intros rho; unfold in_range; by rewrite H1).
    assert (HZ : in_range (bar m1) (λ _, 0)). { intros hd' Hin. by apply (pair_hc I _ _ P). }
    destruct r1 as [f|f], r2 as [g|g]; cbn.
    - apply same_intro. intros rho R1 _. destruct (HV rho) as [(t & (? & [=] & _) & _)|(t & (? & [= <-] & T1) & (? & [= <-] & T2))]; [|by exists t].
      apply Hrg. unfold in_range. by rewrite <- (mmw_h _ _ W1').
    - destruct (HV _ HZ) as [(t & (? & [=] & _) & _)|(t & _ & (? & [=] & _))].
    - destruct (HV _ HZ) as [(t & _ & (? & [=] & _))|(t & (? & [=] & _) & _)].
    - apply same_intro. intros rho R1 _. destruct (HV rho) as [(t & (? & [= <-] & T1) & (? & [= <-] & T2))|(t & (? & [=] & _) & _)]; [|by exists t].
      by apply Hrg. }
  rewrite E1, E2. constructor. unfold after. cbn [fst snd]. sp; try done. by apply (same_miso I).
Qed.

(** ** rpn *)
Record rsim (H1 H2 : handles) (s1 s2 : mrpn) : Prop := {
  rs_d : duo (mr_w s1) (mr_w s2) H1 H2;
  rs_st : Forall2 (miso (g_mm (mr_w s1)) (g_mm (mr_w s2))) (mr_stack s1) (mr_stack s2);
  rs_sv : ∀ x, osim (miso (g_mm (mr_w s1)) (g_mm (mr_w s2))) (mr_saved s1 !! x) (mr_saved s2 !! x);
}.
Definition rnext (H1 H2 : handles) (s1 s2 : mrpn) (p q : mrpn * bool) : Prop :=
  p.2 = q.2 ∧ rsim H1 H2 p.1 q.1 ∧ mext I (g_mm (mr_w s1)) (g_mm (mr_w p.1)) ∧ mext I (g_mm (mr_w s2)) (g_mm (mr_w q.1)).
Lemma osim_mono {A B} (P Q : A → B → Prop) x y : osim P x y → (∀ a b, P a b → Q a b) → osim Q x y.
Proof. intros [a b H|] HI; constructor; auto. Qed.

Lemma op_bin t op : mrpn_op I t = Some op → ∃ o, op = mm_bin I o.
Proof.
  unfold mrpn_op. repeat (destruct (String.eqb t _); [intros [= <-]; first
    [by exists (OArith VAdd)|by exists (OArith VSub)|by exists (OArith VMul)|by exists (OArith VDiv)|by exists (OArith VMin)|by exists (OArith VMax)
    |by exists (OCmp Eq)|by exists (OCmp Neq)|by exists (OCmp Lt)|by exists (OCmp Lte)|by exists (OCmp Gt)|by exists (OCmp Gte)
    |by exists (OGate GAnd)|by exists (OGate GOr)]|]). done.
Qed.

Section rpn.
Context (H1 H2 : handles) (w1 w2 : mmgr) (st1 st2 : list mnode) (sv1 sv2 : gmap string mnode).
Context (Q : rsim H1 H2 (MRpn w1 st1 sv1) (MRpn w2 st2 sv2)).
Local Notation s1 := (MRpn w1 st1 sv1).
Local Notation s2 := (MRpn w2 st2 sv2).
Local Notation D := (rs_d _ _ _ _ Q).

(** the result of an operation goes on the stack *)
Lemma push_after o1 o2 l1 l2 : osim (after I (g_mm w1) (g_mm w2)) o1 o2 → Forall2 (miso (g_mm w1) (g_mm w2)) l1 l2 →
  osim (rnext H1 H2 s1 s2) ('(m, r) ← o1; Some (MRpn (with_mm w1 m) (r :: l1) sv1, true)) ('(m, r) ← o2; Some (MRpn (with_mm w2 m) (r :: l2) sv2, true)).
Proof.
  intros Ho Hl. eapply osim_bind; [exact Ho|]. intros [m1 r1] [m2 r2] Ha. pose proof Ha as (S1 & S2 & P' & Hr). cbn in S1, S2, P', Hr.
  constructor. split; [done|]. cbn [fst mr_w g_mm with_mm]. sp; [|by apply mmstep_mext..].
  constructor; cbn [mr_w mr_stack mr_saved g_mm with_mm].
  - by apply duo_step; [apply D|..].
  - constructor; [done|]. eapply Forall2_impl; [exact Hl|]. intros u v. apply (after_miso I _ _ _ _ _ _ Ha).
  - intros x. eapply osim_mono; [exact (rs_sv _ _ _ _ Q x)|]. intros u v. apply (after_miso I _ _ _ _ _ _ Ha).
Qed.
Lemma stay go l1 l2 v1 v2 : Forall2 (miso (g_mm w1) (g_mm w2)) l1 l2 → (∀ x, osim (miso (g_mm w1) (g_mm w2)) (v1 !! x) (v2 !! x)) →
  osim (rnext H1 H2 s1 s2) (Some (MRpn w1 l1 v1, go)) (Some (MRpn w2 l2 v2, go)).
Proof.
  intros Hl Hv. constructor. split; [done|]. cbn. sp; [|apply mext_refl, D..]. constructor; [apply D|done|done].
Qed.
Lemma const_iso (t : tv) id : (∀ m, mmwf I m → repr (bar m) (Leaf t) id) → miso (g_mm w1) (g_mm w2) (NBool id) (NBool id).
Proof. intros Hm. exists (Leaf t). split; apply Hm, xm_wf, D. Qed.
End rpn.
Lemma rstep_sim H1 H2 w1 w2 st1 st2 sv1 sv2 (Q : rsim H1 H2 (MRpn w1 st1 sv1) (MRpn w2 st2 sv2)) ranges t :
  osim (rnext H1 H2 (MRpn w1 st1 sv1) (MRpn w2 st2 sv2)) (mrpn_step I ranges (MRpn w1 st1 sv1) t) (mrpn_step I ranges (MRpn w2 st2 sv2) t).
Proof.
  pose proof (rs_st _ _ _ _ Q) as Hst. cbn in Hst. pose proof (rs_sv _ _ _ _ Q) as Hsv. cbn in Hsv. pose proof (rs_d _ _ _ _ Q) as HD. cbn in HD. pose proof (duo_pair _ _ _ _ HD) as P.
  unfold mrpn_step. destruct (mrpn_op I t) as [op|] eqn:Eo.
  { destruct (op_bin _ _ Eo) as [o ->]. unfold mrpn_bin. cbn [mr_stack mr_w mr_saved].
    destruct Hst as [|b1 b2 l1 l2 Hb [|a1 a2 l1' l2' Ha Hl]]; [constructor..|].
    assert (HB : ∀ (w : mmgr) l v (x : option (mm * mnode)), (s ← ('(m, r) ← x; Some (MRpn (with_mm w m) (r :: l) v)); Some (s, true)) =
      ('(m, r) ← x; Some (MRpn (with_mm w m) (r :: l) v, true))) by (by intros ? ? ? [[? ?]|]).
    rewrite !HB. eapply push_after; [exact Q|..]; [by apply bin_sim|done]. }
  destruct (String.eqb t "!").
  { cbn [mr_stack mr_w mr_saved]. destruct Hst as [|a1 a2 l1 l2 Ha Hl]; [constructor|]. eapply push_after; [exact Q|..]; [by apply not_sim|done]. }
  destruct (String.eqb t "?").
  { cbn [mr_stack mr_w mr_saved]. destruct Hst as [|c1 c2 l1 l2 Hc [|b1 b2 l1' l2' Hb [|a1 a2 l1'' l2'' Ha Hl]]]; [constructor..|].
    eapply push_after; [exact Q|..]; [by apply ite_sim|done]. }
  destruct (String.eqb t "True").
  { eapply stay; [exact Q|..]; [|done]. constructor; [|done]. eapply (const_iso _ _ _ _ _ _ _ _ Q TOne). intros m W. apply mg_one. apply (mw_good _ (mmw_b _ _ W)). }
  destruct (String.eqb t "False").
  { eapply stay; [exact Q|..]; [|done]. constructor; [|done]. eapply (const_iso _ _ _ _ _ _ _ _ Q TZero). intros m W. apply mg_zero. apply (mw_good _ (mmw_b _ _ W)). }
  destruct (paren_arg "save(" t) as [x|].
  { cbn [mr_stack mr_w mr_saved]. destruct Hst as [|a1 a2 l1 l2 Ha Hl].
    - eapply stay; [exact Q|..]; [constructor|done].
    - eapply stay; [exact Q|..]; [by constructor|]. intros y. destruct (decide (y = x)) as [->|Hne]; [rewrite !lookup_insert; by constructor|].
      rewrite !lookup_insert_ne by done. apply Hsv. }
  destruct (paren_arg "load(" t) as [x|].
  { cbn [mr_stack mr_w mr_saved]. destruct (Hsv x) as [u v Hu|].
    - eapply stay; [exact Q|..]; [by constructor|done].
    - by eapply stay; [exact Q|..]. }
  destruct (parse_i32 t) as [z|].
  { cbn [mr_stack mr_w mr_saved]. pose proof (push_after _ _ _ _ _ _ _ _ Q _ _ st1 st2 (value_sim I _ _ P z) Hst) as HP. cbn [mbind option_bind] in HP.
    destruct (mm_value (g_mm w1) z) as [??], (mm_value (g_mm w2) z) as [??]. exact HP. }
  apply osim_same. intros n. cbn [mr_w]. eapply osim_bind; [by apply defvar_sim|].
  intros [w1' r1] [w2' r2] (D' & Hi & M1 & M2). cbn [fst snd] in *. constructor. split; [done|]. cbn [fst mr_w mr_stack mr_saved]. 
  destruct D' as [K1 K2 X1 X2 HH]. sp; [|done|done]. constructor; cbn [mr_w mr_stack mr_saved].
  - constructor; [by eapply gok_drop|by eapply gok_drop|done..].
  - constructor; [done|]. eapply Forall2_impl; [exact Hst|]. intros u v. by apply (miso_ext I).
  - intros x. eapply osim_mono; [exact (Hsv x)|]. intros u v. by apply (miso_ext I).
Qed.
Lemma rloop_sim H1 H2 ranges ts : ∀ s1 s2, rsim H1 H2 s1 s2 → osim (rnext H1 H2 s1 s2) (mrpn_loop I ranges s1 ts) (mrpn_loop I ranges s2 ts).
Proof.
  induction ts as [|t ts IH]; intros s1 s2 Q; cbn [mrpn_loop].
  - constructor. split; [done|]. split; [done|]. split; apply mext_refl, (rs_d _ _ _ _ Q).
  - eapply osim_bind; [destruct s1, s2; by apply rstep_sim|]. intros [s1' g1] [s2' g2] (Hg & Q' & M1 & M2). cbn [fst snd] in *. subst g2.
    destruct g1; [|by constructor]. eapply osim_mono; [by apply IH|]. intros p q (? & ? & M1' & M2').
    split; [done|]. split; [done|]. split; by eapply mext_trans.
Qed.

(** ** a client's slots *)
Definition ent (S : mslots) : handles := (λ x, (x, None)) <$> omap id S.
Lemma ent_app S S' : ent (S ++ S') = ent S ++ ent S'.
Proof. unfold ent. by rewrite omap_app, fmap_app. Qed.
Lemma ent_some l : ent (Some <$> l) = (λ x, (x, None)) <$> l.
Proof. unfold ent. f_equal. induction l as [|x l IH]; cbn; [done|by f_equal]. Qed.
Lemma ent_fst S : (ent S).*1 = omap id S.
Proof. unfold ent. rewrite <- list_fmap_compose. apply list_fmap_id. Qed.
Lemma ent_elem S i x : S !! i = Some (Some x) → x ∈ (ent S).*1.
Proof. intros Hi. rewrite ent_fst. apply elem_of_list_omap. exists (Some x). split; [by eapply elem_of_list_lookup_2|done]. Qed.
Lemma ent_delete S i x : mslot S i = Some x → ent S ≡ₚ (x, None) :: ent (<[i := None]> S).
Proof.
  unfold mslot, ent. revert i. induction S as [|o S IH]; intros i; [done|]. destruct i as [|i]; cbn [lookup list_lookup].
  - cbn. by intros ->.
  - intros Hi. specialize (IH i Hi). cbn [insert list_insert]. destruct o as [y|]; [|exact IH]. cbn. rewrite IH. apply Permutation_swap.
Qed.
Record twin (w1 : mmgr) (S1 : mslots) (w2 : mmgr) (S2 : mslots) : Prop := {
  tn_d : duo w1 w2 (ent S1) (ent S2);
  tn_s : Forall2 (osim (miso (g_mm w1) (g_mm w2))) S1 S2;
}.
(** the slots across a change of the managers *)
Lemma slots_kept w1 S1 w2 S2 w1' w2' : twin w1 S1 w2 S2 →
  (∀ u, u ∈ (ent S1).*1 → kept_node (g_mm w1) (g_mm w1') u) → (∀ u, u ∈ (ent S2).*1 → kept_node (g_mm w2) (g_mm w2') u) →
  Forall2 (osim (miso (g_mm w1') (g_mm w2'))) S1 S2.
Proof.
  intros [_ Hs] K1 K2. apply Forall2_same_length_lookup. split; [by eapply Forall2_length|]. intros i o1 o2 E1 E2.
  destruct (Forall2_lookup_l _ _ _ _ _ Hs E1) as (o & E & Ho). rewrite E2 in E. injection E as <-. destruct o1 as [x|], o2 as [y|]; inversion Ho; subst; constructor.
  eapply miso_kept; [apply K1; by eapply ent_elem|apply K2; by eapply ent_elem|done].
Qed.

Section prog.
Context {R : Type} (rO rI : R) (radd rmul rsub : R → R → R).
Local Notation mdo := (mdo I rO rI radd rmul rsub).
Local Notation mgo := (mgo I rO rI radd rmul rsub).
Definition tw (p q : mmgr * mslots * mans R) : Prop := twin p.1.1 p.1.2 q.1.1 q.1.2 ∧ p.2 = q.2.

Section step.
Context w1 S1 w2 S2 (T : twin w1 S1 w2 S2).
Local Notation "x ≈ y" := (miso (g_mm w1) (g_mm w2) x y) (at level 70).
Local Notation D := (tn_d _ _ _ _ T).
Lemma slot_tw i : osim (miso (g_mm w1) (g_mm w2)) (mslot S1 i) (mslot S2 i).
Proof.
  unfold mslot. pose proof (tn_s _ _ _ _ T) as Hs. destruct (S1 !! i) as [o1|] eqn:E1, (S2 !! i) as [o2|] eqn:E2.
  - destruct (Forall2_lookup_l _ _ _ _ _ Hs E1) as (o & E & Ho). pose proof (eq_trans (eq_sym E) E2 : Some o = Some o2) as [= ->]. done.
  - destruct (Forall2_lookup_l _ _ _ _ _ Hs E1) as (o & E & Ho). by pose proof (eq_trans (eq_sym E) E2 : Some o = None).
  - destruct (Forall2_lookup_r _ _ _ _ _ Hs E2) as (o & E & Ho). by pose proof (eq_trans (eq_sym E) E1 : Some o = None).
  - constructor.
Qed.
Lemma slots_tw l : osim (Forall2 (miso (g_mm w1) (g_mm w2))) (mslot_list S1 l) (mslot_list S2 l).
Proof.
  unfold mslot_list. induction l as [|i l IH]; cbn [mapM]; [by constructor|].
  eapply osim_bind; [apply slot_tw|]. intros x y Hx. eapply osim_bind; [exact IH|]. intros xs ys Hxs. constructor. by constructor.
Qed.
Lemma tell_tw a1 a2 : a1 = a2 → osim tw (mtell w1 S1 a1) (mtell w2 S2 a2).
Proof. intros ->. destruct a2 as [a|]; cbn; [|constructor]. constructor. by split. Qed.
Lemma snoc_tw w1' w2' (l1 l2 : list (option mnode)) a : duo w1' w2' (ent l1 ++ ent S1) (ent l2 ++ ent S2) → Forall2 (osim (miso (g_mm w1') (g_mm w2'))) l1 l2 →
  (∀ u, u ∈ (ent S1).*1 → kept_node (g_mm w1) (g_mm w1') u) → (∀ u, u ∈ (ent S2).*1 → kept_node (g_mm w2) (g_mm w2') u) →
  tw (w1', S1 ++ l1, a) (w2', S2 ++ l2, a).
Proof.
  intros [K1 K2 X1 X2 HH] Hl Q1 Q2. split; [|done]. cbn [fst snd]. constructor.
  - constructor; try done; rewrite ent_app; (eapply gok_perm; [eassumption|apply Permutation_app_comm]).
  - apply Forall2_app; [by eapply slots_kept|done].
Qed.
Lemma wrap_tw w1' w2' x y : duo w1' w2' (ent S1) (ent S2) → mext I (g_mm w1) (g_mm w1') → mext I (g_mm w2) (g_mm w2') → miso (g_mm w1') (g_mm w2') x y →
  ∃ v1 v2, g_wrap w1' x = Some (v1, x) ∧ g_wrap w2' y = Some (v2, y) ∧ ∀ a, tw (v1, S1 ++ [Some x], a) (v2, S2 ++ [Some y], a).
Proof.
  intros D' M1 M2 Hi. destruct (wrap_sim _ _ _ _ _ _ D' Hi) as (v1 & v2 & E1 & E2 & D2 & Hi' & Q1 & Q2). exists v1, v2. sp; [done|done|].
  intros a. apply snoc_tw; [done|by repeat constructor| |].
  - intros u Hu. specialize (Q1 u Hu). pose proof (kept_ext I _ _ u M1) as Q. destruct u; cbn in *; auto.
  - intros u Hu. specialize (Q2 u Hu). pose proof (kept_ext I _ _ u M2) as Q. destruct u; cbn in *; auto.
Qed.
Lemma op_tw o1 o2 : osim (after I (g_mm w1) (g_mm w2)) o1 o2 → osim tw (mgive S1 (g_op w1 o1)) (mgive S2 (g_op w2 o2)).
Proof.
  intros [[m1 r1] [m2 r2] (A1 & A2 & P & Hi)|]; [|constructor]. cbn [fst snd] in *. unfold g_op. cbn [mbind option_bind].
  destruct (wrap_tw (with_mm w1 m1) (with_mm w2 m2) r1 r2) as (v1 & v2 & E1 & E2 & HT); [by apply duo_step; [apply D|..]|by apply mmstep_mext|by apply mmstep_mext|done|].
  rewrite E1, E2. cbn. constructor. apply HT.
Qed.
Lemma const_tw x y : x ≈ y → osim tw (mgive S1 (g_wrap w1 x)) (mgive S2 (g_wrap w2 y)).
Proof.
  intros Hi. destruct (wrap_tw w1 w2 x y) as (v1 & v2 & E1 & E2 & HT); [apply D|apply mext_refl, xm_wf, D|apply mext_refl, xm_wf, D|done|].
  rewrite E1, E2. cbn. constructor. apply HT.
Qed.
Lemma leaf_iso (t : tv) id : (∀ m, mmwf I m → repr (bar m) (Leaf t) id) → NBool id ≈ NBool id.
Proof. intros Hm. exists (Leaf t). split; apply Hm, xm_wf, D. Qed.
Lemma one_iso : mm_one ≈ mm_one.
Proof. apply (leaf_iso TOne). intros m W. apply mg_one. apply (mw_good _ (mmw_b _ _ W)). Qed.
Lemma zero_iso : mm_zero ≈ mm_zero.
Proof. apply (leaf_iso TZero). intros m W. apply mg_zero. apply (mw_good _ (mmw_b _ _ W)). Qed.

(** questions *)
Local Notation P := (duo_pair _ _ _ _ D).
Lemma vsim {A} (g : arena vt → nat → A) (h : arena tv → nat → A) x y : x ≈ y →
  (∀ a1 a2 i j, awf Rn a1 → awf Rn a2 → ar_headers a1 = ar_headers a2 → iso a1 a2 i j → g a1 i = g a2 j) →
  (∀ a1 a2 i j, awf Rn a1 → awf Rn a2 → ar_headers a1 = ar_headers a2 → iso a1 a2 i j → h a1 i = h a2 j) →
  match x with NVal f => g (var (g_mm w1)) f | NBool f => h (bar (g_mm w1)) f end =
  match y with NVal f => g (var (g_mm w2)) f | NBool f => h (bar (g_mm w2)) f end.
Proof.
  intros Hi Hg Hh. destruct x as [f|f], y as [f'|f']; try done; cbn in Hi.
  - apply Hg; [by eapply (pair_wv1 I), P|by eapply (pair_wv2 I), P|by apply (pair_vh I), P|done].
  - apply Hh; [by eapply (pair_wb1 I), P|by eapply (pair_wb2 I), P|apply P|done].
Qed.
Lemma same_tw x y x' y' : x ≈ y → x' ≈ y' → g_same x x' = g_same y y'.
Proof.
  intros Hx Hy. unfold g_same. apply bool_decide_ext. destruct x as [f|f], y as [g|g]; try done; destruct x' as [f'|f'], y' as [g'|g']; try done; cbn in Hx, Hy.
  - split; intros [= <-]; f_equal; [by eapply (iso_fun _ _ _ (pair_wv2 I _ _ P))|by eapply (iso_inj _ _ _ (pair_wv1 I _ _ P))].
  - split; intros [= <-]; f_equal; [by eapply (iso_fun _ _ _ (pair_wb2 I _ _ P))|by eapply (iso_inj _ _ _ (pair_wb1 I _ _ P))].
Qed.
Ltac node Hi := match type of Hi with iso ?a1 ?a2 _ _ => 
  match goal with A : awf Rn a1, B : awf Rn a2 |- _ => destruct (iso_node _ _ _ _ A B _ _ Hi) as
  [(tm & E1 & E2)|(h & hd & cs1 & cs2 & E1 & E2 & F1 & F2 & Hcs)]; rewrite E1, E2; cbn [mbind option_bind] end end.
Lemma kind_tw x y : x ≈ y → g_is_boolean x = g_is_boolean y.
Proof. by destruct x, y. Qed.
Lemma is_tw t x y : x ≈ y → g_is t w1 x = g_is t w2 y.
Proof. intros Hi. apply (vsim (λ _ _, Some false) (λ a f, n ← ar_nodes a !! f; Some match n with Term t' => bool_decide (t' = t) | NT _ _ => false end) x y Hi); [done|]. intros a1 a2 i j A1 A2 _ Hij. by node Hij. Qed.
Lemma const_q x y : x ≈ y → g_const w1 x = g_const w2 y.
Proof. intros Hi. apply (vsim (λ a f, n ← ar_nodes a !! f; Some match n with Term (VVal z) => Some z | _ => None end) (λ _ _, Some None) x y Hi); [|done]. intros a1 a2 i j A1 A2 _ Hij. by node Hij. Qed.
Lemma header_tw x y : x ≈ y → g_header w1 x = g_header w2 y.
Proof.
  intros Hi. apply (vsim (λ a f, n ← ar_nodes a !! f; match n with Term _ => None | NT h _ => Some h end) (λ a f, n ← ar_nodes a !! f; match n with Term _ => None | NT h _ => Some h end) x y Hi);
    intros a1 a2 i j A1 A2 _ Hij; by node Hij.
Qed.
Lemma label_tw x y : x ≈ y → g_label w1 x = g_label w2 y.
Proof.
  intros Hi. unfold g_label. rewrite (header_tw _ _ Hi). destruct (g_header w2 y) as [h|]; [|done]. cbn [mbind option_bind]. f_equal.
  apply (vsim (λ a _, ar_headers a !! h) (λ a _, ar_headers a !! h) x y Hi); intros a1 a2 i j _ _ E _; by rewrite E.
Qed.
Lemma level_tw x y : x ≈ y → g_level w1 x = g_level w2 y.
Proof.
  intros Hi. apply (vsim (λ a f, nlevel a f) (λ a f, nlevel a f) x y Hi); intros a1 a2 i j A1 A2 _ Hij; unfold nlevel; by rewrite (iso_level _ _ _ _ A1 A2 _ _ Hij).
Qed.
Lemma size_tw x y : x ≈ y → g_size w1 x = g_size w2 y.
Proof. intros Hi. apply (vsim (λ a f, nsize a f) (λ a f, nsize a f) x y Hi); intros a1 a2 i j A1 A2 E Hij; by eapply nsize_same. Qed.
Lemma count_tw ss x y : x ≈ y → g_count w1 x ss = g_count w2 y ss.
Proof. intros Hi. apply (vsim (ncount true (vhit ss)) (ncount false (bhit ss)) x y Hi); intros a1 a2 i j A1 A2 E Hij; by eapply ncount_same. Qed.
Lemma prob_tw pv ss x y : x ≈ y → g_prob rO rI radd rmul w1 x pv ss = g_prob rO rI radd rmul w2 y pv ss.
Proof.
  intros Hi. apply (vsim (λ a f, nprob rO rI radd rmul (vhit ss) a pv f) (λ a f, nprob rO rI radd rmul (bhit ss) a pv f) x y Hi);
    intros a1 a2 i j A1 A2 E Hij; by eapply nprob_same.
Qed.
Lemma meas_tw pv ss x y : x ≈ y → g_bmeas rO rI radd rmul rsub w1 x pv ss = g_bmeas rO rI radd rmul rsub w2 y pv ss.
Proof.
  intros Hi. apply (vsim (λ a f, nmeas rO rI radd rmul rsub (vhit ss) a pv f) (λ a f, nmeas rO rI radd rmul rsub (bhit ss) a pv f) x y Hi);
    intros a1 a2 i j A1 A2 E Hij; by eapply nmeas_same.
Qed.
Lemma paths_tw n ss x y : x ≈ y → g_extract n w1 x ss = g_extract n w2 y ss.
Proof.
  intros Hi. unfold g_extract. rewrite (pair_vh I _ _ P).
  apply (vsim (λ a f, nextract n (vhit ss) _ a f) (λ a f, nextract n (bhit ss) _ a f) x y Hi);
    intros a1 a2 i j A1 A2 E Hij; by eapply nextract_same.
Qed.

(** the remaining calls *)
Lemma pins_mm l : ∀ w, g_mm (foldl g_pin w l) = g_mm w.
Proof. induction l as [|x l IH]; intros w; [done|]. cbn. by rewrite IH. Qed.
Lemma pins_ok w H l : ok w H → Forall (mm_valid (g_mm w)) l → ok (foldl g_pin w l) (((λ x, (x, None)) <$> l) ++ H).
Proof.
  intros Hk Hv. pose proof (gok_pins I w H ((λ x, (x, None)) <$> l) Hk) as HP. rewrite <- list_fmap_compose in HP. 
  replace ((fst ∘ (λ x : mnode, (x, None : option mfn))) <$> l) with l in HP by (symmetry; apply list_fmap_id). apply HP.
  intros x F (y & [= -> ->] & Hy)%elem_of_list_fmap. rewrite Forall_forall in Hv. by split; [apply Hv|].
Qed.
Lemma pin_tw l1 l2 a : Forall2 (miso (g_mm w1) (g_mm w2)) l1 l2 →
  tw (foldl g_pin w1 l1, S1 ++ (Some <$> l1), a) (foldl g_pin w2 l2, S2 ++ (Some <$> l2), a).
Proof.
  intros Hl. pose proof D as [K1 K2 X1 X2 HH]. apply snoc_tw.
  - rewrite !ent_some. constructor; rewrite ?pins_mm; try done.
    + apply pins_ok; [done|]. eapply Forall2_Forall_l; [exact Hl|]. apply Forall_forall. intros y _ x. apply miso_l.
    + apply pins_ok; [done|]. eapply Forall2_Forall_r; [exact Hl|]. apply Forall_forall. intros y _ x. apply miso_r.
  - rewrite !pins_mm. apply Forall2_fmap. eapply Forall2_impl; [exact Hl|]. intros x y Hx. by constructor.
  - rewrite pins_mm. intros u _. apply kept_refl.
  - rewrite pins_mm. intros u _. apply kept_refl.
Qed.
Lemma kids_tw x y : x ≈ y →
  osim tw ('(w, o) ← g_children w1 x; Some match o with Some fs => (w, S1 ++ (Some <$> fs), NKids (Some (length fs))) | None => (w, S1, NKids None) end)
    ('(w, o) ← g_children w2 y; Some match o with Some fs => (w, S2 ++ (Some <$> fs), NKids (Some (length fs))) | None => (w, S2, NKids None) end).
Proof.
  intros Hi. pose proof P as PP. assert (HK : ∀ l1 l2, Forall2 (miso (g_mm w1) (g_mm w2)) l1 l2 → 
    osim tw (Some (foldl g_pin w1 l1, S1 ++ (Some <$> l1), NKids (Some (length l1)))) (Some (foldl g_pin w2 l2, S2 ++ (Some <$> l2), NKids (Some (length l2))))).
  { intros l1 l2 Hl. constructor. rewrite (Forall2_length _ _ _ Hl). by apply pin_tw. }
  assert (H0 : osim tw (Some (w1, S1, NKids None)) (Some (w2, S2, NKids None))) by (constructor; by split).
  pose proof (pair_wv1 I _ _ PP) as A1. pose proof (pair_wv2 I _ _ PP) as A2. pose proof (pair_wb1 I _ _ PP) as B1. pose proof (pair_wb2 I _ _ PP) as B2.
  unfold g_children. destruct x as [f|f], y as [g|g]; try done; cbn in Hi; node Hi; try exact H0; apply HK.
  - apply Forall2_fmap. exact Hcs.
  - apply Forall2_fmap. exact Hcs.
Qed.
Lemma free_tw i : osim tw (f ← mslot S1 i; Some (g_drop w1 f, <[i := None]> S1, NDone)) (f ← mslot S2 i; Some (g_drop w2 f, <[i := None]> S2, NDone)).
Proof.
  pose proof D as [K1 K2 X1 X2 HH]. pose proof (slot_tw i) as Hs. destruct (mslot S1 i) as [x|] eqn:E1, (mslot S2 i) as [y|] eqn:E2; try (by inversion Hs); [|constructor].
  cbn [mbind option_bind]. constructor. split; [|done]. cbn [fst snd]. constructor.
  - constructor; try done; [eapply (gok_drop I _ (ent S1) x None)|eapply (gok_drop I _ (ent S2) y None)]; try done; by apply ent_delete.
  - apply Forall2_insert; [apply T|constructor].
Qed.
Lemma list_tw o l1 l2 : Forall2 (miso (g_mm w1) (g_mm w2)) l1 l2 → osim tw (mgive S1 (g_list I o w1 l1)) (mgive S2 (g_list I o w2 l2)).
Proof.
  intros Hl. destruct o; cbn [g_list].
  - apply op_tw, (fold_sim I (OGate GAnd)); [apply P|apply one_iso|done].
  - apply op_tw, (fold_sim I (OGate GOr)); [apply P|apply zero_iso|done].
  - unfold g_min_list, g_fold1. destruct Hl as [|x y l1 l2 Hx Hl]; [constructor|]. apply op_tw, (fold_sim I (OArith VMin)); [apply P|done|done].
  - unfold g_max_list, g_fold1. destruct Hl as [|x y l1 l2 Hx Hl]; [constructor|]. apply op_tw, (fold_sim I (OArith VMax)); [apply P|done|done].
Qed.
Lemma expr_tw e ranges :
  osim tw ('(w, r) ← g_rpn I w1 e ranges; Some match r with RpnOk f => (w, S1 ++ [Some f], NTruth true) | RpnErr => (w, S1 ++ [None], NTruth false) end)
    ('(w, r) ← g_rpn I w2 e ranges; Some match r with RpnOk f => (w, S2 ++ [Some f], NTruth true) | RpnErr => (w, S2 ++ [None], NTruth false) end).
Proof.
  unfold g_rpn. assert (Q : rsim (ent S1) (ent S2) (MRpn w1 [] ∅) (MRpn w2 [] ∅)).
  { constructor; cbn; [apply D|constructor|]. intros x. rewrite !lookup_empty. constructor. }
  destruct (rloop_sim _ _ ranges (split_whitespace e) _ _ Q) as [[s1 g1] [s2 g2] (Hg & [D' Hst _] & M1 & M2)|]; [|constructor].
  cbn [fst snd mr_w] in *. subst g2. cbn [mbind option_bind].
  assert (HE : tw (mr_w s1, S1 ++ [None], NTruth false) (mr_w s2, S2 ++ [None], NTruth false)).
  { apply snoc_tw; [exact D'|by repeat constructor| |]; intros u _; by eapply kept_ext. }
  destruct g1; [|by constructor]. destruct Hst as [|x y l1 l2 Hx [|? ? ? ? ? ?]]; [by constructor| |by constructor].
  destruct (wrap_tw (mr_w s1) (mr_w s2) x y D' M1 M2 Hx) as (v1 & v2 & E1 & E2 & HT). rewrite E1, E2. cbn. constructor. apply HT.
Qed.
Lemma do_tw c : ¬ mhouse c → osim tw (mdo w1 S1 c) (mdo w2 S2 c).
Proof.
  intros Hc. pose proof D as [K1 K2 X1 X2 HH]. pose proof P as PP.
  destruct c; cbn [SpecTransM.mdo]; try (by destruct Hc); try apply expr_tw; try apply free_tw;
    try (eapply osim_bind; [apply slot_tw|]; intros f1 f2 Hf).
  - eapply osim_bind; [by apply defvar_sim; apply D|]. intros [v1 r1] [v2 r2] (D' & Hi & M1 & M2). cbn [fst snd] in *. constructor.
    apply snoc_tw; [exact D'|by repeat constructor| |]; intros u _; by eapply kept_ext.
  - destruct b; [apply const_tw, one_iso|apply const_tw, zero_iso].
  - pose proof (op_tw _ _ (value_sim I _ _ PP z)) as HV. exact HV.
  - apply const_tw, zero_iso.
  - apply const_tw, (undetv_iso I _ _ PP).
  - apply op_tw. by apply not_sim.
  - eapply osim_bind; [apply slot_tw|]. intros g1 g2 Hg. apply op_tw. by apply bin_sim.
  - eapply osim_bind; [apply slot_tw|]. intros g1 g2 Hg. eapply osim_bind; [apply slot_tw|]. intros h1 h2 Hh. apply op_tw. by apply ite_sim.
  - eapply osim_bind; [apply slots_tw|]. intros l1 l2 Hl. by apply list_tw.
  - eapply osim_bind; [apply slots_tw|]. intros l1 l2 Hl. pose proof (make_fits _ _ h _ _ PP Hl) as HF.
    destruct (decide (mm_fits (g_mm w1) h l1)) as [F1|F1]; [rewrite decide_True by tauto|rewrite decide_False by tauto; constructor].
    apply op_tw. by apply make_sim.
  - by apply kids_tw.
  - constructor. apply (pin_tw [f1] [f2]). by repeat constructor.
  - eapply osim_bind; [apply slot_tw|]. intros g1 g2 Hg. apply tell_tw. do 2 f_equal. by apply same_tw.
  - apply tell_tw. do 2 f_equal. by apply kind_tw.
  - apply tell_tw. f_equal. by apply is_tw.
  - apply tell_tw. f_equal. by apply const_q.
  - apply tell_tw. f_equal. by apply count_tw.
  - apply tell_tw. f_equal. by apply prob_tw.
  - apply tell_tw. f_equal. by apply meas_tw.
  - apply tell_tw. f_equal. by apply paths_tw.
  - apply tell_tw. f_equal. by apply size_tw.
  - apply tell_tw. do 2 f_equal. by apply label_tw.
  - apply tell_tw. do 2 f_equal. by apply level_tw.
  - apply tell_tw. do 2 f_equal. by apply header_tw.
  - apply tell_tw. f_equal. eapply order_sim, D.
Qed.
Lemma house_tw c : mhouse c → ∃ w1', mdo w1 S1 c = Some (w1', S1, NDone) ∧ twin w1' S1 w2 S2.
Proof.
  pose proof D as [K1 K2 X1 X2 HH].
  destruct c; intros Hc; try (by destruct Hc); cbn [SpecTransM.mdo].
  - set (ks := omap (mslot S1) keep). assert (HK : Forall (λ x, x ∈ (ent S1).*1) ks).
    { apply Forall_forall. intros x (i & _ & Hi)%elem_of_list_omap. unfold mslot in Hi. destruct (S1 !! i) as [o|] eqn:E; [|done]. cbn in Hi. subst o. by eapply ent_elem. }
    destruct (g_gc_ok I w1 (ent S1) K1 ks HK) as (w' & n & E & K' & Hh). rewrite E. cbn [mbind option_bind]. exists w'. split; [done|].
    unfold g_gc in E. destruct (mm_gc _ _) as [[m n']|] eqn:G; [|done]. cbn in E. injection E as <- _. cbn [g_mm with_mm] in *.
    assert (HV : Forall (mm_valid (g_mm w1)) (mroot_keys (g_roots w1) ++ ks)).
    { apply Forall_app. split; [by eapply roots_valid|]. eapply Forall_impl; [exact HK|]. intros x. by apply (gok_valid I (B:=mbase0) w1 (ent S1)). }
    destruct (gc_kept _ _ _ _ X1 HV G) as (X' & Hh' & Hkp).
    constructor; [constructor; try done; cbn; by rewrite Hh|]. eapply slots_kept; [exact T| |intros u _; apply kept_refl].
    intros u Hu. apply Hkp, elem_of_app. left. by eapply root_held.
  - eexists. split; [done|]. constructor; [constructor; try done; by apply gok_params|apply T].
  - eexists. split; [done|]. constructor.
    + constructor; try done; [by apply g_clear_ok|]. cbn. by apply (xmm_exec I (g_mm w1) XClear).
    + eapply slots_kept; [exact T| |intros u _; apply kept_refl]. intros [u|u] _ d Hd; exact Hd.
Qed.
End step.
Lemma mgo_tw p : ∀ w1 S1 w2 S2, twin w1 S1 w2 S2 → mgo w1 S1 p = mgo w2 S2 (no_mhouse p).
Proof.
  induction p as [|c p IH]; intros w1 S1 w2 S2 T; [done|]. cbn [SpecTransM.mgo]. unfold no_mhouse. rewrite filter_cons.
  destruct (decide (mhouse c)) as [Hc|Hc].
  - rewrite decide_False by tauto. destruct (house_tw _ _ _ _ T c Hc) as (w1' & -> & T'). cbn [mbind option_bind].
    rewrite (IH _ _ _ _ T'). fold (no_mhouse p). by destruct (mgo w2 S2 _).
  - rewrite decide_True by done. cbn [SpecTransM.mgo]. fold (no_mhouse p).
    pose proof (do_tw _ _ _ _ T c Hc) as Hd. destruct Hd as [[[w1' S1'] a1] [[w2' S2'] a2] [T' Ha]|]; [|done]. cbn in T', Ha. subst a2.
    cbn [mbind option_bind]. rewrite (IH _ _ _ _ T'). destruct (mgo _ _ _); [|done]. cbn [mbind option_bind]. by rewrite decide_False.
Qed.
Lemma manswers_l p : manswers I rO rI radd rmul rsub p = manswers I rO rI radd rmul rsub (no_mhouse p).
Proof.
  apply mgo_tw. constructor; [|constructor]. constructor; cbn; try done; try apply gok_new; (constructor; [apply mm_new_ok|apply xmdd_new_ok|apply cache_ok_new]).
Qed.
Lemma mgo_prefix p q : ∀ w S l, mgo w S (p ++ q) = Some l →
  ∃ l1 l2, l = l1 ++ l2 ∧ mgo w S p = Some l1 ∧ length l1 = length (no_mhouse p).
Proof.
  induction p as [|c p IH]; intros w S l Hl; [by exists [], l|]. cbn [app SpecTransM.mgo] in *. unfold no_mhouse. rewrite filter_cons. fold (no_mhouse p).
  destruct (mdo w S c) as [[[w' S'] a]|]; [|done]. cbn [mbind option_bind] in *.
  destruct (mgo w' S' (p ++ q)) as [l'|] eqn:El; [|done]. cbn [mbind option_bind] in *. destruct (IH _ _ _ El) as (l1 & l2 & -> & E1 & Hlen).
  rewrite E1. cbn [mbind option_bind]. injection Hl as <-. destruct (decide (mhouse c)) as [Hc|Hc].
  - rewrite decide_False by tauto. by exists l1, l2.
  - rewrite decide_True by done. exists (a :: l1), l2. sp; [done|done|]. cbn. by f_equal.
Qed.
Lemma manswers_prefix p q l : manswers I rO rI radd rmul rsub (p ++ q) = Some l →
  ∃ l1 l2, l = l1 ++ l2 ∧ manswers I rO rI radd rmul rsub (no_mhouse p) = Some l1 ∧ length l1 = length (no_mhouse p).
Proof. intros (l1 & l2 & -> & E & Hl)%mgo_prefix. exists l1, l2. sp; [done| |done]. rewrite <- E. symmetry. apply manswers_l. Qed.
End prog.
End mss.
