(** The multi-state wrapper: variable declaration, children, variable order, equality of handles. *)
From stdpp Require Import strings.
From Verif Require Import Prelude ComputeCache ComputeCacheProofs Arena Trees ArenaProofs Bdd ArenaMore Mdd MtMdd MtMdd2.
From Verif Require Import SpecBdd SpecMdd NaryProofs MddProofs MtProofs MmProofs MddMain MmMain BssMgr MssMgr SpecBssMgr SpecMss MssMgrProofs.

Section mss.
Context (I : vint) {B : mbase}.
Notation bar m := (d_ar (mm_b m)).
Notation var m := (t_ar (mm_v m)).
Notation hdrs m := (ar_headers (bar m)).

Lemma mext_trans m1 m2 m3 : mext I m1 m2 → mext I m2 m3 → mext I m1 m3.
Proof. intros (_ & H1 & H2) (? & H3 & H4). split; [done|]. split; by eapply ext_trans. Qed.

Lemma lookup_snoc_Some {A} (l : list A) x i y :
  (l ++ [x]) !! i = Some y ↔ (i < length l ∧ l !! i = Some y) ∨ (i = length l ∧ x = y).
Proof.
  rewrite lookup_app_Some, list_lookup_singleton_Some. split.
  - intros [Hi|[Hle [Hi ->]]]; [left|right; split; [lia|done]]. split; [by eapply lookup_lt_Some|done].
  - intros [[_ Hi]|[-> ->]]; [by left|right]. split; [done|]. split; [lia|done].
Qed.

(** ** defvar *)
Definition leaves (m : mm) (i : nat) (x : mnode) : Prop :=
  ∃ f, x = NVal f ∧ repr (var m) (Leaf (VVal (Z.of_nat i))) f.
Lemma values_l m n : mmwf I m → ∃ m' ns, mapst (λ m i, Some (mm_value m (Z.of_nat i))) m (seq 0 n) = Some (m', ns) ∧
  mmstep I m m' ∧ Forall2 (leaves m') (seq 0 n) ns.
Proof.
  intros Hw.
  pose proof (mapst_spec (mmstep I) leaves (λ _, False) (λ m i, Some (mm_value m (Z.of_nat i))) (seq 0 n) m) as Hs.
  destruct (mapst _ _ _) as [[m' ns]|].
  - exists m', ns. split; [done|]. apply Hs.
    + apply mmstep_trans.
    + apply mmstep_refl2.
    + by apply mmstep_refl.
    + intros x y a b _ (_ & _ & He & _) (f & -> & Hf). exists f. split; [done|]. by eapply repr_mono.
    + intros s i _ Hst. unfold mm_value. destruct (mt_value_ok I (mm_v s) (Z.of_nat i)) as (v & f & -> & Hst' & Hr); [apply Hst|].
      split; [apply with_v_step; [apply Hst|done]|]. by exists f.
  - exfalso. destruct Hs as (? & _ & []).
    + apply mmstep_trans.
    + apply mmstep_refl2.
    + by apply mmstep_refl.
    + intros x y a b _ (_ & _ & He & _) (f & -> & Hf). exists f. split; [done|]. by eapply repr_mono.
    + intros s i _ Hst. unfold mm_value. destruct (mt_value_ok I (mm_v s) (Z.of_nat i)) as (v & f & -> & Hst' & Hr); [apply Hst|].
      split; [apply with_v_step; [apply Hst|done]|]. by exists f.
Qed.

Lemma defvar_new w H x n : gok I w H → g_vars w !! x = None → 0 < n →
  ∃ w' r, g_defvar w x n = Some (w', r) ∧ gok I w' ((r, Some (varfn x)) :: H) ∧ mext I (g_mm w) (g_mm w') ∧
    hdrs (g_mm w') = hdrs (g_mm w) ++ [Header (length (hdrs (g_mm w))) (length (hdrs (g_mm w))) x n] ∧
    g_vars w' = <[x := r]> (g_vars w).
Proof.
  intros Hk Hx Hn. pose proof Hk as [Hw Hl Hs Hv Hla Hnd [l [Hr Hp]] Hh Hb].
  set (m := g_mm w) in *. set (k := length (hdrs m)) in *.
  destruct (values_l m n Hw) as (m1 & ns & E1 & Hst1 & Hns).
  destruct (mm_header_l I m1 k x n (proj1 Hst1)) as (m2 & h & E2 & Hext2 & Hhd2 & Eh).
  { split; [done|]. apply Forall_forall. intros hd. destruct Hst1 as (_ & _ & _ & ->).
    intros [i Hi]%elem_of_list_lookup Hlv. rewrite (Hl _ _ Hi) in Hlv. apply lookup_lt_Some in Hi. unfold k in Hlv. lia. }
  assert (Hh1 : hdrs m1 = hdrs m) by apply Hst1.
  rewrite Hh1 in Hhd2, Eh. fold k in Eh. subst h.
  set (hd := Header k k x n) in *.
  pose proof Hext2 as (Hw2 & Eb2 & Ev2).
  assert (Hkk : hdrs m2 !! k = Some hd). { rewrite Hhd2. apply lookup_snoc_Some. right. done. }
  destruct (tcreate_node I (mm_v m2) k hd (map node_id ns) (λ i d, d = Leaf (VVal (Z.of_nat i))) (mmw_v _ _ Hw2))
    as (v3 & r & dr & ds & E3 & Hst3 & Hrr & Hrk & Hmk & Hdl & Hds).
  { by rewrite (mmw_h _ _ Hw2). }
  { rewrite map_length, <- (Forall2_length _ _ _ Hns), seq_length. done. }
  { intros i y. change (map node_id ns) with (node_id <$> ns). rewrite list_lookup_fmap, fmap_Some. intros (z & Hz & ->).
    destruct (list.Forall2_lookup_r _ _ _ _ _ Hns Hz) as (j & Hj & f & -> & Hf).
    apply lookup_seq in Hj as [-> Hj]. exists (Leaf (VVal (Z.of_nat i))). sp; [|cbn; lia|done]. by eapply repr_mono. }
  assert (Hw3 : mmstep I m2 (mm_with_v m2 v3)) by by apply with_v_step.
  set (m3 := mm_with_v m2 v3) in *.
  assert (Hnd3 : mm_create_node m2 k ns = Some (m3, NVal r)).
  { unfold mm_create_node. rewrite E3. destruct n as [|n']; [lia|]. cbn [seq] in Hns.
    apply Forall2_cons_inv_l in Hns as (y & ns' & (f & -> & _) & _ & ->). done. }
  assert (Hm : mext I m m3).
  { eapply mext_trans; [by apply mmstep_mext|]. eapply mext_trans; [done|]. by apply mmstep_mext. }
  assert (Hh3 : hdrs m3 = hdrs m ++ [hd]). { destruct Hw3 as (_ & _ & _ & ->). done. }
  assert (Hl3 : lvl_ok m3).
  { intros i hd'. rewrite Hh3, lookup_snoc_Some. intros [[_ Hi]|[Hi <-]]; [by apply Hl|done]. }
  assert (Hden : mden m3 (NVal r) (Some (varfn x))).
  { split; [by eapply repr_live|]. intros f [= <-] e He.
    apply (mvalue_lval I m3 e (rho_of m3 e)); [apply Hm|by apply rho_agree|].
    exists r. split; [done|]. apply (nval_eval _ _ _ _ _ Hrr).
    assert (hd ∈ hdrs m3) as Hin by (rewrite Hh3, elem_of_app; right; by apply elem_of_list_singleton).
    pose proof (He hd Hin) as Hlt. pose proof (rho_agree m3 e Hl3 hd Hin) as Hrho.
    destruct (lookup_lt_is_Some_2 ds (rho_of m3 e (h_level hd))) as [d Hd].
    { rewrite Hdl, Hrho. done. }
    rewrite (mkrel_eval _ _ _ _ _ Hmk Hd), (Hds _ _ Hd), Hrho. done. }
  exists (MMgr m3 (mpin (mpin (g_roots w) (NVal r)) (NVal r)) (g_thr w) (g_floor w) (<[x := NVal r]> (g_vars w))), (NVal r).
  sp; try done.
  - unfold g_defvar. fold m. rewrite Hx, Hs. fold m k. rewrite E1. cbn [mbind option_bind]. rewrite E2. cbn [mbind option_bind].
    by rewrite Hnd3.
  - constructor; cbn [g_mm g_vars g_roots]; try done.
    + apply Hm.
    + rewrite map_size_insert_None, Hs, Hh3, app_length by done. cbn. fold m. lia.
    + intros y ny. destruct (decide (y = x)) as [->|Hne].
      * rewrite lookup_insert. intros [= <-]. split; [done|]. exists r, k, hd. sp; try done.
        destruct (decide _) as [H2|H2]; cbn in H2.
        -- destruct Hmk as [[Hf _]|[_ ->]].
           { exfalso. destruct (lookup_lt_is_Some_2 ds 0) as [d0 Hd0]; [rewrite Hdl; cbn; lia|].
             destruct (lookup_lt_is_Some_2 ds 1) as [d1 Hd1]; [rewrite Hdl; cbn; lia|].
             rewrite Forall_forall in Hf. pose proof (Hf d0 (elem_of_list_lookup_2 _ _ _ Hd0)) as H0.
             pose proof (Hf d1 (elem_of_list_lookup_2 _ _ _ Hd1)) as H1. rewrite (Hds _ _ Hd0) in H0. rewrite (Hds _ _ Hd1) in H1.
             rewrite H0 in H1. done. }
           apply repr_br in Hrr as [_ (h' & cs & Hnode & Hhh & _)]. exists cs.
           replace k with h'; [done|]. destruct Hw3 as (Hw3 & _).
           assert (Hhv : hdrs m3 !! h' = Some hd) by (rewrite <- (mmw_h _ _ Hw3); done).
           apply Hl3 in Hhv. done.
        -- destruct ds as [|d ds]; [cbn in Hdl; lia|]. destruct ds as [|? ?]; [|cbn in Hdl; lia].
           assert (dr = d) as ->.
           { destruct Hmk as [[Hf _]|[Hf _]]; [by apply (proj1 (Forall_singleton _ _)) in Hf|]. exfalso. apply Hf. exists d. by constructor. }
           rewrite (Hds 0 d eq_refl) in Hrr. apply repr_leaf in Hrr as [_ Hrr]. by eexists.
      * rewrite lookup_insert_ne by done. intros Hy. destruct (Hv _ _ Hy) as [Hd (id & i & hd' & -> & Hi & Hlab & Hnode)].
        split; [exact (mden_ext I _ _ _ _ Hw Hl3 Hm Hd)|]. exists id, i, hd'. sp; try done.
        { rewrite Hh3. by apply lookup_app_l_Some. }
        destruct Hd as [Vd _]. destruct Hm as (_ & _ & Em). destruct (decide _); destruct Hnode as [z Hz]; exists z; by apply Em.
    + intros i hd'. rewrite Hh3, lookup_snoc_Some. intros [[_ Hi]|[_ <-]].
      * destruct (decide (h_label hd' = x)) as [->|]; [rewrite lookup_insert; by eexists|].
        rewrite lookup_insert_ne by done. by eapply Hla.
      * rewrite lookup_insert. by eexists.
    + rewrite Hh3, fmap_app. apply NoDup_app. sp; [done| |cbn; apply NoDup_singleton].
      intros y Hy. cbn. rewrite elem_of_list_singleton. intros ->. apply elem_of_list_fmap in Hy as (hd' & Hxx & Hin).
      apply elem_of_list_lookup in Hin as [i Hi]. destruct (Hla _ _ Hi) as [? Hla']. rewrite <- Hxx in Hla'. congruence.
    + exists (NVal r :: NVal r :: l). split; [by rewrite Hr|].
      rewrite (map_to_list_insert _ _ _ Hx). cbn. rewrite <- Permutation_middle, Hp. done.
    + intros y F [Hy|Hy]%elem_of_cons; [by injection Hy as -> ->|]. exact (mden_ext I _ _ _ _ Hw Hl3 Hm (Hh _ _ Hy)).
    + destruct Hm as (_ & ? & ?). by eapply mkept_ext.
Qed.
Lemma defvar_none w x : g_vars w !! x = None → g_defvar w x 0 = None.
Proof.
  intros Hx. unfold g_defvar. rewrite Hx. cbn [seq mapst mbind option_bind].
  by destruct (mm_create_header _ _ _ _) as [[??]|].
Qed.
Lemma defvar_old w H x n r : gok I w H → g_vars w !! x = Some r →
  g_defvar w x n = Some (g_pin w r, r) ∧ gok I (g_pin w r) ((r, Some (varfn x)) :: H).
Proof.
  intros Hk Hx. unfold g_defvar. rewrite Hx. split; [done|]. apply gok_pin; [done|]. by apply (gk_var _ _ _ Hk).
Qed.
Lemma defvar_ok w H x n w' r : gok I w H → g_defvar w x n = Some (w', r) →
  gok I w' ((r, Some (varfn x)) :: H) ∧ mext I (g_mm w) (g_mm w') ∧ g_vars w' !! x = Some r.
Proof.
  intros Hk Heq. destruct (g_vars w !! x) as [r'|] eqn:Hx.
  - destruct (defvar_old w H x n r' Hk Hx) as [E ?]. rewrite E in Heq. injection Heq as <- <-. sp; try done. apply mext_refl. apply Hk.
  - destruct n as [|n]; [by rewrite defvar_none in Heq|].
    destruct (defvar_new w H x (S n) Hk Hx) as (w1 & r1 & E & ? & ? & _ & Hv); [lia|]. rewrite E in Heq. injection Heq as <- <-.
    sp; try done. rewrite Hv. apply lookup_insert.
Qed.

(** ** children *)
Lemma gok_pins w H (L : handles) : gok I w H → (∀ x F, (x, F) ∈ L → mden (g_mm w) x F) →
  gok I (foldl g_pin w L.*1) (L ++ H).
Proof.
  revert w H. induction L as [|[x F] L IH]; intros w H Hk HL; [done|]. cbn [fmap list_fmap foldl fst app].
  eapply (gok_perm I _ (L ++ (x, F) :: H)).
  - apply IH; [apply gok_pin; [done|apply HL; by left]|]. intros y G Hy. apply HL. by right.
  - by rewrite <- Permutation_middle.
Qed.
Lemma kid_live {T} R (a : arena T) f h hd cs i c : awf R a → live a f → ar_nodes a !! f = Some (NT h cs) →
  ar_headers a !! h = Some hd → cs !! i = Some c → live a c ∧ i < h_edges hd ∧ below a c (h_level hd).
Proof.
  intros Hwf Hl Hn Hh Hi. destruct (aw_nt _ _ Hwf _ _ _ Hl Hn) as (hd' & Hh' & Hlen & _ & Hcs).
  rewrite Hh in Hh'. injection Hh' as <-. rewrite Forall_lookup in Hcs. destruct (Hcs _ _ Hi). apply lookup_lt_Some in Hi.
  sp; [done|lia|done].
Qed.
Lemma named_children {T} R (a : arena T) (m : mm) e (f : nat) hd h cs i c t :
  awf R a → hcons (ar_headers a) → ar_headers a = hdrs m → lvl_ok m → NoDup (h_label <$> hdrs m) →
  live a f → ar_nodes a !! f = Some (NT h cs) → ar_headers a !! h = Some hd → cs !! i = Some c →
  named_value a (menv_set e (h_label hd) i) f t → named_value a e c t.
Proof.
  intros Hwf Hc Hhs Hl Hnd Hlf Hn Hh Hi Hv.
  destruct (kid_live _ _ _ _ _ _ _ _ Hwf Hlf Hn Hh Hi) as (Hlc & _ & Hbc).
  destruct (repr_exists _ _ _ Hwf Hlc) as [dc Hrc]. apply (repr_rank_below _ _ _ _ Hrc) in Hbc.
  pose proof (repr_okh _ _ _ _ Hwf Hc Hrc (λ _, 0)) as Hok.
  inversion Hv as [? ? Hn'|? h' cs' hd'' c' ? Hn' Hh' Hc' Hv']; subst; [congruence|].
  rewrite Hn in Hn'. injection Hn' as <- <-. rewrite Hh in Hh'. injection Hh' as <-.
  unfold menv_set in Hc' at 1. rewrite decide_True in Hc' by done. rewrite Hi in Hc'. injection Hc' as <-.
  assert (Hag : ∀ e, ∀ hd, hd ∈ ar_headers a → rho_of m e (h_level hd) = e (h_label hd)).
  { intros e' hd'. rewrite Hhs. by apply rho_agree. }
  apply (named_level _ _ _ _ _ (Hag _)) in Hv'. apply (named_level _ _ _ _ _ (Hag e)).
  apply (nval_eval _ _ _ _ _ Hrc) in Hv'. apply (nval_eval _ _ _ _ _ Hrc). rewrite <- Hv'.
  eapply eval_agree; [exact Hok|]. intros lv Hlv. unfold rho_of, menv_set. rewrite decide_False; [done|].
  rewrite Hhs in Hh. pose proof (Hl _ _ Hh) as Hlh. pose proof (lookup_lt_Some _ _ _ Hh) as Hlt.
  destruct (lookup_lt_is_Some_2 (hdrs m) lv) as [hd' Hh']; [lia|]. rewrite Hh'. cbn. intros He.
  assert (lv = h); [|lia]. eapply NoDup_lookup; [exact Hnd|rewrite list_lookup_fmap, Hh'; done|].
  rewrite list_lookup_fmap, Hh. cbn. by rewrite He.
Qed.
Lemma g_children_ok w H x F s w' xs : gok I w H → (x, F) ∈ H → g_label w x = Some s → g_children w x = Some (w', Some xs) →
  gok I w' (imap (λ i y, (y, (λ (f : mfn) (e : menv), f (menv_set e s i)) <$> F)) xs ++ H) ∧ g_mm w' = g_mm w.
Proof.
  intros Hk Hx Hs Hc. pose proof (gk_held _ _ _ Hk _ _ Hx) as [Vx Hd]. pose proof (gk_wf _ _ _ Hk) as Hw.
  set (L := imap _ xs).
  assert (HL : L.*1 = xs). { apply list_eq. intros i. rewrite list_lookup_fmap. unfold L. rewrite list_lookup_imap. by destruct (xs !! i). }
  assert (Hw' : w' = foldl g_pin w xs).
  { unfold g_children in Hc. destruct x as [f|f]; destruct (ar_nodes _ !! f) as [[t|h cs]|]; cbn in Hc; try done; by injection Hc as <- <-. }
  assert (Hmm : ∀ ys u, g_mm (foldl g_pin u ys) = g_mm u). { induction ys as [|y ys IH]; intros u; [done|]. cbn. by rewrite IH. }
  rewrite Hw'. split; [|apply Hmm]. rewrite <- HL at 1. apply gok_pins; [done|]. intros y G Hy.
  unfold L in Hy. apply elem_of_lookup_imap in Hy as (i & z & Hyz & Hz). injection Hyz as -> ->.
  unfold g_label, g_header in Hs.
  assert (Hr : ∀ hd e, hd ∈ hdrs (g_mm w) → i < h_edges hd → mrange (g_mm w) e → mrange (g_mm w) (menv_set e (h_label hd) i)).
  { intros hd e Hin Hi He hd' Hin'. unfold menv_set. destruct (decide _) as [Heq|]; [|by apply He].
    assert (hd' = hd) as ->; [|done]. apply elem_of_list_lookup in Hin as [j Hj]. apply elem_of_list_lookup in Hin' as [j' Hj'].
    assert (j = j'); [|congruence]. eapply NoDup_lookup; [apply (gk_nodup _ _ _ Hk)|rewrite list_lookup_fmap, Hj; done|].
    rewrite list_lookup_fmap, Hj'. cbn. by rewrite Heq. }
  destruct x as [f|f]; cbn [g_children] in Hc.
  - destruct (ar_nodes (var (g_mm w)) !! f) as [[t|h cs]|] eqn:Hn; cbn in Hc, Hs; try done. injection Hc as _ <-.
    destruct (ar_headers (var (g_mm w)) !! h) as [hd|] eqn:Hh; [|done]. cbn in Hs. injection Hs as <-.
    change (map NVal cs) with (NVal <$> cs) in Hz. apply list_lookup_fmap_Some in Hz as (c & Hz & ->).
    assert (Hwf : awf Rn (var (g_mm w))) by apply (tw_good _ _ (mmw_v _ _ Hw)).
    destruct (kid_live _ _ _ _ _ _ _ _ Hwf Vx Hn Hh Hz) as (Hlc & Hie & _). split; [done|].
    intros k Hk' e He. apply fmap_Some in Hk' as (F' & -> & ->).
    assert (hd ∈ hdrs (g_mm w)) as Hin. { rewrite <- (mmw_h _ _ Hw). by eapply elem_of_list_lookup_2. }
    specialize (Hd F' eq_refl _ (Hr hd e Hin Hie He)). destruct (F' _) as [b|t]; [done|]. cbn in *.
    eapply (named_children Rn _ (g_mm w) e f hd h cs i c t Hwf); try done; [|apply (mmw_h _ _ Hw)|apply Hk|apply Hk].
    rewrite (mmw_h _ _ Hw). by eapply gok_hc.
  - destruct (ar_nodes (bar (g_mm w)) !! f) as [[t|h cs]|] eqn:Hn; cbn in Hc, Hs; try done. injection Hc as _ <-.
    destruct (ar_headers (bar (g_mm w)) !! h) as [hd|] eqn:Hh; [|done]. cbn in Hs. injection Hs as <-.
    change (map NBool cs) with (NBool <$> cs) in Hz. apply list_lookup_fmap_Some in Hz as (c & Hz & ->).
    assert (Hwf : awf Rn (bar (g_mm w))) by apply (mw_good _ (mmw_b _ _ Hw)).
    destruct (kid_live _ _ _ _ _ _ _ _ Hwf Vx Hn Hh Hz) as (Hlc & Hie & _). split; [done|].
    intros k Hk' e He. apply fmap_Some in Hk' as (F' & -> & ->).
    assert (hd ∈ hdrs (g_mm w)) as Hin by by eapply elem_of_list_lookup_2.
    specialize (Hd F' eq_refl _ (Hr hd e Hin Hie He)). destruct (F' _) as [b|t]; [|done]. cbn in *.
    eapply (named_children Rn _ (g_mm w) e f hd h cs i c (tvb b) Hwf); try done; [|apply Hk|apply Hk]. by eapply gok_hc.
Qed.

(** ** variable order *)
Definition vorder (m : mm) : list (string * nat) := (λ hd, (h_label hd, h_edges hd)) <$> hdrs m.
Lemma varorder_go_ok w H vs : gok I w H → (∀ k v, (k, v) ∈ vs → g_vars w !! k = Some v) → ∀ acc,
  (∀ hd, hd ∈ hdrs (g_mm w) → 2 ≤ h_edges hd) → length acc = length (hdrs (g_mm w)) →
  ∃ r, g_varorder_go w acc vs = Some r ∧ length r = length (hdrs (g_mm w)) ∧
    ∀ i hd, hdrs (g_mm w) !! i = Some hd →
      r !! i = if decide (h_label hd ∈ vs.*1) then Some (h_label hd, h_edges hd) else acc !! i.
Proof.
  intros Hk. induction vs as [|[k v] vs IH]; intros Hvs acc H2 Hlen; cbn [g_varorder_go].
  - by exists acc.
  - destruct (gk_var _ _ _ Hk k v) as [_ (id & i & hd & -> & Hi & Hlab & Hnode)]; [apply Hvs; by left|].
    rewrite decide_True in Hnode by (apply H2; by eapply elem_of_list_lookup_2). destruct Hnode as [cs Hnode].
    unfold g_header. rewrite Hnode. cbn [mbind option_bind]. rewrite (mmw_h _ _ (gk_wf _ _ _ Hk)), Hi. cbn [mbind option_bind].
    pose proof (gk_lvl _ _ _ Hk _ _ Hi) as Hlv. pose proof (lookup_lt_Some _ _ _ Hi) as Hlt.
    destruct (Nat.ltb_spec (h_level hd) (length acc)) as [_|]; [|lia].
    destruct (IH (λ k v Hin, Hvs k v (elem_of_list_further _ _ _ Hin)) (<[h_level hd := (k, h_edges hd)]> acc)) as (r & -> & Hr1 & Hr2);
      [done|by rewrite insert_length|].
    exists r. sp; try done. intros j hd' Hj. rewrite (Hr2 _ _ Hj). cbn [fmap list_fmap fst].
    destruct (decide (h_label hd' ∈ vs.*1)) as [Hin|Hnin]; [by rewrite decide_True by by right|].
    destruct (decide (h_label hd' = k)) as [He|Hne].
    + rewrite decide_True by (rewrite He; by left). assert (j = i) as ->.
      { eapply NoDup_lookup; [apply (gk_nodup _ _ _ Hk)|rewrite list_lookup_fmap, Hj; done|].
        rewrite list_lookup_fmap, Hi. cbn. congruence. }
      rewrite Hi in Hj. injection Hj as <-. rewrite Hlv, list_lookup_insert by lia. congruence.
    + rewrite decide_False by (rewrite elem_of_cons; tauto). rewrite Hlv.
      destruct (decide (i = j)) as [->|]; [|by rewrite list_lookup_insert_ne]. exfalso. rewrite Hi in Hj. injection Hj as <-. done.
Qed.
Lemma varorder_ok w H : gok I w H → (∀ hd, hd ∈ hdrs (g_mm w) → 2 ≤ h_edges hd) → g_varorder w = Some (vorder (g_mm w)).
Proof.
  intros Hk H2. unfold g_varorder.
  destruct (varorder_go_ok w H (map_to_list (g_vars w)) Hk) with (acc := replicate (size (g_vars w)) ("?"%string, 0)) as (r & -> & Hr1 & Hr2).
  - intros k v. by rewrite elem_of_map_to_list.
  - done.
  - rewrite replicate_length. apply Hk.
  - f_equal. apply list_eq. intros i. unfold vorder. rewrite list_lookup_fmap. destruct (hdrs (g_mm w) !! i) as [hd|] eqn:Hi.
    + rewrite (Hr2 _ _ Hi), decide_True; [done|]. destruct (gk_lab _ _ _ Hk _ _ Hi) as [v Hv].
      apply elem_of_list_fmap. exists (h_label hd, v). split; [done|]. by apply elem_of_map_to_list.
    + cbn. apply lookup_ge_None. apply lookup_ge_None in Hi. lia.
Qed.
(** a variable with fewer than two states makes get_varorder panic *)
Lemma varorder_none_go w H vs : gok I w H → ∀ acc,
  (∃ k v id t, (k, v) ∈ vs ∧ v = NVal id ∧ ar_nodes (var (g_mm w)) !! id = Some (Term t)) → g_varorder_go w acc vs = None.
Proof.
  intros Hk. induction vs as [|[k v] vs IH]; intros acc (k' & v' & id & t & Hin & Hv & Hn); [by apply elem_of_nil in Hin|].
  cbn [g_varorder_go]. apply elem_of_cons in Hin as [Heq|Hin].
  - injection Heq as <- <-. subst v'. cbn [g_header]. rewrite Hn. done.
  - destruct (g_header w v) as [h|]; [|done]. cbn [mbind option_bind]. destruct (_ !! h) as [hd|]; [|done]. cbn [mbind option_bind].
    destruct (_ <? _); [|done]. apply IH. by exists k', v', id, t.
Qed.
Lemma varorder_none w H hd : gok I w H → hd ∈ hdrs (g_mm w) → h_edges hd < 2 → g_varorder w = None.
Proof.
  intros Hk [i Hi]%elem_of_list_lookup Hlt. destruct (gk_lab _ _ _ Hk _ _ Hi) as [v Hv].
  destruct (gk_var _ _ _ Hk _ _ Hv) as [_ (id & i' & hd' & -> & Hi' & Hlab & Hnode)].
  assert (i' = i) as ->.
  { eapply NoDup_lookup; [apply (gk_nodup _ _ _ Hk)|rewrite list_lookup_fmap, Hi'; done|].
    rewrite list_lookup_fmap, Hi. cbn. congruence. }
  rewrite Hi in Hi'. injection Hi' as <-. rewrite decide_False in Hnode by lia. destruct Hnode as [t Ht].
  eapply varorder_none_go; [done|]. exists (h_label hd), (NVal id), id, t. sp; try done. by apply elem_of_map_to_list.
Qed.
Lemma varorder_some w H vars : gok I w H → g_varorder w = Some vars →
  vars = vorder (g_mm w) ∧ ∀ hd, hd ∈ hdrs (g_mm w) → 2 ≤ h_edges hd.
Proof.
  intros Hk Hv. assert (H2 : ∀ hd, hd ∈ hdrs (g_mm w) → 2 ≤ h_edges hd).
  { intros hd Hin. destruct (decide (2 ≤ h_edges hd)) as [|Hlt]; [done|].
    rewrite (varorder_none w H hd Hk Hin) in Hv by lia. done. }
  split; [|done]. rewrite (varorder_ok w H) in Hv by done. congruence.
Qed.

(** ** equality of handles *)
Lemma gok_levels w H : gok I w H → levels_distinct (bar (g_mm w)) ∧ levels_distinct (var (g_mm w)).
Proof.
  intros Hk. assert (Hb : NoDup (h_level <$> hdrs (g_mm w))).
  { apply NoDup_alt. intros i j l. rewrite !list_lookup_fmap, !fmap_Some. intros (hd1 & H1 & ->) (hd2 & H2 & He).
    rewrite (gk_lvl _ _ _ Hk _ _ H1), (gk_lvl _ _ _ Hk _ _ H2) in He. done. }
  split; unfold levels_distinct; [exact Hb|]. rewrite (mmw_h _ _ (gk_wf _ _ _ Hk)). exact Hb.
Qed.
Lemma menv_of_rho m (rho : nat → nat) : lvl_ok m → NoDup (h_label <$> hdrs m) → ∃ e, nagree m rho e.
Proof.
  intros Hl Hnd.
  exists (λ x, match list_find (λ hd, h_label hd = x) (hdrs m) with Some (i, _) => rho i | None => 0 end).
  intros hd [i Hi]%elem_of_list_lookup. rewrite (Hl _ _ Hi).
  destruct (list_find _ _) as [[j hd']|] eqn:Hf.
  - apply list_find_Some in Hf as (Hj & Hlab & _). f_equal.
    eapply NoDup_lookup; [exact Hnd|rewrite list_lookup_fmap, Hi; done|]. rewrite list_lookup_fmap, Hj. cbn. by rewrite Hlab.
  - exfalso. apply list_find_None in Hf. rewrite Forall_lookup in Hf. by apply (Hf _ _ Hi).
Qed.
Lemma mden_eq w H x F y G : gok I w H → mden (g_mm w) x (Some F) → mden (g_mm w) y (Some G) →
  x = y ↔ ∀ e, mrange (g_mm w) e → F e = G e.
Proof.
  intros Hk [Vx Hx] [Vy Hy]. pose proof (gk_wf _ _ _ Hk) as Hw. pose proof (gk_lvl _ _ _ Hk) as Hl.
  assert (Hex : ∃ e, mrange (g_mm w) e).
  { exists (λ _, 0). intros hd Hin. destruct (gok_hc _ _ _ Hk) as [Hp _]. by apply Hp. }
  split.
  - intros <- e He. pose proof (rho_agree _ e Hl) as Ha.
    specialize (Hx F eq_refl e He). specialize (Hy G eq_refl e He). apply (mvalue_lval I _ _ _ _ _ Hw Ha) in Hx, Hy. by eapply lval_fun.
  - intros Heq. destruct (gok_levels _ _ Hk) as [Lb Lv].
    assert (Hval : ∀ rho, mm_range (g_mm w) rho → ∃ v, lval (g_mm w) rho x v ∧ lval (g_mm w) rho y v).
    { intros rho Hr. destruct (menv_of_rho _ rho Hl (gk_nodup _ _ _ Hk)) as [e Ha].
      assert (He : mrange (g_mm w) e) by by apply (mrange_rho _ _ _ Ha).
      exists (F e). split; [by apply (mvalue_lval I _ _ _ _ _ Hw Ha), Hx|]. rewrite (Heq e He).
      by apply (mvalue_lval I _ _ _ _ _ Hw Ha), Hy. }
    destruct Hex as [e0 He0].
    assert (Hr0 : mm_range (g_mm w) (rho_of (g_mm w) e0)) by by apply (mrange_rho _ _ _ (rho_agree _ e0 Hl)).
    destruct (Hval _ Hr0) as (v0 & Hx0%lval_kind & Hy0%lval_kind).
    destruct x as [f|f], y as [g|g]; try (by destruct v0); f_equal.
    + eapply (ncanon (var (g_mm w))); try done; [apply (tw_good _ _ (mmw_v _ _ Hw))|rewrite (mmw_h _ _ Hw); by eapply gok_hc|].
      intros rho t Hr Ht. destruct (Hval rho) as (v & H1 & H2); [unfold mm_range, in_range in *; by rewrite (mmw_h _ _ Hw) in Hr|].
      assert (v = VI t) as ->. { eapply lval_fun; [exact H1|]. by exists f. }
      destruct H2 as (g' & [= <-] & H2). done.
    + eapply (ncanon (bar (g_mm w))); try done; [apply (mw_good _ (mmw_b _ _ Hw))|by eapply gok_hc|].
      intros rho t Hr Ht. destruct (Hval rho) as (v & H1 & H2); [done|].
      destruct v as [b|?]; [|by destruct H1 as (? & [=] & _)].
      destruct H1 as (f' & [= <-] & H1). destruct H2 as (g' & [= <-] & H2).
      by rewrite (nval_fun _ _ _ _ _ Ht H1).
Qed.
End mss.
