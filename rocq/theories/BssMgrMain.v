(** Wrapper: children, equality, variable order, RPN, and the invariant over all histories. *)
From stdpp Require Import strings.
From Coq Require Import Ascii.
From Verif Require Import Prelude ComputeCache ComputeCacheProofs Arena Trees ArenaProofs Bdd BddProofs SpecBdd SpecBss BddMain BssAlg BssCount BssGates BssReach BssMgr SpecBssMgr BssMgrProofs.

Section base.
Context {B : base}.
Local Notation wok := (@wok B).

(** ** cofactors *)
Lemma sv_indep w H f e x b hd h t : wok w H → bdd_valid (w_bdd w) f →
  ar_headers (b_ar (w_bdd w)) !! h = Some hd → h_label hd = x → below (b_ar (w_bdd w)) f (h_level hd) →
  bss_value (w_bdd w) (env_set e x b) f t → bss_value (w_bdd w) e f t.
Proof.
  intros Hk Vf Hh Hx Hb. rewrite !value_name by apply Hk. intros Hv.
  pose proof (wk_wf _ _ Hk) as Hw. destruct (valid_repr _ _ Hw Vf) as [d Hd].
  eapply (repr_rank_below _ _ _ _ Hd) in Hb.
  eapply val_ev in Hv; [|apply Hw|done]. eapply ev_val; [apply Hw|done|]. rewrite <- Hv.
  unfold ev. f_equal. eapply eval_agree; [eapply good_ok; [apply Hw|done]|].
  intros l Hl. unfold asg, rho_of, env_set. rewrite decide_False; [done|].
  rewrite <- Hx. intros He. unfold lab in He. rewrite (wk_lvl _ _ Hk _ _ Hh) in Hb.
  pose proof (lookup_lt_Some _ _ _ Hh) as Hlt.
  destruct (lookup_lt_is_Some_2 (ar_headers (b_ar (w_bdd w))) l) as [hd' Hh']; [lia|].
  rewrite Hh' in He. cbn in He.
  assert (l = h); [|lia].
  eapply NoDup_lookup; [apply (wk_nodup _ _ Hk)|rewrite list_lookup_fmap, Hh'; done|].
  rewrite list_lookup_fmap, Hh. cbn. by rewrite He.
Qed.

Lemma w_children_ok w H f F : wok w H → (f, F) ∈ H →
  (w_children w f = Some (w, None) ∧ w_label w f = None) ∨
  ∃ w' f0 f1 x, w_children w f = Some (w', Some (f0, f1)) ∧ w_label w f = Some x ∧
    wok w' ((f0, λ e, F (env_set e x false)) :: (f1, λ e, F (env_set e x true)) :: H).
Proof.
  intros Hk Hf. pose proof (wk_wf _ _ Hk) as Hw. pose proof (wk_held _ _ Hk _ _ Hf) as Hd.
  destruct (valid_repr _ _ Hw (proj1 Hd)) as [[t|hd ds] Hr].
  - left. apply repr_leaf in Hr as [_ Hn]. unfold w_children, w_label. by rewrite Hn.
  - right. destruct (repr_node2 _ _ _ _ (bw_good _ Hw) Hr) as (h & lo & hi & dlo & dhi & -> & Hn & Hh & Hlo & Hhi & Rlo & Rhi).
    unfold w_children, w_label. rewrite Hn. cbn [mbind option_bind edges2]. rewrite Hh. cbn [mbind option_bind].
    eexists _, lo, hi, (h_label hd). split; [done|]. split; [done|].
    assert (Hsub : ∀ (b : bool), denotes (w_bdd w) (if b then hi else lo) (λ e, F (env_set e (h_label hd) b))).
    { intros b. split; [destruct b; by eapply repr_live|]. intros e.
      destruct Hd as [_ Hd]. specialize (Hd (env_set e (h_label hd) b)).
      eapply (sv_indep w H _ e (h_label hd) b hd h); [done|destruct b; by eapply repr_live|done|done|destruct b; by eapply repr_rank_below|].
      inversion Hd as [? ? Hn'|? h' lo' hi' hd' ? Hn' Hh' Hv']; subst; [congruence|].
      rewrite Hn in Hn'. injection Hn' as <- <- <-. rewrite Hh in Hh'. injection Hh' as <-.
      unfold env_set in Hv' at 2. rewrite decide_True in Hv' by done. done. }
    eapply (wok_perm _ ((hi, _) :: (lo, _) :: H)); [|apply Permutation_swap].
    apply wok_pin; [apply wok_pin; [done|apply (Hsub false)]|]. apply (Hsub true).
Qed.

(** ** equality of handles *)
Lemma levels_distinct w H : wok w H → bdd_levels_distinct (w_bdd w).
Proof.
  intros Hk. unfold bdd_levels_distinct. apply NoDup_alt. intros i j l.
  rewrite !list_lookup_fmap, !fmap_Some. intros (hd1 & H1 & ->) (hd2 & H2 & He).
  rewrite (wk_lvl _ _ Hk _ _ H1), (wk_lvl _ _ Hk _ _ H2) in He. done.
Qed.

Lemma env_of_rho w H (rho : nat → bool) : wok w H → ∃ e, ∀ l, l < length (ar_headers (b_ar (w_bdd w))) →
  rho_of (w_bdd w) e l = rho l.
Proof.
  intros Hk. set (hs := ar_headers (b_ar (w_bdd w))).
  exists (λ x, match list_find (λ hd, h_label hd = x) hs with Some (i, _) => rho i | None => false end).
  intros l Hl. unfold rho_of, lab. destruct (lookup_lt_is_Some_2 hs l Hl) as [hd Hh]. fold hs. rewrite Hh. cbn.
  destruct (list_find _ hs) as [[i hd']|] eqn:Hf.
  - apply list_find_Some in Hf as (Hi & Hx & _). f_equal.
    eapply NoDup_lookup; [apply (wk_nodup _ _ Hk)|rewrite list_lookup_fmap; fold hs; rewrite Hi; cbn; by rewrite Hx|].
    rewrite list_lookup_fmap. fold hs. by rewrite Hh.
  - eapply list_find_None in Hf. rewrite Forall_lookup in Hf. by destruct (Hf _ _ Hh).
Qed.

Lemma denotes_eq w H f F g G : wok w H → denotes (w_bdd w) f F → denotes (w_bdd w) g G →
  (f = g ↔ ∀ e, F e = G e).
Proof.
  intros Hk Hf Hg. pose proof (wk_wf _ _ Hk) as Hw. split.
  - intros <- e. pose proof (sv_fun _ _ _ _ _ (proj2 Hf e) (proj2 Hg e)) as He. by destruct (F e), (G e).
  - intros He. eapply canonical_wf; [done|by eapply levels_distinct|apply Hf|apply Hg|].
    intros rho t Ht. destruct (env_of_rho w H rho Hk) as [e Hrho].
    destruct (valid_repr _ _ Hw (proj1 Hf)) as [df Rf]. destruct (valid_repr _ _ Hw (proj1 Hg)) as [dg Rg].
    assert (Hag : ∀ d i, repr (b_ar (w_bdd w)) d i → ev (asg rho) d = ev (asg (rho_of (w_bdd w) e)) d).
    { intros d i Hd. unfold ev. f_equal. eapply eval_agree; [eapply good_ok; [apply Hw|done]|].
      intros l Hl. unfold asg. rewrite Hrho; [done|].
      assert (rank d ≤ length (ar_headers (b_ar (w_bdd w)))) as Hrk; [|lia].
      destruct d as [|hd ds]; cbn; [lia|]. apply repr_br in Hd as [_ (h & cs & _ & Hh & _)].
      rewrite (wk_lvl _ _ Hk _ _ Hh). by apply lookup_lt_Some in Hh. }
    eapply val_ev in Ht; [|apply Hw|done]. eapply ev_val; [apply Hw|done|].
    rewrite (Hag _ _ Rg). rewrite (Hag _ _ Rf) in Ht. rewrite <- Ht.
    pose proof (denotes_value w H f F e Hk Hf) as Vf. pose proof (denotes_value w H g G e Hk Hg) as Vg.
    eapply val_ev in Vf; [|apply Hw|done]. eapply val_ev in Vg; [|apply Hw|done]. rewrite Vf, Vg. by rewrite He.
Qed.

(** ** variable order *)
Lemma varorder_go_ok w H vs : wok w H → (∀ k v, (k, v) ∈ vs → w_vars w !! k = Some v) → ∀ acc,
  length acc = length (ar_headers (b_ar (w_bdd w))) →
  ∃ names, varorder_go (w_bdd w) acc vs = Some names ∧ length names = length acc ∧
    ∀ l hd, ar_headers (b_ar (w_bdd w)) !! l = Some hd →
      (acc !! l = Some (h_label hd) ∨ h_label hd ∈ vs.*1) → names !! l = Some (h_label hd).
Proof.
  intros Hk. induction vs as [|[k v] vs IH]; intros Hvs acc Hacc; cbn [varorder_go].
  - exists acc. sp; try done. intros l hd _ [H1|H1]; [done|]. by apply elem_of_nil in H1.
  - destruct (wk_var _ _ Hk k v) as (_ & i & hd & Hh & Hx & Hn); [apply Hvs; by left|].
    rewrite Hn. cbn [mbind option_bind]. unfold hdr_level. rewrite Hh. cbn [mbind option_bind].
    rewrite (wk_lvl _ _ Hk _ _ Hh). pose proof (lookup_lt_Some _ _ _ Hh) as Hlt.
    destruct (Nat.ltb_spec i (length acc)); [|lia].
    destruct (IH ltac:(intros k' v' Hin; apply Hvs; by right) (<[i := k]> acc)) as (names & -> & Hlen & Hnames).
    { by rewrite insert_length. }
    exists names. sp; [done|by rewrite Hlen, insert_length|]. intros l hd' Hh' Hor. apply Hnames; [done|].
    destruct (decide (l = i)) as [->|Hne].
    + left. rewrite list_lookup_insert by lia. congruence.
    + rewrite list_lookup_insert_ne by done. destruct Hor as [Hor|Hor]; [by left|].
      cbn in Hor. apply elem_of_cons in Hor as [Hor|Hor]; [|by right]. destruct Hne.
      eapply NoDup_lookup; [apply (wk_nodup _ _ Hk)|rewrite list_lookup_fmap, Hh'; cbn; by rewrite Hor|].
      rewrite list_lookup_fmap, Hh. cbn. by rewrite Hx.
Qed.

Lemma varorder_ok w H : wok w H → w_varorder w = Some (h_label <$> ar_headers (b_ar (w_bdd w))).
Proof.
  intros Hk. unfold w_varorder.
  destruct (varorder_go_ok w H (map_to_list (w_vars w)) Hk) with (acc := replicate (size (w_vars w)) "?"%string)
    as (names & -> & Hlen & Hn).
  { intros k v. apply elem_of_map_to_list. }
  { rewrite replicate_length. apply Hk. }
  f_equal. rewrite replicate_length, (wk_size _ _ Hk) in Hlen.
  apply list_eq_same_length with (length names); [by rewrite fmap_length|done|].
  intros i x y _ Hx Hy. rewrite list_lookup_fmap in Hy. apply fmap_Some in Hy as (hd & Hh & ->).
  rewrite (Hn _ _ Hh) in Hx; [congruence|]. right. destruct (wk_lab _ _ Hk _ _ Hh) as [v Hv].
  apply elem_of_list_fmap. exists (h_label hd, v). split; [done|]. by apply elem_of_map_to_list.
Qed.

(** ** splitting into words *)
Lemma is_white_ok c : is_white c = true ↔ white c.
Proof.
  assert (is_white c = bool_decide (white c)) as ->; [|by rewrite bool_decide_eq_true].
  destruct c as [[] [] [] [] [] [] [] []]; vm_compute; reflexivity.
Qed.
Lemma is_white_no c : is_white c = false ↔ ¬ white c.
Proof. rewrite <- is_white_ok. by destruct (is_white c). Qed.

Lemma str_cons c (a b : string) : String c a +:+ b = String c (a +:+ b).
Proof. done. Qed.
Lemma str_nil (b : string) : "" +:+ b = b.
Proof. done. Qed.
Lemma str_app_assoc (a b c : string) : (a +:+ b) +:+ c = a +:+ (b +:+ c).
Proof. induction a as [|ch a IH]; [done|]. rewrite !str_cons. by rewrite IH. Qed.
Lemma str_app_nil_r (a : string) : a +:+ "" = a.
Proof. induction a as [|ch a IH]; [done|]. rewrite !str_cons. by rewrite IH. Qed.
Lemma all_chars_app P a b : all_chars P (a +:+ b) ↔ all_chars P a ∧ all_chars P b.
Proof. induction a as [|ch a IH]; [rewrite str_nil; cbn; tauto|]. rewrite str_cons. cbn. rewrite IH. tauto. Qed.

Lemma split_word w rest cur : all_chars (λ c, ¬ white c) w → split_go (w +:+ rest) cur = split_go rest (cur +:+ w).
Proof.
  revert cur. induction w as [|c w IH]; intros cur; [by rewrite str_app_nil_r|]. rewrite str_cons. cbn -[is_white].
  intros [Hc Hw]. apply is_white_no in Hc. rewrite Hc. rewrite IH by done. by rewrite str_app_assoc.
Qed.
Lemma split_white s rest : all_chars white s → split_go (s +:+ rest) "" = split_go rest "".
Proof.
  induction s as [|c s IH]; [done|]. rewrite str_cons. cbn -[is_white]. intros [Hc Hs]. apply is_white_ok in Hc.
  rewrite Hc. by apply IH.
Qed.
Lemma split_flush rest cur : starts_white rest → cur ≠ ""%string → split_go rest cur = cur :: split_go rest "".
Proof.
  intros Hs Hc. destruct rest as [|c rest]; cbn -[is_white].
  - destruct (String.eqb_spec cur ""); [done|]. done.
  - cbn in Hs. apply is_white_ok in Hs. rewrite Hs. destruct (String.eqb_spec cur ""); [done|]. done.
Qed.
Lemma separated_split s ws : separated s ws → split_whitespace s = ws.
Proof.
  unfold split_whitespace. induction 1 as [s Hs|sp w rest ws Hsp Hw Hwc Hr _ IH].
  - rewrite <- (str_app_nil_r s). by rewrite split_white.
  - rewrite split_white, split_word by done. rewrite str_nil. rewrite split_flush by done. by rewrite IH.
Qed.

Lemma sep_white c s ws : white c → separated s ws → separated (String c s) ws.
Proof.
  intros Hc [s' Hs|sp w rest ws' Hsp Hw Hwc Hr Hs].
  - constructor. by split.
  - rewrite <- str_cons. by apply (sep_cons (String c sp) w rest ws').
Qed.
Lemma split_go_separated s cur : all_chars (λ c, ¬ white c) cur → separated (cur +:+ s) (split_go s cur).
Proof.
  revert cur. induction s as [|c s IH]; intros cur Hcur; cbn -[is_white].
  - destruct (String.eqb_spec cur "") as [->|Hne]; [by constructor|].
    apply (sep_cons "" cur "" []); try done. by constructor.
  - destruct (is_white c) eqn:Hc.
    + apply is_white_ok in Hc.
      assert (Hs : separated (String c s) (split_go s "")) by (apply sep_white; [done|]; apply (IH ""); done).
      destruct (String.eqb_spec cur "") as [->|Hne]; [done|].
      apply (sep_cons "" cur (String c s)); try done.
    + apply is_white_no in Hc. specialize (IH (cur +:+ String c "")). rewrite str_app_assoc in IH. apply IH.
      apply all_chars_app. done.
Qed.

(** ** token recognition *)
Lemma len_app (a b : string) : String.length (a +:+ b) = String.length a + String.length b.
Proof. induction a as [|c a IH]; [done|]. rewrite str_cons. cbn. by rewrite IH. Qed.
Lemma last_paren x : String.substring (String.length x) 1 (x +:+ ")") = ")"%string.
Proof. induction x as [|c x IH]; [done|]. rewrite str_cons. exact IH. Qed.
Lemma butlast_paren x : String.substring 0 (String.length x) (x +:+ ")") = x.
Proof. induction x as [|c x IH]; [done|]. rewrite str_cons. cbn. by rewrite IH. Qed.
Lemma last_paren_inv t : String.substring (String.length t - 1) 1 t = ")"%string → ∃ x, t = x +:+ ")".
Proof.
  induction t as [|c t IH]; [done|]. destruct t as [|c' t].
  - cbn. intros [= ->]. by exists "".
  - cbn [String.length]. replace (S (S (String.length t)) - 1) with (S (S (String.length t) - 1)) by lia.
    intros Ht. destruct IH as [x Hx]; [exact Ht|]. exists (String c x). rewrite str_cons. by rewrite <- Hx.
Qed.

Lemma paren_app c0 c1 c2 c3 c4 x : paren_arg (String c0 (String c1 (String c2 (String c3 (String c4 "")))))
    (String c0 (String c1 (String c2 (String c3 (String c4 (x +:+ ")")))))) = Some x.
Proof.
  unfold paren_arg.
  assert (String.prefix (String c0 (String c1 (String c2 (String c3 (String c4 "")))))
    (String c0 (String c1 (String c2 (String c3 (String c4 (x +:+ ")")))))) = true) as ->.
  { cbn. do 5 (destruct (Ascii.ascii_dec _ _); [|done]). by destruct (x +:+ ")"). }
  cbn [String.length]. rewrite len_app. cbn [String.length].
  replace (S (S (S (S (S (String.length x + 1))))) - 1) with (5 + String.length x) by lia.
  replace (5 + String.length x - 5) with (String.length x) by lia.
  change (String.substring (5 + String.length x) 1 (String c0 (String c1 (String c2 (String c3 (String c4 (x +:+ ")")))))))
    with (String.substring (String.length x) 1 (x +:+ ")")).
  change (String.substring 5 (String.length x) (String c0 (String c1 (String c2 (String c3 (String c4 (x +:+ ")")))))))
    with (String.substring 0 (String.length x) (x +:+ ")")).
  by rewrite last_paren, butlast_paren.
Qed.
Lemma paren_save x : paren_arg "save(" ("save(" +:+ x +:+ ")") = Some x.
Proof. apply paren_app. Qed.
Lemma paren_load x : paren_arg "load(" ("load(" +:+ x +:+ ")") = Some x.
Proof. apply paren_app. Qed.

Lemma prefix_app p s : String.prefix p s = true → ∃ t, s = p +:+ t.
Proof.
  revert s. induction p as [|c p IH]; intros s; [by exists s|]. destruct s as [|c' s]; [done|]. cbn.
  destruct (Ascii.ascii_dec c c') as [->|]; [|done]. intros [t ->]%IH. by exists t.
Qed.

Lemma paren_inv p token name : String.length p = 5 →
  String.substring 4 1 p ≠ ")"%string →
  paren_arg p token = Some name → token = p +:+ name +:+ ")".
Proof.
  intros Hp Hlast. unfold paren_arg at 1. destruct (String.prefix p token) eqn:Hpre; [|done].
  destruct (String.eqb_spec (String.substring (String.length token - 1) 1 token) ")") as [Hl|]; [|done].
  apply prefix_app in Hpre as [t ->]. cbn [andb]. intros Hn.
  destruct p as [|c0 [|c1 [|c2 [|c3 [|c4 [|]]]]]]; try done. clear Hp.
  change (String c0 (String c1 (String c2 (String c3 (String c4 "")))) +:+ t) with
    (String c0 (String c1 (String c2 (String c3 (String c4 t))))) in *.
  change (String c0 (String c1 (String c2 (String c3 (String c4 "")))) +:+ (name +:+ ")")) with
    (String c0 (String c1 (String c2 (String c3 (String c4 (name +:+ ")")))))).
  destruct t as [|ct t].
  { cbn in Hl. by destruct Hlast. }
  assert (∃ x, String ct t = x +:+ ")") as [x Hx].
  { apply last_paren_inv. cbn [String.length] in Hl |- *.
    replace (S (S (S (S (S (S (String.length t)))))) - 1) with (5 + (S (String.length t) - 1)) in Hl by lia.
    exact Hl. }
  rewrite Hx in Hn |- *. pose proof (paren_app c0 c1 c2 c3 c4 x) as Hp. unfold paren_arg in Hp.
  destruct (_ && _); [|done]. rewrite Hn in Hp. injection Hp as ->. done.
Qed.

(** a word that no other token prints *)
Lemma var_ok s : (∀ b w, rprint (RLit b w) ≠ s) → "&"%string ≠ s → "|"%string ≠ s → "^"%string ≠ s → "~"%string ≠ s → "?"%string ≠ s →
  paren_arg "save(" s = None → paren_arg "load(" s = None → rtok_ok (RVar s).
Proof.
  intros Hl H1 H2 H3 H4 H5 Hs Hd t' Ht'. destruct t' as [b w| | | | | |x|x|x]; cbn [rprint] in Ht'; subst.
  - by destruct (Hl b w).
  - done.
  - done.
  - done.
  - done.
  - done.
  - by rewrite paren_save in Hs.
  - by rewrite paren_load in Hd.
  - done.
Qed.
Lemma token_exists s : ∃ t, rtok_ok t ∧ rprint t = s.
Proof.
  destruct (decide (s ∈ rprint <$> [RLit false false; RLit false true; RLit true false; RLit true true; RAnd; ROr; RXor; RNot; RIte])) as [Hin|Hno].
  { apply elem_of_list_fmap in Hin as (t & -> & Ht). exists t. split; [|done].
    rewrite !elem_of_cons, elem_of_nil in Ht. naive_solver. }
  destruct (paren_arg "save(" s) as [x|] eqn:Hs.
  { apply paren_inv in Hs; [|done|done]. by exists (RSave x). }
  destruct (paren_arg "load(" s) as [x|] eqn:Hd.
  { apply paren_inv in Hd; [|done|done]. by exists (RLoad x). }
  exists (RVar s). split; [|done]. cbn in Hno. rewrite !elem_of_cons, elem_of_nil in Hno.
  apply var_ok; try done; [|naive_solver..]. intros [] []; cbn; naive_solver.
Qed.

Lemma expr_tokens expr : ∃ ts, Forall rtok_ok ts ∧ separated expr (rprint <$> ts).
Proof.
  assert (∀ ws : list string, ∃ ts, Forall rtok_ok ts ∧ rprint <$> ts = ws) as Hws.
  { induction ws as [|w ws (ts & IH1 & IH2)]; [by exists []|]. destruct (token_exists w) as (t & Ht & Hp).
    exists (t :: ts). split; [by constructor|]. cbn. by rewrite Hp, IH2. }
  destruct (Hws (split_whitespace expr)) as (ts & Hts & He). exists ts. split; [done|]. rewrite He.
  by apply (split_go_separated expr "").
Qed.

(** ** rpn against the direct evaluation *)
Record rrel (H : list (nat * nfun)) (s : rpn_st) (a : rstate) : Prop := {
  rr_wok : wok (rs_w s) H;
  rr_stack : Forall2 (denotes (w_bdd (rs_w s))) (rs_stack s) a.1;
  rr_saved : ∀ x, option_Forall2 (denotes (w_bdd (rs_w s))) (rs_saved s !! x) (a.2 !! x);
}.

Lemma rrel_inner H s st saved st' b r F : rrel H s (st, saved) → step (w_bdd (rs_w s)) b → denotes b r F →
  (∃ k ids, st' = drop k st ∧ ids = drop k (rs_stack s)) → ∀ ids, (∃ k, st' = drop k st ∧ ids = drop k (rs_stack s)) →
  rrel H (RpnSt (with_bdd (rs_w s) b) (r :: ids) (rs_saved s)) (F :: st', saved).
Proof.
  intros [Hk Hs Hv] Hst Hd _ ids (k & -> & ->). pose proof (wk_wf _ _ Hk) as Hw. constructor; cbn [rs_w rs_stack rs_saved fst snd].
  - by apply wok_step.
  - constructor; [done|]. apply Forall2_drop. eapply Forall2_impl; [exact Hs|]. intros i G HG.
    eapply denotes_mono; [apply Hw|apply Hst|done].
  - intros x. specialize (Hv x). cbn in Hv. destruct Hv as [i G HG|]; constructor.
    eapply denotes_mono; [apply Hw|apply Hst|done].
Qed.

Lemma rpn_step_ok H s a t : rrel H s a → rtok_ok t →
  match reval_step a t with
  | Value a' => ∃ s', rpn_step s (rprint t) = Some (s', true) ∧ rrel H s' a'
  | Reported => rpn_step s (rprint t) = Some (s, false)
  | Underflow => rpn_step s (rprint t) = None
  end.
Proof.
  intros Hrel Hok. destruct a as [st saved]. destruct s as [w ids sv]. pose proof Hrel as [Hk Hs Hv].
  cbn [rs_w rs_stack rs_saved fst snd] in Hk, Hs, Hv.
  assert (Hbin : ∀ c op, (∀ m f g, bdd_conn c m f g = op m f g) →
    match st with
    | G :: F :: st' => ∃ s', (s ← rpn_bin (RpnSt w ids sv) op; Some (s, true)) = Some (s', true) ∧
         rrel H s' ((λ e, conn_bool c (F e) (G e)) :: st', saved)
    | _ => (s ← rpn_bin (RpnSt w ids sv) op; Some (s, true)) = None
    end).
  { intros c op Hop. unfold rpn_bin. cbn [rs_stack rs_w rs_saved].
    destruct Hs as [|g G ids0 st0 Hg [|f F ids st Hf Hst]]; [done..|].
    destruct (inner_bin w H Hk c f F g G Hf Hg) as (b & r & Heq & Hstep & Hd). rewrite <- Hop, Heq.
    cbn [mbind option_bind]. eexists. split; [done|].
    apply (rrel_inner H (RpnSt w (g :: f :: ids) sv) (G :: F :: st) saved st b r _ Hrel Hstep Hd); [|by exists 2].
    by exists 2, ids. }
  destruct t as [b wd| | | | | |x|x|x]; cbn [reval_step].
  - assert (rpn_step (RpnSt w ids sv) (rprint (RLit b wd)) =
      Some (RpnSt w ((if b then bdd_one else bdd_zero) :: ids) sv, true)) as -> by (by destruct b, wd).
    eexists. split; [done|]. constructor; cbn [rs_w rs_stack rs_saved fst snd]; try done.
    constructor; [|done]. destruct (terminal_d w H Hk) as [Hz Ho]. by destruct b.
  - specialize (Hbin And bdd_and (λ _ _ _, eq_refl)). destruct st as [|G [|F st]]; exact Hbin.
  - specialize (Hbin Or bdd_or (λ _ _ _, eq_refl)). destruct st as [|G [|F st]]; exact Hbin.
  - specialize (Hbin Xor bdd_xor (λ _ _ _, eq_refl)). destruct st as [|G [|F st]]; exact Hbin.
  - destruct Hs as [|f F ids st Hf Hst]; [done|].
    destruct (inner_not w H Hk f F Hf) as (b & r & Heq & Hstep & Hd).
    assert (rpn_step (RpnSt w (f :: ids) sv) (rprint RNot) = '(b, r) ← bdd_not (w_bdd w) f;
       Some (RpnSt (with_bdd w b) (r :: ids) sv, true)) as -> by done.
    rewrite Heq. cbn [mbind option_bind]. eexists. split; [done|].
    apply (rrel_inner H (RpnSt w (f :: ids) sv) (F :: st) saved st b r _ Hrel Hstep Hd); [|by exists 1].
    by exists 1, ids.
  - destruct Hs as [|h K ids0 st0 Hh [|g G ids1 st1 Hg [|f F ids st Hf Hst]]]; [done..|].
    destruct (inner_ite w H Hk f F g G h K Hf Hg Hh) as (b & r & Heq & Hstep & Hd).
    assert (rpn_step (RpnSt w (h :: g :: f :: ids) sv) (rprint RIte) = '(b, r) ← bdd_ite (w_bdd w) f g h;
       Some (RpnSt (with_bdd w b) (r :: ids) sv, true)) as -> by done.
    rewrite Heq. cbn [mbind option_bind]. eexists. split; [done|].
    apply (rrel_inner H (RpnSt w (h :: g :: f :: ids) sv) (K :: G :: F :: st) saved st b r _ Hrel Hstep Hd); [|by exists 3].
    by exists 3, ids.
  - assert (rpn_step (RpnSt w ids sv) (rprint (RSave x)) =
      match ids with
      | y :: st => Some (RpnSt w (y :: st) (<[x := y]> sv), true)
      | [] => Some (RpnSt w ids sv, false)
      end) as ->.
    { pose proof (paren_save x) as Hp. unfold rpn_step. change (rprint (RSave x)) with ("save(" +:+ x +:+ ")").
      rewrite Hp. by destruct ids. }
    destruct Hs as [|f F ids st Hf Hst]; [done|]. eexists. split; [done|].
    constructor; cbn [rs_w rs_stack rs_saved fst snd]; try done; [by constructor|].
    intros y. destruct (decide (y = x)) as [->|]; [rewrite !lookup_insert; by constructor|].
    rewrite !lookup_insert_ne by done. apply Hv.
  - assert (rpn_step (RpnSt w ids sv) (rprint (RLoad x)) =
      match sv !! x with
      | Some y => Some (RpnSt w (y :: ids) sv, true)
      | None => Some (RpnSt w ids sv, false)
      end) as ->.
    { pose proof (paren_load x) as Hp. unfold rpn_step. change (rprint (RLoad x)) with ("load(" +:+ x +:+ ")").
      rewrite Hp. done. }
    pose proof (Hv x) as Hx. destruct Hx as [i F Hi|]; [|done].
    eexists. split; [done|]. constructor; cbn [rs_w rs_stack rs_saved fst snd]; try done. by constructor.
  - assert (rpn_step (RpnSt w ids sv) (rprint (RVar x)) =
      let '(w, id) := w_defvar w x in Some (RpnSt (w_drop w id) (id :: ids) sv, true)) as ->.
    { cbn [rtok_ok] in Hok. cbn [rprint].
      assert (Hne : ∀ t', (∀ y, t' ≠ RVar y) → String.eqb x (rprint t') = false).
      { intros t' Ht'. apply String.eqb_neq. intros He. symmetry in He. apply Hok in He. by apply Ht' in He. }
      unfold rpn_step.
      pose proof (Hne (RLit false false) ltac:(done)) as E0. cbn [rprint] in E0.
      pose proof (Hne (RLit false true) ltac:(done)) as E1. cbn [rprint] in E1.
      pose proof (Hne (RLit true false) ltac:(done)) as E2. cbn [rprint] in E2.
      pose proof (Hne (RLit true true) ltac:(done)) as E3. cbn [rprint] in E3.
      pose proof (Hne RAnd ltac:(done)) as E4. cbn [rprint] in E4.
      pose proof (Hne ROr ltac:(done)) as E5. cbn [rprint] in E5.
      pose proof (Hne RXor ltac:(done)) as E6. cbn [rprint] in E6.
      pose proof (Hne RNot ltac:(done)) as E7. cbn [rprint] in E7.
      pose proof (Hne RIte ltac:(done)) as E8. cbn [rprint] in E8.
      rewrite E0, E1, E2, E3, E4, E5, E6, E7, E8. cbn [orb].
      destruct (paren_arg "save(" x) as [y|] eqn:Hs'.
      { apply paren_inv in Hs'; [|done|done]. by specialize (Hok (RSave y) (eq_sym Hs')). }
      destruct (paren_arg "load(" x) as [y|] eqn:Hl'.
      { apply paren_inv in Hl'; [|done|done]. by specialize (Hok (RLoad y) (eq_sym Hl')). }
      done. }
    destruct (w_defvar w x) as [w' id] eqn:Hdv.
    destruct (defvar_ok w H x w' id Hk Hdv) as (Hk' & He & _). pose proof (wk_wf _ _ Hk) as Hw.
    eexists. split; [done|]. constructor; cbn [rs_w rs_stack rs_saved fst snd].
    + by eapply wok_drop.
    + constructor; [apply (wk_held _ _ Hk'); by left|]. eapply Forall2_impl; [exact Hs|]. intros i G HG.
      eapply denotes_mono; [apply Hw|apply He|done].
    + intros y. specialize (Hv y). destruct Hv as [i G HG|]; constructor.
      eapply denotes_mono; [apply Hw|apply He|done].
Qed.

Lemma rpn_loop_ok H ts : Forall rtok_ok ts → ∀ s a, rrel H s a →
  match reval_go a ts with
  | Value a' => ∃ s', rpn_loop s (rprint <$> ts) = Some (s', true) ∧ rrel H s' a'
  | Reported => ∃ s', rpn_loop s (rprint <$> ts) = Some (s', false) ∧ wok (rs_w s') H
  | Underflow => rpn_loop s (rprint <$> ts) = None
  end.
Proof.
  induction 1 as [|t ts Ht _ IH]; intros s a Hrel.
  - cbn. by exists s.
  - pose proof (rpn_step_ok H s a t Hrel Ht) as Hstep. cbn [reval_go fmap list_fmap rpn_loop].
    destruct (reval_step a t) as [a'| |].
    + destruct Hstep as (s' & -> & Hrel'). cbn [mbind option_bind]. by apply IH.
    + rewrite Hstep. cbn [mbind option_bind]. exists s. split; [done|]. by destruct Hrel.
    + by rewrite Hstep.
Qed.

Lemma w_rpn_ok w H expr ts : wok w H → Forall rtok_ok ts → separated expr (rprint <$> ts) →
  match reval ts with
  | Value F => ∃ w' r, w_rpn w expr = Some (w', RpnOk r) ∧ wok w' ((r, F) :: H)
  | Reported => ∃ w', w_rpn w expr = Some (w', RpnErr) ∧ wok w' H
  | Underflow => w_rpn w expr = None
  end.
Proof.
  intros Hk Hts Hsep. unfold w_rpn. rewrite (separated_split _ _ Hsep). unfold w_rpn_tokens, reval.
  pose proof (rpn_loop_ok H ts Hts (RpnSt w [] ∅) ([], ∅)) as Hl.
  assert (rrel H (RpnSt w [] ∅) ([], ∅)) as Hrel.
  { constructor; cbn; try done. intros x. rewrite !lookup_empty. constructor. }
  specialize (Hl Hrel). destruct (reval_go ([], ∅) ts) as [[st saved]| |].
  - destruct Hl as (s' & -> & [Hk' Hs' _]). cbn [mbind option_bind]. cbn [fst] in Hs'.
    destruct Hs' as [|f F ids0 st0 Hf [|g G ids1 st1 Hg Hst]].
    + by exists (rs_w s').
    + destruct (wok_wrap _ _ _ _ Hk' Hf) as (w' & -> & Hk''). by exists w', f.
    + by exists (rs_w s').
  - destruct Hl as (s' & -> & Hk'). by exists (rs_w s').
  - by rewrite Hl.
Qed.

End base.

(** ** all histories *)
Lemma step_wok {B} w H w' H' : @wok B w H → bss_step w H w' H' → @wok B w' H'.
Proof.
  intros Hk Hs. revert Hk.
  destruct Hs as [w H x w' r Heq|w H w' r Heq|w H w' r Heq|w H h hd f F g G w' r Hf Hg Hh Bf Bg Heq
    |w H f F w' r Hf Heq|o w H f F g G w' r Hf Hg Heq|w H f F g G h K w' r Hf Hg Hh Heq
    |w H L w' r HL Heq|w H L w' r HL Heq|w H k L w' r HL Heq|w H f F w' r Hf Heq
    |w H f F x w' f0 f1 Hf Hx Heq|w H f F Hf|w H f F H' Hp|w H keep w' n Hkeep Heq|w H t|w H
    |w H expr ts F w' r Hts Hsep HF Heq|w H expr w' Heq]; intros Hk.
  - by apply (defvar_ok w H x w' r).
  - destruct (w_zero_ok w H Hk) as (w1 & r1 & E & Hk1). rewrite Heq in E. by injection E as <- <-.
  - destruct (w_one_ok w H Hk) as (w1 & r1 & E & Hk1). rewrite Heq in E. by injection E as <- <-.
  - destruct (w_node_ok w H Hk h hd f F g G Hf Hg Hh Bf Bg) as (w1 & r1 & E & Hk1). rewrite Heq in E. by injection E as <- <-.
  - destruct (w_not_ok w H Hk f F Hf) as (w1 & r1 & E & Hk1). rewrite Heq in E. by injection E as <- <-.
  - destruct (w_bin_ok w H Hk o f F g G Hf Hg) as (w1 & r1 & E & Hk1). rewrite Heq in E. by injection E as <- <-.
  - destruct (w_ite_ok w H Hk f F g G h K Hf Hg Hh) as (w1 & r1 & E & Hk1). rewrite Heq in E. by injection E as <- <-.
  - destruct (w_and_list_ok w H Hk L HL) as (w1 & r1 & E & Hk1). rewrite Heq in E. by injection E as <- <-.
  - destruct (w_or_list_ok w H Hk L HL) as (w1 & r1 & E & Hk1). rewrite Heq in E. by injection E as <- <-.
  - destruct (w_kofn_ok w H Hk k L HL) as (w1 & r1 & E & Hk1). rewrite Heq in E. by injection E as <- <-.
  - destruct (w_dual_ok w H Hk f F Hf) as (w1 & r1 & E & Hk1). rewrite Heq in E. by injection E as <- <-.
  - destruct (w_children_ok w H f F Hk Hf) as [[E _]|(w1 & g0 & g1 & y & E & Hy & Hk1)]; rewrite Heq in E; [done|].
    rewrite Hx in Hy. injection Hy as <-. by injection E as <- <- <-.
  - apply wok_pin; [done|]. by apply Hk.
  - by eapply wok_drop.
  - destruct (w_gc_ok w H Hk keep Hkeep) as (w1 & n1 & E & Hk1). rewrite Heq in E. by injection E as <- <-.
  - by apply wok_params.
  - by apply w_clear_ok.
  - pose proof (w_rpn_ok w H expr ts Hk Hts Hsep) as E. rewrite HF in E. destruct E as (w1 & r1 & E & Hk1).
    rewrite Heq in E. by injection E as <- <-.
  - destruct (expr_tokens expr) as (ts & Hts & Hsep). pose proof (w_rpn_ok w H expr ts Hk Hts Hsep) as E.
    destruct (reval ts) as [F| |].
    + destruct E as (w1 & r1 & E & Hk1). by rewrite Heq in E.
    + destruct E as (w1 & E & Hk1). rewrite Heq in E. by injection E as <-.
    + by rewrite Heq in E.
Qed.
Lemma held_wok w H : bss_held w H → @wok base0 w H.
Proof. induction 1 as [|w H w' H' _ IH Hs]; [apply new_wok|by eapply step_wok]. Qed.
(** the variables known before a call are known after it *)
Lemma step_headers {B} w H w' H' : @wok B w H → bss_step w H w' H' → ar_headers (b_ar (w_bdd w)) `prefix_of` ar_headers (b_ar (w_bdd w')).
Proof.
  intros Hk Hs. apply (wk_base w' H' (B := Base (ar_headers (b_ar (w_bdd w))) (bs_pins B))). eapply step_wok; [|exact Hs].
  destruct Hk as [????????[_ Hb]]. constructor; try done.
Qed.
Lemma held_in_fst (H : list (nat * nfun)) f : f ∈ H.*1 → ∃ F, (f, F) ∈ H.
Proof. intros ([f' F] & -> & Hf)%elem_of_list_fmap. by exists F. Qed.
Lemma held_list (H : list (nat * nfun)) fs : Forall (λ f, f ∈ H.*1) fs → ∃ L, fs = L.*1 ∧ ∀ x, x ∈ L → x ∈ H.
Proof.
  induction 1 as [|f fs Hf _ (L & -> & HL)]; [exists []; split; [done|]; by intros x ?%elem_of_nil|].
  destruct (held_in_fst H f Hf) as [F HF]. exists ((f, F) :: L). split; [done|]. intros x [->|Hx]%elem_of_cons; [done|by apply HL].
Qed.
Lemma held_eq w H f F g G : bss_held w H → (f, F) ∈ H → (g, G) ∈ H → f = g ↔ ∀ e, F e = G e.
Proof. intros Hk%held_wok Hf Hg. eapply denotes_eq; [exact Hk|by apply Hk..]. Qed.
Lemma held_progress w H : bss_held w H →
  is_Some (w_zero w) ∧ is_Some (w_one w) ∧
  (∀ keep, Forall (λ f, f ∈ H.*1) keep → is_Some (w_gc w keep)) ∧
  (∀ f, f ∈ H.*1 → is_Some (w_not w f) ∧ is_Some (w_dual w f) ∧ is_Some (w_children w f)) ∧
  (∀ o f g, f ∈ H.*1 → g ∈ H.*1 → is_Some (w_bin o w f g)) ∧
  (∀ f g h, f ∈ H.*1 → g ∈ H.*1 → h ∈ H.*1 → is_Some (w_ite w f g h)) ∧
  (∀ fs, Forall (λ f, f ∈ H.*1) fs →
     is_Some (w_and_list w fs) ∧ is_Some (w_or_list w fs) ∧ ∀ k, is_Some (w_kofn w k fs)).
Proof.
  intros Hk%held_wok. sp.
  - destruct (w_zero_ok w H Hk) as (? & ? & -> & _). by eexists.
  - destruct (w_one_ok w H Hk) as (? & ? & -> & _). by eexists.
  - intros keep Hkeep. destruct (w_gc_ok w H Hk keep Hkeep) as (? & ? & -> & _). by eexists.
  - intros f [F Hf]%held_in_fst. sp.
    + destruct (w_not_ok w H Hk f F Hf) as (? & ? & -> & _). by eexists.
    + destruct (w_dual_ok w H Hk f F Hf) as (? & ? & -> & _). by eexists.
    + destruct (w_children_ok w H f F Hk Hf) as [[-> _]|(? & ? & ? & ? & -> & _)]; by eexists.
  - intros o f g [F Hf]%held_in_fst [G Hg]%held_in_fst.
    destruct (w_bin_ok w H Hk o f F g G Hf Hg) as (? & ? & -> & _). by eexists.
  - intros f g h [F Hf]%held_in_fst [G Hg]%held_in_fst [K Hh]%held_in_fst.
    destruct (w_ite_ok w H Hk f F g G h K Hf Hg Hh) as (? & ? & -> & _). by eexists.
  - intros fs (L & -> & HL)%held_list. sp; [| |intros k].
    + destruct (w_and_list_ok w H Hk L HL) as (? & ? & -> & _). by eexists.
    + destruct (w_or_list_ok w H Hk L HL) as (? & ? & -> & _). by eexists.
    + destruct (w_kofn_ok w H Hk k L HL) as (? & ? & -> & _). by eexists.
Qed.

Lemma held_rpn w H expr ts : bss_held w H → Forall rtok_ok ts → separated expr (rprint <$> ts) →
  match reval ts with
  | Value F => ∃ w' r, w_rpn w expr = Some (w', RpnOk r) ∧ ∀ e, bss_value (w_bdd w') e r (tvb (F e))
  | Reported => ∃ w', w_rpn w expr = Some (w', RpnErr)
  | Underflow => w_rpn w expr = None
  end.
Proof.
  intros Hk%held_wok Hts Hsep. pose proof (w_rpn_ok w H expr ts Hk Hts Hsep) as E. destruct (reval ts) as [F| |].
  - destruct E as (w' & r & E & Hk'). exists w', r. split; [done|]. apply (wk_held _ _ Hk'). by left.
  - destruct E as (w' & E & _). by exists w'.
  - done.
Qed.
Lemma held_rpn_err w H expr ts : bss_held w H → Forall rtok_ok ts → separated expr (rprint <$> ts) →
  (∀ F, reval ts ≠ Value F) → reval ts ≠ Underflow → ∃ w', w_rpn w expr = Some (w', RpnErr) ∧ bss_held w' H.
Proof.
  intros Hh Hts Hsep HV HU. pose proof (held_rpn w H expr ts Hh Hts Hsep) as E. destruct (reval ts) as [F| |].
  - by destruct (HV F).
  - destruct E as (w' & E). exists w'. split; [done|]. eapply sh_step; [done|]. by eapply st_rpn_err.
  - done.
Qed.

Definition is_var (t : rtok) : bool := match t with RVar _ => true | _ => false end.
Lemma rprint_inj t t' : rtok_ok t → rtok_ok t' → rprint t = rprint t' → t = t'.
Proof.
  intros Ht Ht' He. destruct (is_var t) eqn:Hv; [|destruct (is_var t') eqn:Hv'].
  - destruct t as [| | | | | | | |x]; try done. symmetry. by apply Ht.
  - destruct t' as [| | | | | | | |x]; try done. by apply Ht'.
  - destruct t as [b wd| | | | | |x|x|x]; try done;
      (destruct t' as [b' wd'| | | | | |x'|x'|x']; try done); try (destruct b; destruct wd; done); try (destruct b'; destruct wd'; done).
    + destruct b, wd, b', wd'; done.
    + pose proof (paren_save x) as E. change ("save(" +:+ x +:+ ")") with (rprint (RSave x)) in E. rewrite He in E.
      cbn [rprint] in E. rewrite paren_save in E. by injection E as ->.
    + pose proof (paren_load x) as E. change ("load(" +:+ x +:+ ")") with (rprint (RLoad x)) in E. rewrite He in E.
      cbn [rprint] in E. rewrite paren_load in E. by injection E as ->.
Qed.
Lemma expr_tokens_unique expr ts ts' : Forall rtok_ok ts → separated expr (rprint <$> ts) →
  Forall rtok_ok ts' → separated expr (rprint <$> ts') → ts = ts'.
Proof.
  intros Hts Hs Hts' Hs'. apply separated_split in Hs, Hs'. rewrite Hs in Hs'. clear Hs.
  revert ts' Hts' Hs'. induction Hts as [|t ts Ht _ IH]; intros [|t' ts'] Hts' He; try done.
  inversion Hts' as [|?? Ht' Hts'']; subst. cbn in He. injection He as He1 He2. f_equal; [by apply rprint_inj|by apply IH].
Qed.

Lemma held_order w H : bss_held w H → ∃ names, w_varorder w = Some names ∧ bdd_order (w_bdd w) names ∧ NoDup names.
Proof.
  intros Hk%held_wok. eexists. split; [by eapply varorder_ok|]. split; [|apply Hk]. unfold bdd_order. sp.
  - by rewrite fmap_length.
  - by eapply levels_distinct.
  - intros h hd Hh. rewrite (wk_lvl _ _ Hk _ _ Hh). rewrite list_lookup_fmap, Hh. done.
Qed.
Lemma held_defvar w H x names w' r : bss_held w H → w_varorder w = Some names → w_defvar w x = (w', r) →
  (∀ e, bss_value (w_bdd w') e r (tvb (e x))) ∧
  w_varorder w' = Some (if decide (x ∈ names) then names else names ++ [x]) ∧
  (x ∈ names → w_bdd w' = w_bdd w).
Proof.
  intros Hk%held_wok Hn Hd. rewrite (varorder_ok w H Hk) in Hn. injection Hn as <-.
  destruct (defvar_ok w H x w' r Hk Hd) as (Hk' & _ & Hh & Hsame & _).
  assert (Hx : x ∈ h_label <$> ar_headers (b_ar (w_bdd w)) ↔ is_Some (w_vars w !! x)).
  { split.
    - intros (hd & -> & Hi)%elem_of_list_fmap. apply elem_of_list_lookup in Hi as [i Hi]. by eapply wk_lab.
    - intros [id Hid]. apply (wk_var _ _ Hk) in Hid as [_ (i & hd & Hi & <- & _)]. apply elem_of_list_fmap.
      exists hd. split; [done|]. by eapply elem_of_list_lookup_2. }
  sp.
  - apply (wk_held _ _ Hk'). by left.
  - rewrite (varorder_ok w' _ Hk'), Hh, fmap_app. f_equal.
    destruct (decide (is_Some _)) as [Hs|Hs], (decide (x ∈ _)) as [Hi|Hi]; try tauto. by rewrite app_nil_r.
  - intros Hi%Hx. by apply Hsame.
Qed.
Lemma held_same w H x r w' r' : bss_held w H → (r, λ e : env, e x) ∈ H → w_defvar w x = (w', r') → r' = r.
Proof.
  intros Hh Hr Hd. pose proof (sh_step _ _ _ _ Hh (st_defvar w H x w' r' Hd)) as Hh'.
  apply (held_eq w' _ r' (λ e, e x) r (λ e, e x) Hh'); [by left|by right|done].
Qed.
