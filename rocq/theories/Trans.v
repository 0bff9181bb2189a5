(** Two runs of a client program that differ in housekeeping only stay in step. *)
From stdpp Require Import strings.
From Verif Require Import Prelude ComputeCache Arena Trees ArenaProofs ArenaMore Keeps Bdd BddProofs SpecBdd SpecBss BddMain BssAlg BssMeas BssMgr BssLook SpecBssMgr BssMgrProofs BssMgrMain BssLookProofs Iso SpecTrans.

Local Notation hdrs w := (ar_headers (b_ar (w_bdd w))).
Local Notation ok := (@wok base0).

Lemma hdby_idx (a : arena tv) d : ∀ id, (∀ i hd, ar_headers a !! i = Some hd → h_level hd = i) → repr a d id →
  hdby (λ l, default (Header 0 0 EmptyString 0) (ar_headers a !! l)) d.
Proof.
  induction d as [t|hd ds IH] using dd_ind'; intros id Hl Hr; [done|].
  apply repr_br in Hr as [_ (h & cs & _ & Hh & Hf)]. apply hdby_br. split; [by rewrite (Hl _ _ Hh), Hh|].
  rewrite Forall_forall in IH. apply Forall_lookup. intros i d Hd.
  destruct (Forall2_lookup_l _ _ _ _ _ Hf Hd) as (c & Hc & Hrc).
  eapply IH; [by eapply elem_of_list_lookup_2|done|done].
Qed.
Lemma rank_hdrs w H d i : ok w H → repr (b_ar (w_bdd w)) d i → rank d ≤ length (hdrs w).
Proof.
  intros Hk Hd. destruct d as [|hd ds]; cbn; [lia|]. apply repr_br in Hd as [_ (h & cs & _ & Hh & _)].
  rewrite (wk_lvl _ _ Hk _ _ Hh). by apply lookup_lt_Some in Hh.
Qed.

(** ** the same function over the same variables is the same diagram *)
Section two.
Context (w1 w2 : bmgr) (H1 H2 : list (nat * nfun)) (K1 : ok w1 H1) (K2 : ok w2 H2) (HH : hdrs w1 = hdrs w2).
Local Notation "i ≈ j" := (iso (b_ar (w_bdd w1)) (b_ar (w_bdd w2)) i j) (at level 70).
Local Notation W1 := (gd_wf _ (bw_good _ (wk_wf _ _ K1))).
Local Notation W2 := (gd_wf _ (bw_good _ (wk_wf _ _ K2))).

Lemma fun_iso f1 f2 F : denotes (w_bdd w1) f1 F → denotes (w_bdd w2) f2 F → f1 ≈ f2.
Proof.
  intros D1 D2. destruct (valid_repr _ _ (wk_wf _ _ K1) (proj1 D1)) as [d1 R1].
  destruct (valid_repr _ _ (wk_wf _ _ K2) (proj1 D2)) as [d2 R2].
  pose proof (bw_good _ (wk_wf _ _ K1)) as G1. pose proof (bw_good _ (wk_wf _ _ K2)) as G2.
  pose proof (good_ok _ _ _ G1 R1) as O1. pose proof (good_ok _ _ _ G2 R2) as O2.
  assert (d1 = d2) as <-; [|by exists d1].
  pose proof (hdby_idx _ _ _ (wk_lvl _ _ K1) R1) as B1. pose proof (hdby_idx _ _ _ (wk_lvl _ _ K2) R2) as B2. rewrite <- HH in B2.
  eapply (canon E2 _ d1 d2); [unfold E2; lia|exact O1|exact O2|eapply repr_redd; [apply G1|exact R1]|eapply repr_redd; [apply G2|exact R2]|exact B1|exact B2|].
  intros ρ Hv. destruct (env_of_rho w1 H1 (λ l, ρ l =? 1) K1) as [e He].
  assert (Hag : ∀ d, okdd E2 d → rank d ≤ length (hdrs w1) → ev ρ d = ev (asg (rho_of (w_bdd w1) e)) d).
  { intros d Od Hrk. rewrite (ev_ext ρ (asg (λ l, ρ l =? 1)) d) by (try done; by apply vok_asg).
    unfold ev. f_equal. eapply eval_agree; [exact Od|]. intros l Hl. unfold asg. rewrite He by lia. done. }
  pose proof (Hag d1 O1 (rank_hdrs _ _ _ _ K1 R1)) as E1. pose proof (Hag d2 O2 ltac:(rewrite HH; exact (rank_hdrs _ _ _ _ K2 R2))) as E2'.
  assert (rho_of (w_bdd w1) e = rho_of (w_bdd w2) e) as Hro by (unfold rho_of, lab; by rewrite HH).
  rewrite (denotes_ev w1 H1 K1 f1 F d1 e D1 R1) in E1. rewrite Hro, (denotes_ev w2 H2 K2 f2 F d2 e D2 R2) in E2'.
  unfold ev in E1, E2'. destruct (eval_total E2 ρ d1 O1 Hv) as [t1 Ht1]. destruct (eval_total E2 ρ d2 O2 Hv) as [t2 Ht2].
  rewrite Ht1, Ht2 in *. cbn in E1, E2'. congruence.
Qed.

(** ** the questions *)
Context {R : Type} (rO rI : R) (radd rmul rsub : R → R → R) (f1 f2 : nat) (Hf : f1 ≈ f2).
Lemma q_is t : w_is t w1 f1 = w_is t w2 f2.
Proof. unfold w_is. destruct (iso_node _ _ _ _ W1 W2 _ _ Hf) as [(t' & -> & ->)|(h & hd & cs1 & cs2 & -> & -> & _)]; done. Qed.
Lemma q_label : w_label w1 f1 = w_label w2 f2.
Proof.
  unfold w_label. destruct (iso_node _ _ _ _ W1 W2 _ _ Hf) as [(t' & -> & ->)|(h & hd & cs1 & cs2 & -> & -> & E1 & E2 & _)]; [done|].
  cbn [mbind option_bind]. by rewrite E1, E2.
Qed.
Lemma q_level : w_level w1 f1 = w_level w2 f2.
Proof.
  unfold w_level, w_header. destruct (iso_node _ _ _ _ W1 W2 _ _ Hf) as [(t' & -> & ->)|(h & hd & cs1 & cs2 & -> & -> & E1 & E2 & _)]; [done|].
  cbn [mbind option_bind]. by rewrite E1, E2.
Qed.
Lemma q_prob pv ss : w_prob rO rI radd rmul rsub w1 pv ss f1 = w_prob rO rI radd rmul rsub w2 pv ss f2.
Proof.
  apply osim_eq. unfold w_prob, bdd_prob. rewrite <- (iso_fuel _ _ HH). eapply osim_bind.
  { apply (prob_iso _ _ (bw_good _ (wk_wf _ _ K1)) (bw_good _ (wk_wf _ _ K2))); [exact Hf|apply crel_empty]. }
  intros [? ?] [? ?] [_ E]. cbn in E. subst. by constructor.
Qed.
Lemma q_count ss : w_count w1 ss f1 = w_count w2 ss f2.
Proof.
  apply osim_eq. unfold w_count, bdd_count. rewrite <- (iso_fuel _ _ HH). eapply osim_bind.
  { apply (count_iso _ _ (bw_good _ (wk_wf _ _ K1)) (bw_good _ (wk_wf _ _ K2))); [exact Hf|apply crel_empty]. }
  intros [? ?] [? ?] [_ E]. cbn in E. subst. by constructor.
Qed.
Lemma q_size : w_size w1 f1 = w_size w2 f2.
Proof.
  apply osim_eq. unfold w_size, bdd_node_size. rewrite <- (iso_fuel _ _ HH). eapply osim_bind.
  { apply (size_iso _ _ (bw_good _ (wk_wf _ _ K1)) (bw_good _ (wk_wf _ _ K2))); [exact Hf|apply srel_empty]. }
  intros [? [[??]?]] [? ?] [_ E]. cbn in E. subst. by constructor.
Qed.
Lemma q_paths n ss : w_extract n w1 ss f1 = w_extract n w2 ss f2.
Proof.
  unfold w_extract, bdd_extract, path_labels, bpath_new. rewrite HH, (iso_level _ _ _ _ W1 W2 _ _ Hf).
  destruct (path_labels_go _ _); [|done]. cbn [mbind option_bind]. destruct (ar_node_level _ _); [|done]. cbn [mbind option_bind].
  apply (collect_iso _ _ (bw_good _ (wk_wf _ _ K1)) (bw_good _ (wk_wf _ _ K2))). by repeat constructor.
Qed.
Lemma q_meas pv ss : w_bmeas rO rI radd rmul rsub w1 pv ss f1 = w_bmeas rO rI radd rmul rsub w2 pv ss f2.
Proof.
  pose proof Hf as (d & R1 & R2). unfold w_bmeas, bdd_bmeas.
  destruct (topo_sort_spec _ _ _ (bw_good _ (wk_wf _ _ K1)) R1) as (l1 & T1 & _).
  destruct (topo_sort_spec _ _ _ (bw_good _ (wk_wf _ _ K2)) R2) as (l2 & T2 & _).
  rewrite T1, T2. unfold topo_sort in T1, T2.
  match type of T1 with topo_loop ?n _ _ = _ => match type of T2 with topo_loop ?k _ _ = _ =>
    pose proof (topo_more _ _ _ _ T1 (n + k) ltac:(lia)) as M1; pose proof (topo_more _ _ _ _ T2 (n + k) ltac:(lia)) as M2;
    pose proof (bmeas_iso _ _ (bw_good _ (wk_wf _ _ K1)) (bw_good _ (wk_wf _ _ K2)) HH rO rI radd rmul rsub pv ss _ _ (n + k) Hf) as HB end end.
  rewrite M1, M2 in HB. by apply osim_eq in HB.
Qed.
End two.
Lemma q_order w1 w2 H1 H2 : ok w1 H1 → ok w2 H2 → hdrs w1 = hdrs w2 → w_varorder w1 = w_varorder w2.
Proof. intros K1 K2 HH. by rewrite (varorder_ok _ _ K1), (varorder_ok _ _ K2), HH. Qed.

(** ** variables: known to the wrapper = headers of the arena *)
Local Notation on w := (Base (hdrs w) []).
Lemma up_wok w H : ok w H → @wok (on w) w H.
Proof. intros [????????[_ Hb]]. constructor; done. Qed.
Lemma down_wok B w H : bs_pins B = [] → @wok B w H → ok w H.
Proof.
  intros HB [???????? [_ Hb]]. constructor; try done; [by rewrite HB in *|]. split; [apply prefix_nil|]. intros a0 f Hf. by apply elem_of_nil in Hf.
Qed.
Lemma same_hdrs w H w' H' : ok w H → @wok (on w) w' H' → w_vars w' = w_vars w → ok w' H' ∧ hdrs w' = hdrs w.
Proof.
  intros Hk Hk' Hv. split; [by eapply down_wok; [|exact Hk']|]. pose proof (wk_base _ _ Hk') as [[k Hp] _]. cbn in Hp.
  pose proof (wk_size _ _ Hk) as L. pose proof (wk_size _ _ Hk') as L'. rewrite Hv, L, Hp, app_length in L'.
  destruct k; [by rewrite app_nil_r in Hp|cbn in L'; lia].
Qed.
Lemma wok_ext {B} w H r F F' : @wok B w ((r, F) :: H) → (∀ e, F e = F' e) → @wok B w ((r, F') :: H).
Proof.
  intros [? ? ? ? ? ? ? Hh ?] He. constructor; try done. intros f G [[= -> ->]|Hf]%elem_of_cons; [|apply Hh; by right].
  destruct (Hh r F) as [V D]; [by left|]. split; [done|]. intros e. rewrite <- He. apply D.
Qed.
Lemma maybe_gc_vars w w' : maybe_gc w = Some w' → w_vars w' = w_vars w.
Proof.
  unfold maybe_gc. destruct (_ <? _); [by intros [= <-]|]. destruct (bdd_gc _ _) as [[b n]|]; [|done]. cbn. by intros [= <-].
Qed.
Lemma wrap_vars w id w' r : w_wrap w id = Some (w', r) → w_vars w' = w_vars w.
Proof. unfold w_wrap. destruct (maybe_gc _) as [w0|] eqn:E; [|done]. cbn. intros [= <- _]. by apply maybe_gc_vars in E. Qed.
Lemma op_vars w o w' r : w_op w o = Some (w', r) → w_vars w' = w_vars w.
Proof. unfold w_op. destruct o as [[b id]|]; [|done]. cbn [mbind option_bind]. intros E. by apply wrap_vars in E. Qed.

Definition grow (hs : list header) (x : string) : list header :=
  if decide (x ∈ h_label <$> hs) then hs else hs ++ [Header (length hs) (length hs) x 2].
Lemma defvar_grow w H x : ok w H → ∃ w' r, w_defvar w x = (w', r) ∧ ok w' ((r, λ e, e x) :: H) ∧ hdrs w' = grow (hdrs w) x.
Proof.
  intros Hk. destruct (w_defvar w x) as [w' r] eqn:E. exists w', r. destruct (defvar_ok w H x w' r Hk E) as (Hk' & _ & Hh & _).
  sp; [done|done|]. rewrite Hh. unfold grow. destruct (decide (x ∈ h_label <$> hdrs w)) as [Hx|Hx].
  - rewrite decide_True; [by rewrite app_nil_r|]. apply elem_of_list_fmap in Hx as (hd & -> & [i Hi]%elem_of_list_lookup). by apply (wk_lab _ _ Hk) in Hi.
  - rewrite decide_False; [done|]. intros [id Hid]. apply Hx. destruct (wk_var _ _ Hk _ _ Hid) as (_ & i & hd & Hi & <- & _).
    apply elem_of_list_fmap. exists hd. split; [done|]. by eapply elem_of_list_lookup_2.
Qed.

(** ** rpn *)
Definition tok_hdrs (hs : list header) (t : rtok) : list header := match t with RVar x => grow hs x | _ => hs end.
Lemma rrel_down B H s a : bs_pins B = [] → @rrel B H s a → @rrel base0 H s a.
Proof. intros HB [Hk Hs Hv]. constructor; [by eapply down_wok|done|done]. Qed.
Lemma rpn_tok_vars s t s' b : rtok_ok t → (∀ x, t ≠ RVar x) → rpn_step s (rprint t) = Some (s', b) → w_vars (rs_w s') = w_vars (rs_w s).
Proof.
  intros _ Ht. destruct s as [w ids sv]. 
  assert (Hbin : ∀ op, (s ← rpn_bin (RpnSt w ids sv) op; Some (s, true)) = Some (s', b) → w_vars (rs_w s') = w_vars w).
  { intros op. unfold rpn_bin. cbn [rs_stack rs_w rs_saved]. destruct ids as [|g [|f ids]]; [done..|].
    destruct (op _ _ _) as [[? ?]|]; [|done]. cbn. by intros [= <- _]. }
  destruct t as [[] []| | | | | |x|x|x].
  1,2,3,4: intros [= <- _]; done.
  1,2,3: apply Hbin.
  - unfold rpn_step. cbn -[bdd_not]. destruct ids as [|f ids]; [done|]. destruct (bdd_not _ _) as [[? ?]|]; [|done]. cbn. by intros [= <- _].
  - unfold rpn_step. cbn -[bdd_ite]. destruct ids as [|h [|g [|f ids]]]; [done..|]. destruct (bdd_ite _ _ _ _) as [[? ?]|]; [|done]. cbn. by intros [= <- _].
  - assert (rpn_step (RpnSt w ids sv) (rprint (RSave x)) =
      match ids with
      | y :: st => Some (RpnSt w (y :: st) (<[x := y]> sv), true)
      | [] => Some (RpnSt w ids sv, false)
      end) as ->.
    { pose proof (paren_save x) as Hp. unfold rpn_step. change (rprint (RSave x)) with ("save(" +:+ x +:+ ")").
      rewrite Hp. by destruct ids. }
    destruct ids; by intros [= <- _].
  - assert (rpn_step (RpnSt w ids sv) (rprint (RLoad x)) =
      match sv !! x with
      | Some y => Some (RpnSt w (y :: ids) sv, true)
      | None => Some (RpnSt w ids sv, false)
      end) as ->.
    { pose proof (paren_load x) as Hp. unfold rpn_step. change (rprint (RLoad x)) with ("load(" +:+ x +:+ ")").
      rewrite Hp. done. }
    destruct (sv !! x); by intros [= <- _].
  - by destruct (Ht x).
Qed.
Lemma rpn_var_step s x : rtok_ok (RVar x) → rpn_step s x =
  let '(w, id) := w_defvar (rs_w s) x in Some (RpnSt (w_drop w id) (id :: rs_stack s) (rs_saved s), true).
Proof.
  cbn [rtok_ok]. intros Hok.
  assert (Hne : ∀ t', (∀ y, t' ≠ RVar y) → String.eqb x (rprint t') = false).
  { intros t' Ht'. apply String.eqb_neq. intros He. symmetry in He. apply Hok in He. by apply Ht' in He. }
  unfold rpn_step.
  pose proof (Hne (RLit false false) ltac:(done)) as E0. cbn [rprint] in E0.
  pose proof (Hne (RLit false true) ltac:(done)) as E1. cbn [rprint] in E1.
  pose proof (Hne (RLit true false) ltac:(done)) as E2. cbn [rprint] in E2.
  pose proof (Hne (RLit true true) ltac:(done)) as E3. cbn [rprint] in E3.
  pose proof (Hne RAnd ltac:(done)) as E4. cbn [rprint] in E4.
  pose proof (Hne ROr ltac:(done)) as E5. cbn [rprint] in E5.
  pose proof (Hne RXor ltac:(done)) as E6. cbn [rprint] in E6.
  pose proof (Hne RNot ltac:(done)) as E7. cbn [rprint] in E7.
  pose proof (Hne RIte ltac:(done)) as E8. cbn [rprint] in E8.
  rewrite E0, E1, E2, E3, E4, E5, E6, E7, E8. cbn [orb].
  destruct (paren_arg "save(" x) as [y|] eqn:Hs'.
  { apply paren_inv in Hs'; [|done|done]. by specialize (Hok (RSave y) (eq_sym Hs')). }
  destruct (paren_arg "load(" x) as [y|] eqn:Hl'.
  { apply paren_inv in Hl'; [|done|done]. by specialize (Hok (RLoad y) (eq_sym Hl')). }
  done.
Qed.
Lemma rpn_step_hdrs H s a t : @rrel base0 H s a → rtok_ok t →
  match reval_step a t with
  | Value a' => ∃ s', rpn_step s (rprint t) = Some (s', true) ∧ @rrel base0 H s' a' ∧ hdrs (rs_w s') = tok_hdrs (hdrs (rs_w s)) t
  | Reported => rpn_step s (rprint t) = Some (s, false)
  | Underflow => rpn_step s (rprint t) = None
  end.
Proof.
  intros Hrel Hok. assert (Hrel' : @rrel (on (rs_w s)) H s a) by (destruct Hrel; constructor; [by apply up_wok|done|done]).
  pose proof (rpn_step_ok H s a t Hrel' Hok) as Hs. pose proof (rpn_step_ok H s a t Hrel Hok) as Hs0.
  destruct (reval_step a t) as [a'| |] eqn:Ea; [|done|done]. destruct Hs as (s' & E & Hr). exists s'. sp; [done|by eapply rrel_down; [|exact Hr]|].
  assert ((∃ x, t = RVar x) ∨ ∀ x, t ≠ RVar x) as [[x ->]|Ht] by (destruct t; [right; done..|left; eauto]).
  - clear Hs0. pose proof (rpn_var_step s x Hok) as Hv. cbn [rprint] in E. rewrite E in Hv. cbn [tok_hdrs].
    destruct Hrel as [Hk _ _]. destruct (defvar_grow _ _ x Hk) as (w' & r & Hd & _ & <-). rewrite Hd in Hv. injection Hv as ->. done.
  - destruct (same_hdrs (rs_w s) H (rs_w s') H) as [_ ->]; [apply Hrel|apply Hr|by eapply rpn_tok_vars|]. destruct t; try done. by destruct (Ht x).
Qed.
Fixpoint toks_hdrs (hs : list header) (a : rstate) (ts : list rtok) : list header :=
  match ts with
  | [] => hs
  | t :: ts => match reval_step a t with Value a' => toks_hdrs (tok_hdrs hs t) a' ts | _ => hs end
  end.
Lemma rpn_loop_hdrs H ts : Forall rtok_ok ts → ∀ s a, @rrel base0 H s a →
  match reval_go a ts with
  | Value a' => ∃ s', rpn_loop s (rprint <$> ts) = Some (s', true) ∧ @rrel base0 H s' a' ∧ hdrs (rs_w s') = toks_hdrs (hdrs (rs_w s)) a ts
  | Reported => ∃ s', rpn_loop s (rprint <$> ts) = Some (s', false) ∧ ok (rs_w s') H ∧ hdrs (rs_w s') = toks_hdrs (hdrs (rs_w s)) a ts
  | Underflow => rpn_loop s (rprint <$> ts) = None
  end.
Proof.
  induction 1 as [|t ts Ht _ IH]; intros s a Hrel.
  - cbn. by exists s.
  - pose proof (rpn_step_hdrs H s a t Hrel Ht) as Hstep. cbn [reval_go fmap list_fmap rpn_loop toks_hdrs].
    destruct (reval_step a t) as [a'| |].
    + destruct Hstep as (s' & -> & Hrel' & <-). cbn [mbind option_bind]. by apply IH.
    + rewrite Hstep. cbn [mbind option_bind]. exists s. sp; [done|by destruct Hrel|done].
    + by rewrite Hstep.
Qed.
Lemma rpn_hdrs w H expr ts : ok w H → Forall rtok_ok ts → separated expr (rprint <$> ts) →
  match reval ts with
  | Value F => ∃ w' r, w_rpn w expr = Some (w', RpnOk r) ∧ ok w' ((r, F) :: H) ∧ hdrs w' = toks_hdrs (hdrs w) ([], ∅) ts
  | Reported => ∃ w', w_rpn w expr = Some (w', RpnErr) ∧ ok w' H ∧ hdrs w' = toks_hdrs (hdrs w) ([], ∅) ts
  | Underflow => w_rpn w expr = None
  end.
Proof.
  intros Hk Hts Hsep. unfold w_rpn. rewrite (separated_split _ _ Hsep). unfold w_rpn_tokens, reval.
  pose proof (rpn_loop_hdrs H ts Hts (RpnSt w [] ∅) ([], ∅)) as Hl.
  assert (@rrel base0 H (RpnSt w [] ∅) ([], ∅)) as Hrel.
  { constructor; [done|constructor|]. intros x. cbn. rewrite !lookup_empty. constructor. }
  specialize (Hl Hrel). cbn [rs_w] in Hl. destruct (reval_go ([], ∅) ts) as [[st sv]| |].
  - destruct Hl as (s' & -> & [Hk' Hs Hv] & Hh). cbn [mbind option_bind fst] in *.
    destruct Hs as [|x F l1 l2 Hx [|x' F' l1' l2' Hx' Hl']].
    + by exists (rs_w s').
    + destruct (wok_wrap (rs_w s') H x F (up_wok _ _ Hk') Hx) as (w' & E & Hk2).
      rewrite E. destruct (same_hdrs (rs_w s') H w' ((x, F) :: H) Hk' Hk2 (wrap_vars _ _ _ _ E)) as [Hk3 Hh3].
      exists w', x. sp; [done|done|]. by rewrite Hh3.
    + by exists (rs_w s').
  - destruct Hl as (s' & -> & Hk' & Hh). by exists (rs_w s').
  - by rewrite Hl.
Qed.

(** ** what a client holds in its slots *)
Fixpoint entries (S : list (option nat)) (G : list (option nfun)) : list (nat * nfun) :=
  match S, G with
  | Some f :: S', Some F :: G' => (f, F) :: entries S' G'
  | _ :: S', _ :: G' => entries S' G'
  | _, _ => []
  end.
Definition shape (S : list (option nat)) (G : list (option nfun)) : Prop := Forall2 (λ s g, is_Some s ↔ is_Some g) S G.
Lemma entries_app S G S' G' : shape S G → entries (S ++ S') (G ++ G') = entries S G ++ entries S' G'.
Proof. induction 1 as [|[f|] [F|] S G [Ha Hb] Hf IH]; cbn; [done|by rewrite IH|..|done]; [|]; by (destruct Ha || destruct Hb); eauto. Qed.
Lemma shape_lookup S G i f : shape S G → slot S i = Some f → ∃ F, G !! i = Some (Some F) ∧ (f, F) ∈ entries S G ∧
  entries S G ≡ₚ (f, F) :: entries (<[i := None]> S) (<[i := None]> G).
Proof.
  unfold slot. intros Hs. revert i. induction Hs as [|s g S G Hsg Hf IH]; intros i; [done|]. destruct i as [|i]; cbn [lookup list_lookup].
  - cbn. intros ->. destruct g as [F|]; [|by destruct (proj1 Hsg)]. exists F. sp; [done|by left|done].
  - intros Hi. destruct (IH i Hi) as (F & HG & Hin & Hp). exists F. split; [done|]. cbn [insert list_insert].
    destruct s as [f'|], g as [F'|]; cbn [entries]; [|by destruct (proj1 Hsg)|by destruct (proj2 Hsg)|done].
    split; [by right|]. rewrite Hp at 1. apply Permutation_swap.
Qed.
Lemma shape_none S G i : shape S G → slot S i = None → ∀ F, G !! i ≠ Some (Some F).
Proof.
  unfold slot. intros Hs. revert i. induction Hs as [|s g S G Hsg Hf IH]; intros i; [done|]. destruct i as [|i]; cbn [lookup list_lookup].
  - cbn. intros -> F [= ->]. pose proof (proj2 Hsg (ex_intro _ F eq_refl)) as [? ?]. done.
  - apply IH.
Qed.
Lemma shape_insert S G i : shape S G → shape (<[i := None]> S) (<[i := None]> G).
Proof. intros Hs. apply Forall2_insert; [done|]. split; by intros [? ?]. Qed.
Lemma shape_snoc S G f F : shape S G → shape (S ++ [Some f]) (G ++ [Some F]).
Proof. intros Hs. apply Forall2_app; [done|]. constructor; [|constructor]. split; eauto. Qed.

Record twin (w1 : bmgr) (S1 : list (option nat)) (w2 : bmgr) (S2 : list (option nat)) (G : list (option nfun)) : Prop := {
  tw_1 : ok w1 (entries S1 G);
  tw_2 : ok w2 (entries S2 G);
  tw_h : hdrs w1 = hdrs w2;
  tw_s1 : shape S1 G;
  tw_s2 : shape S2 G;
}.

Section prog.
Context {R : Type} (rO rI : R) (radd rmul rsub : R → R → R).
Local Notation do := (do rO rI radd rmul rsub).
Local Notation go := (go rO rI radd rmul rsub).
Definition tw (p q : bmgr * list (option nat) * ans R) : Prop := (∃ G, twin p.1.1 p.1.2 q.1.1 q.1.2 G) ∧ p.2 = q.2.

Section step.
Context w1 S1 w2 S2 G (T : twin w1 S1 w2 S2 G).
Definition both f1 f2 : Prop := ∃ F, (f1, F) ∈ entries S1 G ∧ (f2, F) ∈ entries S2 G.
Lemma slot_tw i : osim both (slot S1 i) (slot S2 i).
Proof.
  destruct (slot S1 i) as [f1|] eqn:E1, (slot S2 i) as [f2|] eqn:E2; [| | |constructor].
  - destruct (shape_lookup _ _ _ _ (tw_s1 _ _ _ _ _ T) E1) as (F & HF & H1 & _). destruct (shape_lookup _ _ _ _ (tw_s2 _ _ _ _ _ T) E2) as (F' & HF' & H2 & _).
    rewrite HF in HF'. injection HF' as <-. constructor. by exists F.
  - destruct (shape_lookup _ _ _ _ (tw_s1 _ _ _ _ _ T) E1) as (F & HF & _). by apply (shape_none _ _ _ (tw_s2 _ _ _ _ _ T) E2) in HF.
  - destruct (shape_lookup _ _ _ _ (tw_s2 _ _ _ _ _ T) E2) as (F & HF & _). by apply (shape_none _ _ _ (tw_s1 _ _ _ _ _ T) E1) in HF.
Qed.
Definition boths fs1 fs2 : Prop := ∃ L1 L2 : list (nat * nfun), fs1 = L1.*1 ∧ fs2 = L2.*1 ∧ L1.*2 = L2.*2 ∧
  (∀ x, x ∈ L1 → x ∈ entries S1 G) ∧ (∀ x, x ∈ L2 → x ∈ entries S2 G).
Lemma slots_tw l : osim boths (slots S1 l) (slots S2 l).
Proof.
  unfold slots. induction l as [|i l IH]; cbn [mapM]; [constructor; exists [], []; sp; try done; by intros ? ?%elem_of_nil|].
  eapply osim_bind; [apply slot_tw|]. intros f1 f2 (F & H1 & H2). eapply osim_bind; [exact IH|].
  intros ? ? (L1 & L2 & -> & -> & E & HL1 & HL2). constructor. exists ((f1, F) :: L1), ((f2, F) :: L2). sp; [done|done|cbn; by f_equal| |].
  - intros x [->|Hx]%elem_of_cons; auto.
  - intros x [->|Hx]%elem_of_cons; auto.
Qed.

Lemma both_iso f1 f2 : both f1 f2 → iso (b_ar (w_bdd w1)) (b_ar (w_bdd w2)) f1 f2.
Proof.
  intros (F & H1 & H2). eapply (fun_iso w1 w2 _ _ (tw_1 _ _ _ _ _ T) (tw_2 _ _ _ _ _ T) (tw_h _ _ _ _ _ T) _ _ F).
  - by apply (wk_held _ _ (tw_1 _ _ _ _ _ T)).
  - by apply (wk_held _ _ (tw_2 _ _ _ _ _ T)).
Qed.

(** a call that gives one handle *)
Lemma give_tw F o1 o2 w1' r1 w2' r2 : o1 = Some (w1', r1) → ok w1' ((r1, F) :: entries S1 G) → o2 = Some (w2', r2) → ok w2' ((r2, F) :: entries S2 G) →
  hdrs w1' = hdrs w2' → osim tw (give S1 o1) (give S2 o2).
Proof.
  intros -> K1 -> K2 Hh. constructor. split; [|done]. exists (G ++ [Some F]). constructor; cbn [fst snd].
  - rewrite entries_app by apply T. eapply wok_perm; [exact K1|]. cbn. by rewrite Permutation_app_comm.
  - rewrite entries_app by apply T. eapply wok_perm; [exact K2|]. cbn. by rewrite Permutation_app_comm.
  - done.
  - apply shape_snoc, T.
  - apply shape_snoc, T.
Qed.
Lemma op_tw F o1 o2 :
  (∃ w' r, o1 = Some (w', r) ∧ @wok (on w1) w' ((r, F) :: entries S1 G)) →
  (∃ w' r, o2 = Some (w', r) ∧ @wok (on w2) w' ((r, F) :: entries S2 G)) →
  (∀ w' r, o1 = Some (w', r) → w_vars w' = w_vars w1) → (∀ w' r, o2 = Some (w', r) → w_vars w' = w_vars w2) →
  osim tw (give S1 o1) (give S2 o2).
Proof.
  intros (w1' & r1 & E1 & K1) (w2' & r2 & E2 & K2) V1 V2.
  destruct (same_hdrs _ _ _ _ (tw_1 _ _ _ _ _ T) K1 (V1 _ _ E1)) as [K1' Hh1].
  destruct (same_hdrs _ _ _ _ (tw_2 _ _ _ _ _ T) K2 (V2 _ _ E2)) as [K2' Hh2].
  apply (give_tw F _ _ w1' r1 w2' r2); try done. rewrite Hh1, Hh2. apply T.
Qed.
Local Notation U1 := (up_wok _ _ (tw_1 _ _ _ _ _ T)).
Local Notation U2 := (up_wok _ _ (tw_2 _ _ _ _ _ T)).

Lemma tell_tw a1 a2 : a1 = a2 → osim tw (tell w1 S1 a1) (tell w2 S2 a2).
Proof. intros ->. destruct a2 as [a|]; cbn; [|constructor]. constructor. split; [|done]. by exists G. Qed.

Lemma free_tw i : osim tw (do w1 S1 (CFree i)) (do w2 S2 (CFree i)).
Proof.
  cbn [SpecTrans.do]. pose proof (slot_tw i) as Hs. destruct (slot S1 i) as [f1|] eqn:E1, (slot S2 i) as [f2|] eqn:E2; try (by inversion Hs); [|constructor].
  cbn [mbind option_bind]. constructor. split; [|done]. exists (<[i := None]> G). cbn [fst snd].
  destruct (shape_lookup _ _ _ _ (tw_s1 _ _ _ _ _ T) E1) as (F1 & _ & _ & P1). destruct (shape_lookup _ _ _ _ (tw_s2 _ _ _ _ _ T) E2) as (F2 & _ & _ & P2).
  constructor; [by eapply wok_drop; [apply T|]|by eapply wok_drop; [apply T|]|apply T|apply shape_insert, T|apply shape_insert, T].
Qed.

Lemma do_tw c : ¬ housekeeping c → osim tw (do w1 S1 c) (do w2 S2 c).
Proof.
  pose proof (tw_1 _ _ _ _ _ T) as K1. pose proof (tw_2 _ _ _ _ _ T) as K2. pose proof (tw_h _ _ _ _ _ T) as HH.
  intros Hc. destruct c as [x|b|i|o i j|i j k|l|l|k l|i|i|i|i|e|i j|t i|ss i|pv ss i|pv ss i|n ss i|i|i|i| |keep|t| ]; cbn [do];
    try (by destruct Hc); try apply (free_tw i); try (eapply osim_bind; [apply slot_tw|]; intros f1 f2 Hf; pose proof (both_iso _ _ Hf) as Hi).
  - destruct (defvar_grow w1 _ x K1) as (w1' & r1 & E1 & K1' & Hh1). destruct (defvar_grow w2 _ x K2) as (w2' & r2 & E2 & K2' & Hh2).
    eapply (give_tw _ _ _ w1' r1 w2' r2); [by rewrite E1|exact K1'|by rewrite E2|exact K2'|]. by rewrite Hh1, Hh2, HH.
  - apply (op_tw (λ _, b)).
    + destruct b; [apply (w_one_ok _ _ U1)|apply (w_zero_ok _ _ U1)].
    + destruct b; [apply (w_one_ok _ _ U2)|apply (w_zero_ok _ _ U2)].
    + intros w' r. destruct b; apply wrap_vars.
    + intros w' r. destruct b; apply wrap_vars.
  - destruct Hf as (F & H1 & H2). eapply op_tw; [exact (w_not_ok _ _ U1 f1 F H1)|exact (w_not_ok _ _ U2 f2 F H2)|intros ? ?; apply op_vars..].
  - eapply osim_bind; [apply slot_tw|]. intros g1 g2 Hg. destruct Hf as (F & H1 & H2), Hg as (F' & H1' & H2').
    eapply op_tw; [exact (w_bin_ok _ _ U1 o f1 F g1 F' H1 H1')|exact (w_bin_ok _ _ U2 o f2 F g2 F' H2 H2')|intros ? ?; destruct o; apply op_vars..].
  - eapply osim_bind; [apply slot_tw|]. intros g1 g2 Hg. eapply osim_bind; [apply slot_tw|]. intros h1 h2 Hh.
    destruct Hf as (F & H1 & H2), Hg as (F' & H1' & H2'), Hh as (F'' & H1'' & H2'').
    eapply op_tw; [exact (w_ite_ok _ _ U1 _ _ _ _ _ _ H1 H1' H1'')|exact (w_ite_ok _ _ U2 _ _ _ _ _ _ H2 H2' H2'')|intros ? ?; apply op_vars..].
  - eapply osim_bind; [apply slots_tw|]. intros ? ? (L1 & L2 & -> & -> & E & HL1 & HL2).
    destruct (w_and_list_ok _ _ U1 L1 HL1) as (w1' & r1 & E1 & P1). destruct (w_and_list_ok _ _ U2 L2 HL2) as (w2' & r2 & E2 & P2).
    apply (op_tw (λ e, forallb (λ F : nfun, F e) L1.*2)); [exists w1', r1|exists w2', r2|intros ? ?; apply op_vars..].
    + split; [done|]. eapply wok_ext; [exact P1|]. intros e. clear. induction L1 as [|x L IH]; cbn; [done|by rewrite <- IH].
    + split; [done|]. eapply wok_ext; [exact P2|]. intros e. rewrite E. clear. induction L2 as [|x L IH]; cbn; [done|by rewrite <- IH].
  - eapply osim_bind; [apply slots_tw|]. intros ? ? (L1 & L2 & -> & -> & E & HL1 & HL2).
    destruct (w_or_list_ok _ _ U1 L1 HL1) as (w1' & r1 & E1 & P1). destruct (w_or_list_ok _ _ U2 L2 HL2) as (w2' & r2 & E2 & P2).
    apply (op_tw (λ e, existsb (λ F : nfun, F e) L1.*2)); [exists w1', r1|exists w2', r2|intros ? ?; apply op_vars..].
    + split; [done|]. eapply wok_ext; [exact P1|]. intros e. clear. induction L1 as [|x L IH]; cbn; [done|by rewrite <- IH].
    + split; [done|]. eapply wok_ext; [exact P2|]. intros e. rewrite E. clear. induction L2 as [|x L IH]; cbn; [done|by rewrite <- IH].
  - eapply osim_bind; [apply slots_tw|]. intros ? ? (L1 & L2 & -> & -> & E & HL1 & HL2).
    destruct (w_kofn_ok _ _ U1 k L1 HL1) as (w1' & r1 & E1 & P1). destruct (w_kofn_ok _ _ U2 k L2 HL2) as (w2' & r2 & E2 & P2).
    assert (HF : ∀ (L : list (nat * nfun)) e, length (filter (λ x : nat * nfun, x.2 e = true) L) = length (filter (λ F : nfun, F e = true) L.*2)).
    { intros L e. clear. induction L as [|x L IH]; [done|]. rewrite fmap_cons, !filter_cons. destruct (decide (x.2 e = true)); cbn; by rewrite IH. }
    apply (op_tw (λ e, k <=? length (filter (λ F : nfun, F e = true) L1.*2))); [exists w1', r1|exists w2', r2|intros ? ?; apply op_vars..].
    + split; [done|]. eapply wok_ext; [exact P1|]. intros e. cbn beta. by rewrite HF.
    + split; [done|]. eapply wok_ext; [exact P2|]. intros e. cbn beta. by rewrite HF, E.
  - destruct Hf as (F & H1 & H2). eapply op_tw; [exact (w_dual_ok _ _ U1 f1 F H1)|exact (w_dual_ok _ _ U2 f2 F H2)|intros ? ?; apply op_vars..].
  - destruct Hf as (F & H1 & H2). pose proof (q_label w1 w2 _ _ K1 K2 f1 f2 Hi) as Hlab.
    destruct (w_children_ok w1 _ f1 F U1 H1) as [[C1 L1]|(w1' & a0 & a1 & x1 & C1 & L1 & P1)];
      destruct (w_children_ok w2 _ f2 F U2 H2) as [[C2 L2]|(w2' & b0 & b1 & x2 & C2 & L2 & P2)]; [|congruence|congruence|].
    + rewrite C1, C2. cbn [mbind option_bind]. constructor. split; [|done]. exists (G ++ [None; None]). cbn [fst snd].
      assert (HN : ∀ S, shape S G → shape (S ++ [None; None]) (G ++ [None; None])).
      { intros S HS. apply Forall2_app; [done|]. repeat constructor; by intros [? ?]. }
      constructor; [rewrite entries_app, app_nil_r by apply T; done..|done|apply HN, T|apply HN, T].
    + assert (x1 = x2) as <- by congruence.
      assert (HV : ∀ w f w' o, w_children w f = Some (w', o) → w_vars w' = w_vars w).
      { intros w f w' o. unfold w_children. destruct (ar_nodes _ !! f) as [[t|h cs]|]; [by intros [= <- _]| |done]. cbn [mbind option_bind].
        destruct (edges2 cs) as [[??]|]; [|done]. by intros [= <- _]. }
      destruct (same_hdrs _ _ _ _ K1 P1 (HV _ _ _ _ C1)) as [P1' Hh1]. destruct (same_hdrs _ _ _ _ K2 P2 (HV _ _ _ _ C2)) as [P2' Hh2].
      rewrite C1, C2. cbn [mbind option_bind]. constructor. split; [|done].
      exists (G ++ [Some (λ e, F (env_set e x1 false)); Some (λ e, F (env_set e x1 true))]). cbn [fst snd].
      assert (HN : ∀ S f g F F', shape S G → shape (S ++ [Some f; Some g]) (G ++ [Some F; Some F'])).
      { intros S f g F0 F' HS. apply Forall2_app; [done|]. repeat constructor; eauto. }
      constructor; [| |by rewrite Hh1, Hh2|apply HN, T|apply HN, T].
      * rewrite entries_app by apply T. eapply wok_perm; [exact P1'|]. cbn [entries]. rewrite (Permutation_app_comm (entries S1 G)). done.
      * rewrite entries_app by apply T. eapply wok_perm; [exact P2'|]. cbn [entries]. rewrite (Permutation_app_comm (entries S2 G)). done.
  - destruct Hf as (F & H1 & H2). apply (give_tw F (Some (w_clone w1 f1, f1)) (Some (w_clone w2 f2, f2)) (w_clone w1 f1) f1 (w_clone w2 f2) f2); try done.
    + apply wok_pin; [done|]. by apply (wk_held _ _ K1).
    + apply wok_pin; [done|]. by apply (wk_held _ _ K2).
  - destruct (expr_tokens e) as (ts & Hts & Hsep). pose proof (rpn_hdrs w1 _ e ts K1 Hts Hsep) as P1. pose proof (rpn_hdrs w2 _ e ts K2 Hts Hsep) as P2.
    destruct (reval ts) as [F| |].
    + destruct P1 as (w1' & r1 & E1 & K1' & Hh1), P2 as (w2' & r2 & E2 & K2' & Hh2). rewrite E1, E2. cbn [mbind option_bind].
      pose proof (give_tw F _ _ w1' r1 w2' r2 eq_refl K1' eq_refl K2' ltac:(by rewrite Hh1, Hh2, HH)) as HG. cbn in HG.
      inversion HG as [? ? [HT _]|]; subst. constructor. by split.
    + destruct P1 as (w1' & E1 & K1' & Hh1), P2 as (w2' & E2 & K2' & Hh2). rewrite E1, E2. cbn [mbind option_bind].
      constructor. split; [|done]. exists (G ++ [None]). cbn [fst snd].
      assert (HN : ∀ S, shape S G → shape (S ++ [None]) (G ++ [None])).
      { intros S HS. apply Forall2_app; [done|]. repeat constructor; by intros [? ?]. }
      constructor; [rewrite entries_app, app_nil_r by apply T; done..|by rewrite Hh1, Hh2, HH|apply HN, T|apply HN, T].
    + rewrite P1, P2. constructor.
  - eapply osim_bind; [apply slot_tw|]. intros g1 g2 Hg. apply tell_tw. do 2 f_equal. destruct Hf as (F & H1 & H2), Hg as (F' & H1' & H2').
    unfold w_eq. apply eq_iff_eq_true. rewrite !Nat.eqb_eq.
    rewrite (denotes_eq w1 _ f1 F g1 F' K1) by (by apply (wk_held _ _ K1)). rewrite (denotes_eq w2 _ f2 F g2 F' K2) by (by apply (wk_held _ _ K2)). done.
  - apply tell_tw. f_equal. exact (q_is w1 w2 _ _ K1 K2 f1 f2 Hi t).
  - apply tell_tw. f_equal. exact (q_count w1 w2 _ _ K1 K2 HH f1 f2 Hi ss).
  - apply tell_tw. f_equal. exact (q_prob w1 w2 _ _ K1 K2 HH rO rI radd rmul rsub f1 f2 Hi pv ss).
  - apply tell_tw. f_equal. exact (q_meas w1 w2 _ _ K1 K2 HH rO rI radd rmul rsub f1 f2 Hi pv ss).
  - apply tell_tw. f_equal. exact (q_paths w1 w2 _ _ K1 K2 HH f1 f2 Hi n ss).
  - apply tell_tw. f_equal. exact (q_size w1 w2 _ _ K1 K2 HH f1 f2 Hi).
  - apply tell_tw. do 2 f_equal. exact (q_label w1 w2 _ _ K1 K2 f1 f2 Hi).
  - apply tell_tw. do 2 f_equal. exact (q_level w1 w2 _ _ K1 K2 f1 f2 Hi).
  - apply tell_tw. f_equal. exact (q_order w1 w2 _ _ K1 K2 HH).
Qed.

Lemma house_tw c : housekeeping c → ∃ w1', do w1 S1 c = Some (w1', S1, Done) ∧ twin w1' S1 w2 S2 G.
Proof.
  pose proof (tw_1 _ _ _ _ _ T) as K1.
  assert (HT : ∀ w', @wok (on w1) w' (entries S1 G) → w_vars w' = w_vars w1 → twin w' S1 w2 S2 G).
  { intros w' K Hv. destruct (same_hdrs _ _ _ _ K1 K Hv) as [K' Hh]. constructor; [done|apply T|rewrite Hh; apply T|apply T|apply T]. }
  destruct c as [x|b|i|o i j|i j k|l|l|k l|i|i|i|i|e|i j|t i|ss i|pv ss i|pv ss i|n ss i|i|i|i| |keep|t| ]; intros Hc; try (by destruct Hc); cbn [SpecTrans.do].
  - destruct (w_gc_ok _ _ U1 (omap (slot S1) keep)) as (w' & n & E & Hk).
    { apply Forall_forall. intros f (i & _ & Hi)%elem_of_list_omap. destruct (shape_lookup _ _ _ _ (tw_s1 _ _ _ _ _ T) Hi) as (F & _ & Hin & _).
      apply elem_of_list_fmap. by exists (f, F). }
    rewrite E. cbn [mbind option_bind]. exists w'. split; [done|]. apply HT; [done|].
    unfold w_gc in E. destruct (bdd_gc _ _) as [[b ?]|]; [|done]. by injection E as <- _.
  - eexists. split; [done|]. apply HT; [|done]. apply (wok_params _ _ t t U1).
  - eexists. split; [done|]. apply HT; [|done]. apply (w_clear_ok _ _ U1).
Qed.
End step.

Lemma go_tw p : ∀ w1 S1 w2 S2 G, twin w1 S1 w2 S2 G → go w1 S1 p = go w2 S2 (no_housekeeping p).
Proof.
  induction p as [|c p IH]; intros w1 S1 w2 S2 G T; [done|]. cbn [SpecTrans.go]. unfold no_housekeeping. rewrite filter_cons.
  destruct (decide (housekeeping c)) as [Hc|Hc].
  - rewrite decide_False by tauto. destruct (house_tw _ _ _ _ _ T c Hc) as (w1' & -> & T'). cbn [mbind option_bind].
    rewrite (IH _ _ _ _ _ T'). fold (no_housekeeping p). by destruct (go w2 S2 _).
  - rewrite decide_True by done. cbn [SpecTrans.go]. fold (no_housekeeping p).
    pose proof (do_tw _ _ _ _ _ T c Hc) as Hd. destruct Hd as [[[w1' S1'] a1] [[w2' S2'] a2] [[G' T'] Ha]|]; [|done]. cbn in T', Ha. subst a2.
    cbn [mbind option_bind]. rewrite (IH _ _ _ _ _ T'). destruct (go _ _ _); [|done]. cbn [mbind option_bind]. by rewrite decide_False.
Qed.
Lemma answers_l p : answers rO rI radd rmul rsub p = answers rO rI radd rmul rsub (no_housekeeping p).
Proof. apply (go_tw p _ _ _ _ []). constructor; [apply new_wok|apply new_wok|done|constructor|constructor]. Qed.
Lemma go_prefix p q : ∀ w S l, go w S (p ++ q) = Some l →
  ∃ l1 l2, l = l1 ++ l2 ∧ go w S p = Some l1 ∧ length l1 = length (no_housekeeping p).
Proof.
  induction p as [|c p IH]; intros w S l Hl; [by exists [], l|]. cbn [app SpecTrans.go] in *. unfold no_housekeeping. rewrite filter_cons. fold (no_housekeeping p).
  destruct (do w S c) as [[[w' S'] a]|]; [|done]. cbn [mbind option_bind] in *.
  destruct (go w' S' (p ++ q)) as [l'|] eqn:El; [|done]. cbn [mbind option_bind] in *. destruct (IH _ _ _ El) as (l1 & l2 & -> & E1 & Hlen).
  rewrite E1. cbn [mbind option_bind]. injection Hl as <-. destruct (decide (housekeeping c)) as [Hc|Hc].
  - rewrite decide_False by tauto. by exists l1, l2.
  - rewrite decide_True by done. exists (a :: l1), l2. sp; [done|done|]. cbn. by f_equal.
Qed.
Lemma answers_prefix p q l : answers rO rI radd rmul rsub (p ++ q) = Some l →
  ∃ l1 l2, l = l1 ++ l2 ∧ answers rO rI radd rmul rsub (no_housekeeping p) = Some l1 ∧ length l1 = length (no_housekeeping p).
Proof. intros (l1 & l2 & -> & E & Hl)%go_prefix. exists l1, l2. sp; [done| |done]. rewrite <- E. symmetry. apply answers_l. Qed.
End prog.
