(** A caught panic leaves a BddMgr as if nothing had happened. *)
From stdpp Require Import strings.
From Verif Require Import Prelude ComputeCache Arena Trees ArenaProofs ArenaMore Keeps Bdd BddProofs SpecBdd SpecBss BddMain BssAlg BssMeas BssMgr BssLook SpecBssMgr BssMgrProofs BssMgrMain BssLookProofs Iso SpecTrans Trans PanicB.

Local Notation hdrs w := (ar_headers (b_ar (w_bdd w))).
Local Notation ok := (@wok base0).

Lemma known_hdrs w H x : ok w H → is_Some (w_vars w !! x) ↔ x ∈ h_label <$> hdrs w.
Proof.
  intros Hk. split.
  - intros [id Hid]. destruct (wk_var _ _ Hk _ _ Hid) as (_ & i & hd & Hi & <- & _). apply elem_of_list_fmap. exists hd. split; [done|]. by eapply elem_of_list_lookup_2.
  - intros (hd & -> & [i Hi]%elem_of_list_lookup)%elem_of_list_fmap. by apply (wk_lab _ _ Hk) in Hi.
Qed.
Lemma if_known {A} w H x (a b : A) : ok w H → (if w_vars w !! x then a else b) = if decide (x ∈ h_label <$> hdrs w) then a else b.
Proof.
  intros Hk. pose proof (known_hdrs w H x Hk) as HK. destruct (w_vars w !! x); [rewrite decide_True; [done|apply HK; by eexists]|].
  rewrite decide_False; [done|]. intros [? ?]%HK. done.
Qed.
Lemma grow_in hs x : x ∈ h_label <$> grow hs x.
Proof. unfold grow. destruct (decide _) as [Hx|Hx]; [done|]. rewrite fmap_app. apply elem_of_app. right. by left. Qed.
Lemma grow_old hs x : x ∈ h_label <$> hs → grow hs x = hs.
Proof. intros Hx. unfold grow. by rewrite decide_True. Qed.
Lemma define1 w H x : ok w H → ok (bdefine w [x]) H ∧ hdrs (bdefine w [x]) = grow (hdrs w) x.
Proof.
  intros Hk. destruct (defvar_grow w H x Hk) as (w' & r & E & Hk' & Hh). cbn [bdefine foldl]. rewrite E. split; [by eapply wok_drop|exact Hh].
Qed.
(** one token: the known variable it is, if any, is the one that may be new *)
Lemma tok_known H s a t a' s' : @rrel base0 H s a → rtok_ok t → reval_step a t = Value a' → rpn_step s (rprint t) = Some (s', true) → @rrel base0 H s' a' ∧
  hdrs (rs_w s') = if decide (rprint t ∈ h_label <$> hdrs (rs_w s')) then grow (hdrs (rs_w s)) (rprint t) else hdrs (rs_w s).
Proof.
  intros Hr Ht Ea E. pose proof (rpn_step_hdrs H s a t Hr Ht) as Hs. rewrite Ea in Hs. destruct Hs as (s1 & E1 & Hr' & Hh). rewrite E in E1. injection E1 as <-.
  split; [done|]. rewrite Hh. destruct t; cbn [tok_hdrs rprint]; try (destruct (decide _) as [Hx|Hx]; [by rewrite grow_old|done]).
  rewrite decide_True; [done|apply grow_in].
Qed.

Section twin.
Context (S1 S2 : list (option nat)) (G : list (option nfun)).
Lemma brpn_tw ts : Forall rtok_ok ts → ∀ s a v w', @rrel base0 (entries S1 G) s a → twin (rs_w s) S1 v S2 G →
  brpn_panic s (rprint <$> ts) = Some w' → twin w' S1 (bdefine v (bseen s (rprint <$> ts))) S2 G.
Proof.
  induction 1 as [|t ts Ht _ IH]; intros s a v w' Hr T; [done|]. cbn [fmap list_fmap brpn_panic bseen].
  pose proof (rpn_step_hdrs _ s a t Hr Ht) as Hs. destruct (reval_step a t) as [a'| |] eqn:Ea.
  - destruct Hs as (s' & E & _). rewrite E. destruct (tok_known _ _ _ _ _ _ Hr Ht Ea E) as [Hr' Hh]. pose proof (rr_wok _ _ _ Hr') as Hk'.
    rewrite (if_known _ _ _ _ _ Hk'). destruct T as [K1 K2 HH H1 H2]. destruct (decide _) as [Hx|Hx].
    + destruct (define1 v _ (rprint t) K2) as [K2' Hh2]. change (bdefine v ([rprint t] ++ ?l)) with (bdefine (bdefine v [rprint t]) l).
      apply (IH s' a'); [done|]. constructor; try done. by rewrite Hh, Hh2, HH.
    + apply (IH s' a'); [done|]. constructor; try done. by rewrite Hh.
  - by rewrite Hs.
  - rewrite Hs. intros [= <-]. exact T.
Qed.
Lemma bseen_same H1 H2 ts : Forall rtok_ok ts → ∀ s1 s2 a, @rrel base0 H1 s1 a → @rrel base0 H2 s2 a → hdrs (rs_w s1) = hdrs (rs_w s2) →
  bseen s1 (rprint <$> ts) = bseen s2 (rprint <$> ts).
Proof.
  induction 1 as [|t ts Ht _ IH]; intros s1 s2 a R1 R2 HH; [done|]. cbn [fmap list_fmap bseen].
  pose proof (rpn_step_hdrs _ s1 a t R1 Ht) as Q1. pose proof (rpn_step_hdrs _ s2 a t R2 Ht) as Q2. destruct (reval_step a t) as [a'| |].
  - destruct Q1 as (s1' & -> & R1' & Hh1), Q2 as (s2' & -> & R2' & Hh2). assert (HH' : hdrs (rs_w s1') = hdrs (rs_w s2')) by by rewrite Hh1, Hh2, HH.
    rewrite (if_known _ _ _ _ _ (rr_wok _ _ _ R1')), (if_known _ _ _ _ _ (rr_wok _ _ _ R2')), HH'. f_equal. by apply (IH s1' s2' a').
  - by rewrite Q1, Q2.
  - by rewrite Q1, Q2.
Qed.
End twin.
Lemma bloop_panic ts : ∀ s, rpn_loop s ts = None → is_Some (brpn_panic s ts).
Proof.
  induction ts as [|t ts IH]; intros s; [done|]. cbn [rpn_loop brpn_panic]. destruct (rpn_step s t) as [[s' []]|]; cbn; [apply IH|done|by eexists].
Qed.
Lemma btwin_sym w1 S1 w2 S2 G : twin w1 S1 w2 S2 G → twin w2 S2 w1 S1 G.
Proof. by intros [? ? ? ? ?]. Qed.

Section prog.
Context {R : Type} (rO rI : R) (radd rmul rsub : R → R → R).
Local Notation do := (do rO rI radd rmul rsub).
Local Notation bcaught := (bcaught rO rI radd rmul rsub).
Local Notation bideal := (bideal rO rI radd rmul rsub).
Lemma bdo_both w1 S1 w2 S2 G c : twin w1 S1 w2 S2 G → osim tw (do w1 S1 c) (do w2 S2 c).
Proof.
  intros T. destruct (decide (housekeeping c)) as [Hc|Hc]; [|by eapply do_tw].
  destruct (house_tw rO rI radd rmul rsub _ _ _ _ _ T c Hc) as (w1' & E1 & T1).
  destruct (house_tw rO rI radd rmul rsub _ _ _ _ _ (btwin_sym _ _ _ _ _ T1) c Hc) as (w2' & E2 & T2). rewrite E1, E2. constructor. split; [|done]. exists G. by apply btwin_sym.
Qed.
Definition bst2 (p q : bmgr * list (option nat) * option (ans R)) : Prop := (∃ G, twin p.1.1 p.1.2 q.1.1 q.1.2 G) ∧ p.2 = q.2.
Lemma bstep_tw w1 S1 w2 S2 G c : twin w1 S1 w2 S2 G → osim bst2 (bcaught w1 S1 c) (bideal w2 S2 c).
Proof.
  intros T. unfold PanicB.bcaught, PanicB.bideal, b_panic. pose proof (bdo_both _ _ _ _ _ c T) as Hd.
  destruct (do w1 S1 c) as [[[v1 T1] a1]|] eqn:E1.
  { inversion Hd as [? [[v2 T2] a2] [T' Ha]|]; subst. cbn in Ha, T'. subst. constructor. by split. }
  inversion Hd; subst. pose proof (slots_tw _ _ _ _ _ T (bused c)) as HL. destruct HL as [l1 l2 _|]; [|constructor]. cbn [mbind option_bind].
  destruct c as [| | | | | | | | | | | |e| | | | | | | | | | | | | ]; try (constructor; split; [by exists G|done]).
  destruct T as [K1 K2 HH H1 H2] eqn:ET. clear ET. destruct (expr_tokens e) as (ts & Hts & Hsep). rewrite (separated_split _ _ Hsep).
  assert (Rel : ∀ w H, ok w H → @rrel base0 H (RpnSt w [] ∅) ([], ∅)).
  { intros w H0 Hk. constructor; [done|constructor|]. intros x. cbn. rewrite !lookup_empty. constructor. }
  assert (Hp : is_Some (brpn_panic (RpnSt w1 [] ∅) (rprint <$> ts))).
  { apply bloop_panic. pose proof (rpn_loop_hdrs _ ts Hts (RpnSt w1 [] ∅) ([], ∅) (Rel _ _ K1)) as HLp.
    pose proof (rpn_hdrs w1 _ e ts K1 Hts Hsep) as HR. unfold reval in HR. cbn [SpecTrans.do] in E1.
    destruct (reval_go ([], ∅) ts) as [[[|F [|? ?]] sv]| |]; [..|done].
    all: exfalso; cbn in HR.
    - destruct HR as (w' & E & _). by rewrite E in E1.
    - destruct HR as (w' & r & E & _). by rewrite E in E1.
    - destruct HR as (w' & E & _). by rewrite E in E1.
    - destruct HR as (w' & E & _). by rewrite E in E1. }
  destruct Hp as [w' Hp]. rewrite Hp. cbn [mbind option_bind].
  rewrite <- (bseen_same _ _ ts Hts _ _ ([], ∅) (Rel _ _ K1) (Rel _ _ K2) HH). constructor. split; [|done]. exists G. cbn [fst snd].
  eapply brpn_tw; [done|by apply Rel| |exact Hp]. by constructor.
Qed.
Lemma brun_tw p : ∀ w1 S1 w2 S2 G, twin w1 S1 w2 S2 G → brun bcaught w1 S1 p = brun bideal w2 S2 p.
Proof.
  induction p as [|c p IH]; intros w1 S1 w2 S2 G T; [done|]. cbn [brun].
  pose proof (bstep_tw _ _ _ _ _ c T) as Hs. destruct Hs as [[[v1 T1] a1] [[v2 T2] a2] [[G' T'] Ha]|]; [|done]. cbn in Ha, T'. subst. cbn [mbind option_bind].
  by rewrite (IH _ _ _ _ _ T').
Qed.
Lemma bcaught_ideal p : brun bcaught w_new [] p = brun bideal w_new [] p.
Proof. apply (brun_tw p w_new [] w_new [] []). constructor; [apply new_wok|apply new_wok|done|constructor|constructor]. Qed.
End prog.
