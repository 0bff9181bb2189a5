(** Two runs of a ZddMgr client program that differ in housekeeping only stay in step. *)
From stdpp Require Import strings.
From Verif Require Import Prelude ComputeCache Arena Trees ArenaProofs ArenaMore Bdd BddProofs BssAlg BssMgr BssMgrProofs Iso SpecTrans Zdd ZddTrees ZddProofs SpecZdd
  ZddMain ZddAlg ZddMgr ZddLook ZddDet SpecTransZ.

Local Notation hdrs w := (ar_headers (z_ar (y_zdd w))).
Record yok (w : zmgr) (E : list (nat * dd tv)) : Prop := {
  yk_x : zx (y_zdd w);
  yk_vars : ∀ x h, y_vars w !! x = Some h → is_Some (hdrs w !! h);
  yk_roots : ∃ l, y_roots w = roots_of l ∧ l ≡ₚ E.*1;
  yk_held : ∀ f d, (f, d) ∈ E → repr (z_ar (y_zdd w)) d f;
}.
Definition agree (w1 w2 : zmgr) : Prop := hdrs w1 = hdrs w2 ∧ y_vars w1 = y_vars w2.
Lemma agree_sym w1 w2 : agree w1 w2 → agree w2 w1.
Proof. unfold agree. by intros [-> ->]. Qed.
Lemma agree_trans w1 w2 w3 : agree w1 w2 → agree w2 w3 → agree w1 w3.
Proof. unfold agree. intros [-> ->] [-> ->]. done. Qed.
Lemma yk_good w E : yok w E → zgood (z_ar (y_zdd w)).
Proof. intros Hk. apply Hk. Qed.

Lemma yok_new : yok y_new [].
Proof.
  constructor; cbn; [apply zx_new|intros x h; by rewrite lookup_empty|by exists []|intros f d H; by apply elem_of_nil in H].
Qed.
Lemma yok_pin w E f d : yok w E → repr (z_ar (y_zdd w)) d f → yok (y_pin w f) ((f, d) :: E).
Proof.
  intros [H1 H2 [l [Hr Hp]] H4] Hd. constructor; cbn [y_pin y_zdd y_roots y_vars]; try done.
  - exists (f :: l). split; [by rewrite Hr|]. cbn. by rewrite Hp.
  - intros g e [Hg|Hg]%elem_of_cons; [|by apply H4]. by injection Hg as -> ->.
Qed.
Lemma yok_perm w E E' : yok w E → E ≡ₚ E' → yok w E'.
Proof.
  intros [H1 H2 [l [Hr Hp]] H4] He. constructor; try done; [exists l; by rewrite <- He|]. intros f d. rewrite <- He. apply H4.
Qed.
Lemma yok_drop w E f d E' : yok w E → E ≡ₚ (f, d) :: E' → yok (y_drop w f) E'.
Proof.
  intros Hk Hd. apply (yok_perm _ _ _ Hk) in Hd. clear Hk. destruct Hd as [H1 H2 [l [Hr Hp]] H4].
  constructor; cbn [y_drop y_zdd y_roots y_vars]; try done.
  - exists E'.*1. split; [|done]. rewrite Hr, (roots_perm l (f :: E'.*1)); [apply unpin_pin|done].
  - intros g e Hg. apply H4. by right.
Qed.
Lemma yok_step w E z : yok w E → zx z → ext (z_ar (y_zdd w)) (z_ar z) → ar_headers (z_ar z) = hdrs w → yok (with_zdd w z) E.
Proof.
  intros [H1 H2 H3 H4] Hz He Hh. constructor; cbn [with_zdd y_zdd y_roots y_vars]; try done; [by rewrite Hh|]. intros f d Hf. eapply repr_mono; [done|]. by apply H4.
Qed.
Lemma yok_wrap w E f d : yok w E → repr (z_ar (y_zdd w)) d f → ∃ w', y_wrap w f = Some (w', f) ∧ yok w' ((f, d) :: E) ∧ agree w w'.
Proof.
  intros Hk0 Hd. pose proof (yok_pin _ _ _ _ Hk0 Hd) as Hk. unfold y_wrap, y_maybe_gc. change (agree w) with (agree (y_pin w f)).
  revert Hk. generalize (y_pin w f) as v, ((f, d) :: E) as E'. clear. intros v E' Hk. destruct (_ <? _); [by exists v|].
  destruct Hk as [H1 H2 [l [Hr Hp]] H4].
  assert (Hin : ∀ g, g ∈ root_keys (y_roots v) ↔ g ∈ E'.*1) by (intros g; by rewrite Hr, root_keys_elem, Hp).
  destruct (zx_gc (y_zdd v) (root_keys (y_roots v)) H1) as (z & n & -> & Hz & Hh & Hk).
  { intros g ([g' e] & -> & Hg)%Hin%elem_of_list_fmap. by apply H4, repr_live in Hg. }
  cbn [mbind option_bind]. eexists. split; [done|]. split; [|done]. constructor; cbn [y_zdd y_roots y_vars]; [done|by rewrite Hh|by exists l|].
  intros g e Hg. apply Hk; [|by apply H4]. apply Hin. apply elem_of_list_fmap. by exists (g, e).
Qed.

(** a call that gives one handle: its diagram *)
Definition gives (w : zmgr) (E : list (nat * dd tv)) (o : option (zmgr * nat)) (d : dd tv) : Prop :=
  ∃ w' r, o = Some (w', r) ∧ yok w' ((r, d) :: E) ∧ agree w w'.
Lemma empty_gives w E : yok w E → gives w E (y_empty w) (Leaf TZero).
Proof. intros Hk. destruct (yok_wrap w E zdd_zero (Leaf TZero) Hk) as (w' & H); [apply (yk_good _ _ Hk)|]. by exists w', zdd_zero. Qed.
Lemma base_gives w E : yok w E → gives w E (y_base w) (Leaf TOne).
Proof. intros Hk. destruct (yok_wrap w E zdd_one (Leaf TOne) Hk) as (w' & H); [apply (yk_good _ _ Hk)|]. by exists w', zdd_one. Qed.
Lemma op_gives o w E f g df dg : yok w E → (f, df) ∈ E → (g, dg) ∈ E → ∃ d, zt o df dg d ∧ gives w E (y_op o w f g) d.
Proof.
  intros Hk Hf Hg. destruct (zx_op o (y_zdd w) f g df dg) as (z & r & d & Eq & Hz & He & Hh & Hr & HT); [apply Hk|by apply (yk_held _ _ Hk)..|].
  exists d. split; [done|]. assert (y_op o w f g = y_wrapped w (zdd_op o (y_zdd w) f g)) as -> by (by destruct o). rewrite Eq.
  destruct (yok_wrap (with_zdd w z) E r d) as (w' & Ew & Hk' & [Ha Hb]); [by apply yok_step|done|]. exists w', r. sp; [done|done|]. cbn in Ha, Hb. by split; [rewrite <- Ha|].
Qed.
Definition header_of (w : zmgr) (x : string) : header :=
  match y_vars w !! x with Some h => default (Header 0 0 "" 0) (hdrs w !! h) | None => Header (length (hdrs w)) (size (y_vars w)) x 2 end.
Lemma header_ok w E x : yok w E →
  ∃ w' h, (match y_vars w !! x with
    | Some h => (w, h)
    | None =>
        let '(z, h) := zdd_create_header (y_zdd w) (size (y_vars w)) x in
        (ZMgr z (y_roots w) (y_thr w) (y_floor w) (<[x := h]> (y_vars w)), h)
    end) = (w', h) ∧ yok w' E ∧ hdrs w' !! h = Some (header_of w x) ∧
    hdrs w' = (if y_vars w !! x then hdrs w else hdrs w ++ [header_of w x]) ∧
    y_vars w' = (if y_vars w !! x then y_vars w else <[x := length (hdrs w)]> (y_vars w)).
Proof.
  intros Hk. unfold header_of. destruct (y_vars w !! x) as [h|] eqn:Hx.
  { exists w, h. destruct (yk_vars _ _ Hk _ _ Hx) as [hd Hh]. by rewrite Hh. }
  destruct (zdd_create_header _ _ _) as [z h] eqn:Ez. destruct (zx_header _ _ _ _ _ (yk_x _ _ Hk) Ez) as (Hz & He & -> & Hh).
  eexists _, _. split; [done|]. cbn [y_zdd y_vars]. rewrite Hh. destruct Hk as [H1 H2 H3 H4]. sp; try done; [|rewrite lookup_app_r, Nat.sub_diag by lia; done].
  constructor; cbn [y_zdd y_roots y_vars]; try done.
  - intros y h. rewrite Hh. destruct (decide (y = x)) as [->|Hne].
    + rewrite lookup_insert. intros [= <-]. rewrite lookup_app_r, Nat.sub_diag by lia. by eexists.
    + rewrite lookup_insert_ne by done. intros [hd Hy]%H2. exists hd. by apply lookup_app_l_Some.
  - intros f d Hf. eapply repr_mono; [done|]. by apply H4.
Qed.

(** ** both runs *)
Definition pair2 (E1 E2 : list (nat * dd tv)) (o1 o2 : option (zmgr * nat)) : Prop :=
  ∃ d w1 r1 w2 r2, o1 = Some (w1, r1) ∧ o2 = Some (w2, r2) ∧ yok w1 ((r1, d) :: E1) ∧ yok w2 ((r2, d) :: E2) ∧ agree w1 w2.
Section two.
Context (w1 w2 : zmgr) (E1 E2 : list (nat * dd tv)) (K1 : yok w1 E1) (K2 : yok w2 E2) (HA : agree w1 w2).
Lemma gives_pair o1 o2 d : gives w1 E1 o1 d → gives w2 E2 o2 d → pair2 E1 E2 o1 o2.
Proof using HA.
  intros (w1' & r1 & Eq1 & P1 & A1) (w2' & r2 & Eq2 & P2 & A2). exists d, w1', r1, w2', r2. sp; try done.
  exact (agree_trans _ _ _ (agree_sym _ _ A1) (agree_trans _ _ _ HA A2)).
Qed.
Lemma op_pair o f1 f2 df g1 g2 dg : (f1, df) ∈ E1 → (f2, df) ∈ E2 → (g1, dg) ∈ E1 → (g2, dg) ∈ E2 → pair2 E1 E2 (y_op o w1 f1 g1) (y_op o w2 f2 g2).
Proof using HA K1 K2.
  intros H1 H2 H1' H2'. destruct (op_gives o w1 E1 f1 g1 df dg K1 H1 H1') as (d1 & T1 & G1). destruct (op_gives o w2 E2 f2 g2 df dg K2 H2 H2') as (d2 & T2 & G2).
  rewrite <- (zt_fun _ _ _ _ _ T1 T2) in G2. by eapply gives_pair.
Qed.
Lemma single_pair x : pair2 E1 E2 (y_singleton w1 x) (y_singleton w2 x).
Proof using HA K1 K2.
  unfold y_singleton. destruct (header_ok w1 E1 x K1) as (v1 & h1 & -> & P1 & L1 & Hh1 & Hv1). destruct (header_ok w2 E2 x K2) as (v2 & h2 & -> & P2 & L2 & Hh2 & Hv2).
  assert (header_of w1 x = header_of w2 x) as Hx by (unfold header_of; destruct HA as [-> ->]; done).
  assert (HA' : agree v1 v2) by (split; [rewrite Hh1, Hh2, Hx; by destruct HA as [-> ->]|rewrite Hv1, Hv2; by destruct HA as [-> ->]]).
  rewrite Hx in L1. clear K1 K2 Hv1 Hv2 Hh1 Hh2 Hx. revert L1 L2. generalize (header_of w2 x). intros hd L1 L2.
  assert (HN : ∀ v E h, yok v E → hdrs v !! h = Some hd → gives v E (y_wrapped v (Some (zdd_create_node (y_zdd v) h zdd_zero zdd_one))) (zn hd (Leaf TZero) (Leaf TOne))).
  { intros v E h P L. pose proof (yk_good _ _ P) as Hg.
    destruct (zx_node (y_zdd v) h hd zdd_zero zdd_one (Leaf TZero) (Leaf TOne)) as (z & r & -> & Hz & He & Hh & Hr); [apply P|done|apply Hg|apply Hg|cbn; lia|cbn; lia|].
    unfold y_wrapped. cbn [mbind option_bind]. destruct (yok_wrap (with_zdd v z) E r _ (yok_step v E z P Hz He Hh) Hr) as (w' & Ew & Hk' & [Ha Hb]).
    exists w', r. sp; [done|done|]. cbn in Ha, Hb. by split; [rewrite <- Ha|]. }
  destruct (HN _ _ _ P1 L1) as (w1' & r1 & Eq1 & Q1 & A1). destruct (HN _ _ _ P2 L2) as (w2' & r2 & Eq2 & Q2 & A2).
  exists (zn hd (Leaf TZero) (Leaf TOne)), w1', r1, w2', r2. sp; try done. exact (agree_trans _ _ _ (agree_sym _ _ A1) (agree_trans _ _ _ HA' A2)).
Qed.
End two.

Lemma elems_pair s : ∀ w1 w2 E1 E2 f1 f2 d, yok w1 ((f1, d) :: E1) → yok w2 ((f2, d) :: E2) → agree w1 w2 →
  pair2 E1 E2 (from_elems w1 f1 s) (from_elems w2 f2 s).
Proof.
  induction s as [|x s IH]; intros w1 w2 E1 E2 f1 f2 d K1 K2 HA; cbn [from_elems]; [by exists d, w1, f1, w2, f2|].
  destruct (single_pair w1 w2 _ _ K1 K2 HA x) as (e & v1 & s1 & v2 & s2 & -> & -> & P1 & P2 & HA1). cbn [mbind option_bind].
  destruct (op_pair v1 v2 _ _ P1 P2 HA1 ZProduct f1 f2 d s1 s2 e) as (d' & u1 & r1 & u2 & r2 & -> & -> & Q1 & Q2 & HA2); [by right; left|by right; left|by left|by left|].
  cbn [mbind option_bind]. apply (IH _ _ _ _ _ _ d'); [| |done].
  - eapply yok_drop; [eapply yok_drop; [exact Q1|]|].
    + etrans; [apply Permutation_skip, Permutation_swap|apply Permutation_swap].
    + apply Permutation_swap.
  - eapply yok_drop; [eapply yok_drop; [exact Q2|]|].
    + etrans; [apply Permutation_skip, Permutation_swap|apply Permutation_swap].
    + apply Permutation_swap.
Qed.
Lemma sets_go_pair l : ∀ w1 w2 E1 E2 f1 f2 d, yok w1 ((f1, d) :: E1) → yok w2 ((f2, d) :: E2) → agree w1 w2 →
  pair2 E1 E2 (from_sets_go w1 f1 l) (from_sets_go w2 f2 l).
Proof.
  induction l as [|s l IH]; intros w1 w2 E1 E2 f1 f2 d K1 K2 HA; cbn [from_sets_go]; [by exists d, w1, f1, w2, f2|].
  destruct (gives_pair w1 w2 _ _ HA _ _ _ (base_gives _ _ K1) (base_gives _ _ K2)) as (e & v1 & b1 & v2 & b2 & -> & -> & P1 & P2 & HA1). cbn [mbind option_bind].
  destruct (elems_pair s v1 v2 _ _ b1 b2 e P1 P2 HA1) as (e' & t1 & s1 & t2 & s2 & -> & -> & Q1 & Q2 & HA2). cbn [mbind option_bind].
  destruct (op_pair t1 t2 _ _ Q1 Q2 HA2 ZUnion f1 f2 d s1 s2 e') as (d' & u1 & r1 & u2 & r2 & -> & -> & R1 & R2 & HA3); [by right; left|by right; left|by left|by left|].
  cbn [mbind option_bind]. apply (IH _ _ _ _ _ _ d'); [| |done].
  - eapply yok_drop; [eapply yok_drop; [exact R1|]|].
    + etrans; [apply Permutation_skip, Permutation_swap|apply Permutation_swap].
    + apply Permutation_swap.
  - eapply yok_drop; [eapply yok_drop; [exact R2|]|].
    + etrans; [apply Permutation_skip, Permutation_swap|apply Permutation_swap].
    + apply Permutation_swap.
Qed.
Lemma sets_pair l w1 w2 E1 E2 : yok w1 E1 → yok w2 E2 → agree w1 w2 → pair2 E1 E2 (y_from_sets w1 l) (y_from_sets w2 l).
Proof.
  intros K1 K2 HA. unfold y_from_sets.
  destruct (gives_pair w1 w2 _ _ HA _ _ _ (empty_gives _ _ K1) (empty_gives _ _ K2)) as (e & v1 & b1 & v2 & b2 & -> & -> & P1 & P2 & HA1). cbn [mbind option_bind].
  by apply (sets_go_pair l v1 v2 E1 E2 b1 b2 e).
Qed.

(** ** the questions *)
Section ask.
Context (a1 a2 : arena tv) (G1 : zgood a1) (G2 : zgood a2).
Local Notation "i ≈ j" := (iso a1 a2 i j) (at level 70).
Local Notation crel := (crel a1 a2).
Local Notation srel := (srel a1 a2).
Local Notation W1 := (zg_wf _ G1).
Local Notation W2 := (zg_wf _ G2).
Ltac node Hi := destruct (iso_node _ _ _ _ W1 W2 _ _ Hi) as
  [(t & N1 & N2)|(h & hd & cs1 & cs2 & N1 & N2 & F1 & F2 & Hcs)]; rewrite N1, N2; cbn [mbind option_bind].
Lemma zcount_iso ss n : ∀ i j c1 c2, i ≈ j → crel c1 c2 →
  osim (λ p q, crel p.1 q.1 ∧ p.2 = q.2) (zdd_count_f n a1 ss i c1) (zdd_count_f n a2 ss j c2).
Proof using G1 G2.
  induction n as [|n IH]; intros i j c1 c2 Hi Hc; [constructor|]. cbn [zdd_count_f]. rewrite <- (Hc i j Hi).
  destruct (c1 !! i) as [x|]; [by constructor|]. node Hi.
  - destruct t; cbn; constructor; (split; [|done]); by apply (crel_insert _ _ _ _ W1 W2).
  - eapply (osim_bind (λ p q, crel p.1 q.1 ∧ p.2 = q.2)).
    + eapply osim_bind; [exact (iso_edges2 a1 a2 _ _ Hcs)|]. intros [e0 e1] [e0' e1'] [He0 He1]. cbn [fst snd] in He0, He1.
      eapply osim_bind; [by apply IH|]. intros [d1 x1] [d2 x2] [Hd Hq_]; cbn [fst snd] in Hd, Hq_; subst.
      eapply osim_bind; [by apply IH|]. intros [d1' h1] [d2' h2] [Hd' Hq_]; cbn [fst snd] in Hd', Hq_; subst. by constructor.
    + intros [d1 r1] [d2 r2] [Hd Hq_]; cbn [fst snd] in Hd, Hq_; subst. constructor. split; [|done]. by apply (crel_insert _ _ _ _ W1 W2).
Qed.
Lemma zsize_iso n : ∀ i j c1 c2, i ≈ j → srel c1 c2 →
  osim (λ p q, srel p.1 q.1 ∧ p.2 = q.2) (node_count_f n a1 i c1) (node_count_f n a2 j c2).
Proof using G1 G2.
  induction n as [|n IH]; intros i j c1 c2 Hi Hc; [constructor|]. cbn [node_count_f].
  destruct (decide (i ∈ c1)) as [Hin|Hni].
  { rewrite decide_True by (by apply (Hc i j Hi)). by constructor. }
  rewrite decide_False by (intros ?; by apply Hni, (Hc i j Hi)). node Hi.
  - constructor. split; [|done]. by apply (srel_add _ _ _ _ W1 W2).
  - eapply (osim_bind (λ p q, srel p.1 q.1 ∧ p.2 = q.2)).
    + eapply osim_bind; [exact (iso_edges2 a1 a2 _ _ Hcs)|]. intros [e0 e1] [e0' e1'] [He0 He1]. cbn [fst snd] in He0, He1.
      eapply osim_bind; [by apply IH|]. intros [d1 [[x1 y1] z1]] [d2 x2] [Hd Hq_]; cbn [fst snd] in Hd, Hq_; subst.
      eapply osim_bind; [by apply IH|]. intros [d1' [[x1' y1'] z1']] [d2' h2] [Hd' Hq_]; cbn [fst snd] in Hd', Hq_; subst. by constructor.
    + intros [d1 r1] [d2 r2] [Hd Hq_]; cbn [fst snd] in Hd, Hq_; subst. constructor. split; [|done]. by apply (srel_add _ _ _ _ W1 W2).
Qed.
Inductive zsrel : zstack → zstack → Prop :=
  | zsr_node i j : i ≈ j → zsrel (ZSNode i) (ZSNode j)
  | zsr_push x : zsrel (ZSPush x) (ZSPush x)
  | zsr_pop : zsrel ZSPop ZSPop.
Lemma zpath_iso ss p st st' : Forall2 zsrel st st' →
  osim (λ x y, Forall2 zsrel (zp_stack x.1) (zp_stack y.1) ∧ zp_path x.1 = zp_path y.1 ∧ x.2 = y.2) (zpath_step a1 ss (ZPath st p)) (zpath_step a2 ss (ZPath st' p)).
Proof using G1 G2.
  intros [|x y l l' Hx Hl]; [constructor|]. unfold zpath_step. cbn [zp_stack zp_path]. destruct Hx as [i j Hi|x|]; [|by constructor|by constructor].
  node Hi; [destruct t; by constructor|]. rewrite F1, F2. cbn [mbind option_bind]. eapply osim_bind; [exact (iso_edges2 a1 a2 _ _ Hcs)|].
  intros [e0 e1] [e0' e1'] [He0 He1]. cbn [fst snd] in He0, He1. constructor. cbn [fst snd zp_stack zp_path]. sp; [|done|done]. by repeat constructor.
Qed.
Lemma zcollect_iso ss n : ∀ p st st', Forall2 zsrel st st' → zpath_collect n a1 ss (ZPath st p) = zpath_collect n a2 ss (ZPath st' p).
Proof using G1 G2.
  induction n as [|n IH]; intros p st st' Hst; [destruct Hst; done|].
  cbn [zpath_collect zp_stack]. pose proof (zpath_iso ss p st st' Hst) as Hs. destruct Hst as [|x y l l' Hx Hl]; [done|].
  destruct Hs as [[[st1 p1] o1] [[st2 p2] o2] (Hst & Hp & Ho)|]; [|done]. cbn in Hst, Hp, Ho. subst p2 o2.
  cbn [mbind option_bind]. by rewrite (IH p1 st1 st2 Hst).
Qed.
End ask.

Section q.
Context (w1 w2 : zmgr) (E1 E2 : list (nat * dd tv)) (K1 : yok w1 E1) (K2 : yok w2 E2) (HA : agree w1 w2) (f1 f2 : nat)
  (Hf : iso (z_ar (y_zdd w1)) (z_ar (y_zdd w2)) f1 f2).
Local Notation W1 := (zg_wf _ (yk_good _ _ K1)).
Local Notation W2 := (zg_wf _ (yk_good _ _ K2)).
Lemma yq_is t : y_is t w1 f1 = y_is t w2 f2.
Proof using K1 K2 Hf. unfold y_is. destruct (iso_node _ _ _ _ W1 W2 _ _ Hf) as [(t' & -> & ->)|(h & hd & cs1 & cs2 & -> & -> & _)]; done. Qed.
Lemma yq_label : y_label w1 f1 = y_label w2 f2.
Proof using K1 K2 Hf.
  unfold y_label. destruct (iso_node _ _ _ _ W1 W2 _ _ Hf) as [(t' & -> & ->)|(h & hd & cs1 & cs2 & -> & -> & X1 & X2 & _)]; [done|].
  cbn [mbind option_bind]. by rewrite X1, X2.
Qed.
Lemma yq_hid : y_hid w1 f1 = y_hid w2 f2.
Proof using K1 K2 Hf. unfold y_hid. destruct (iso_node _ _ _ _ W1 W2 _ _ Hf) as [(t' & -> & ->)|(h & hd & cs1 & cs2 & -> & -> & _)]; done. Qed.
Lemma yq_level : y_level w1 f1 = y_level w2 f2.
Proof using K1 K2 Hf HA. unfold y_level. rewrite yq_hid. destruct HA as [-> _]. done. Qed.
Lemma yq_count ss : y_count w1 ss f1 = y_count w2 ss f2.
Proof using K1 K2 Hf HA.
  apply osim_eq. unfold y_count, zdd_count. rewrite <- (iso_fuel _ _ (proj1 HA)). eapply osim_bind.
  { apply (zcount_iso _ _ (yk_good _ _ K1) (yk_good _ _ K2)); [exact Hf|apply crel_empty]. }
  intros [? ?] [? ?] [_ E]. cbn in E. subst. by constructor.
Qed.
Lemma yq_size : y_size w1 f1 = y_size w2 f2.
Proof using K1 K2 Hf HA.
  apply osim_eq. unfold y_size, zdd_node_size. rewrite <- (iso_fuel _ _ (proj1 HA)). eapply osim_bind.
  { apply (zsize_iso _ _ (yk_good _ _ K1) (yk_good _ _ K2)); [exact Hf|apply srel_empty]. }
  intros [? [[??]?]] [? ?] [_ E]. cbn in E. subst. by constructor.
Qed.
Lemma yq_extract n ss : y_extract n w1 ss f1 = y_extract n w2 ss f2.
Proof using K1 K2 Hf. apply (zcollect_iso _ _ (yk_good _ _ K1) (yk_good _ _ K2)). by repeat constructor. Qed.
End q.

(** ** what a client holds in its slots *)
Fixpoint yentries (S : list (option nat)) (G : list (option (dd tv))) : list (nat * dd tv) :=
  match S, G with
  | Some f :: S', Some F :: G' => (f, F) :: yentries S' G'
  | _ :: S', _ :: G' => yentries S' G'
  | _, _ => []
  end.
Definition yshape (S : list (option nat)) (G : list (option (dd tv))) : Prop := Forall2 (λ s g, is_Some s ↔ is_Some g) S G.
Lemma yentries_app S G S' G' : yshape S G → yentries (S ++ S') (G ++ G') = yentries S G ++ yentries S' G'.
Proof. induction 1 as [|[f|] [F|] S G [Ha Hb] Hf IH]; cbn; [done|by rewrite IH|..|done]; [|]; by (destruct Ha || destruct Hb); eauto. Qed.
Lemma yshape_lookup S G i f : yshape S G → slot S i = Some f → ∃ F, G !! i = Some (Some F) ∧ (f, F) ∈ yentries S G ∧
  yentries S G ≡ₚ (f, F) :: yentries (<[i := None]> S) (<[i := None]> G).
Proof.
  unfold slot. intros Hs. revert i. induction Hs as [|s g S G Hsg Hf IH]; intros i; [done|]. destruct i as [|i]; cbn [lookup list_lookup].
  - cbn. intros ->. destruct g as [F|]; [|by destruct (proj1 Hsg)]. exists F. sp; [done|by left|done].
  - intros Hi. destruct (IH i Hi) as (F & HG & Hin & Hp). exists F. split; [done|]. cbn [insert list_insert].
    destruct s as [f'|], g as [F'|]; cbn [yentries]; [|by destruct (proj1 Hsg)|by destruct (proj2 Hsg)|done].
    split; [by right|]. rewrite Hp at 1. apply Permutation_swap.
Qed.
Lemma yshape_none S G i : yshape S G → slot S i = None → ∀ F, G !! i ≠ Some (Some F).
Proof.
  unfold slot. intros Hs. revert i. induction Hs as [|s g S G Hsg Hf IH]; intros i; [done|]. destruct i as [|i]; cbn [lookup list_lookup].
  - cbn. intros -> F [= ->]. pose proof (proj2 Hsg (ex_intro _ F eq_refl)) as [? ?]. done.
  - apply IH.
Qed.
Lemma yshape_insert S G i : yshape S G → yshape (<[i := None]> S) (<[i := None]> G).
Proof. intros Hs. apply Forall2_insert; [done|]. split; by intros [? ?]. Qed.
Lemma yshape_snoc S G f F : yshape S G → yshape (S ++ [Some f]) (G ++ [Some F]).
Proof. intros Hs. apply Forall2_app; [done|]. constructor; [|constructor]. split; eauto. Qed.

Record ytwin (w1 : zmgr) (S1 : list (option nat)) (w2 : zmgr) (S2 : list (option nat)) (G : list (option (dd tv))) : Prop := {
  yt_1 : yok w1 (yentries S1 G);
  yt_2 : yok w2 (yentries S2 G);
  yt_h : agree w1 w2;
  yt_s1 : yshape S1 G;
  yt_s2 : yshape S2 G;
}.
Definition ytw (p q : zmgr * list (option nat) * yans) : Prop := (∃ G, ytwin p.1.1 p.1.2 q.1.1 q.1.2 G) ∧ p.2 = q.2.

Section step.
Context w1 S1 w2 S2 G (T : ytwin w1 S1 w2 S2 G).
Definition yboth f1 f2 : Prop := ∃ F, (f1, F) ∈ yentries S1 G ∧ (f2, F) ∈ yentries S2 G.
Lemma yslot_tw i : osim yboth (slot S1 i) (slot S2 i).
Proof using T.
  destruct (slot S1 i) as [f1|] eqn:X1, (slot S2 i) as [f2|] eqn:X2; [| | |constructor].
  - destruct (yshape_lookup _ _ _ _ (yt_s1 _ _ _ _ _ T) X1) as (F & HF & H1 & _). destruct (yshape_lookup _ _ _ _ (yt_s2 _ _ _ _ _ T) X2) as (F' & HF' & H2 & _).
    rewrite HF in HF'. injection HF' as <-. constructor. by exists F.
  - destruct (yshape_lookup _ _ _ _ (yt_s1 _ _ _ _ _ T) X1) as (F & HF & _). by apply (yshape_none _ _ _ (yt_s2 _ _ _ _ _ T) X2) in HF.
  - destruct (yshape_lookup _ _ _ _ (yt_s2 _ _ _ _ _ T) X2) as (F & HF & _). by apply (yshape_none _ _ _ (yt_s1 _ _ _ _ _ T) X1) in HF.
Qed.
Lemma yboth_iso f1 f2 : yboth f1 f2 → iso (z_ar (y_zdd w1)) (z_ar (y_zdd w2)) f1 f2.
Proof using T. intros (F & H1 & H2). exists F. split; [by apply (yk_held _ _ (yt_1 _ _ _ _ _ T))|by apply (yk_held _ _ (yt_2 _ _ _ _ _ T))]. Qed.
Lemma ygive_tw o1 o2 : pair2 (yentries S1 G) (yentries S2 G) o1 o2 → osim ytw (ygive S1 o1) (ygive S2 o2).
Proof using T.
  intros (d & w1' & r1 & w2' & r2 & -> & -> & K1 & K2 & Ha). constructor. split; [|done]. exists (G ++ [Some d]). constructor; cbn [fst snd].
  - rewrite yentries_app by apply T. eapply yok_perm; [exact K1|]. cbn. by rewrite Permutation_app_comm.
  - rewrite yentries_app by apply T. eapply yok_perm; [exact K2|]. cbn. by rewrite Permutation_app_comm.
  - done.
  - apply yshape_snoc, T.
  - apply yshape_snoc, T.
Qed.
Lemma ytell_tw a1 a2 : a1 = a2 → osim ytw (ytell w1 S1 a1) (ytell w2 S2 a2).
Proof using T. intros ->. destruct a2 as [a|]; cbn; [|constructor]. constructor. split; [|done]. by exists G. Qed.
Lemma yfree_tw i : osim ytw (ydo w1 S1 (YFree i)) (ydo w2 S2 (YFree i)).
Proof using T.
  cbn [ydo]. pose proof (yslot_tw i) as Hs. destruct (slot S1 i) as [f1|] eqn:X1, (slot S2 i) as [f2|] eqn:X2; try (by inversion Hs); [|constructor].
  cbn [mbind option_bind]. constructor. split; [|done]. exists (<[i := None]> G). cbn [fst snd].
  destruct (yshape_lookup _ _ _ _ (yt_s1 _ _ _ _ _ T) X1) as (F1 & _ & _ & P1). destruct (yshape_lookup _ _ _ _ (yt_s2 _ _ _ _ _ T) X2) as (F2 & _ & _ & P2).
  constructor; [by eapply yok_drop; [apply T|]|by eapply yok_drop; [apply T|]|apply T|apply yshape_insert, T|apply yshape_insert, T].
Qed.
Lemma ykids_tw i : osim ytw (ydo w1 S1 (YKids i)) (ydo w2 S2 (YKids i)).
Proof using T.
  pose proof (yt_1 _ _ _ _ _ T) as K1. pose proof (yt_2 _ _ _ _ _ T) as K2. pose proof (yt_h _ _ _ _ _ T) as HA.
  cbn [ydo]. eapply osim_bind; [apply yslot_tw|]. intros f1 f2 (d & H1 & H2). unfold y_children.
  pose proof (yk_held _ _ K1 _ _ H1) as R1. pose proof (yk_held _ _ K2 _ _ H2) as R2.
  destruct (zview _ _ _ (yk_good _ _ K1) R1) as [(t & -> & N1)|(hd & x & lo & hi & dlo & dhi & -> & N1 & _ & L1 & I1 & _)].
  - apply repr_leaf in R2 as [_ N2]. rewrite N1, N2. cbn [mbind option_bind]. constructor. split; [|done]. exists (G ++ [None; None]). cbn [fst snd].
    assert (HN : ∀ S, yshape S G → yshape (S ++ [None; None]) (G ++ [None; None])).
    { intros S HS. apply Forall2_app; [done|]. repeat constructor; by intros [? ?]. }
    constructor; [rewrite yentries_app, app_nil_r by apply T; done..|done|apply HN, T|apply HN, T].
  - destruct (zview _ _ _ (yk_good _ _ K2) R2) as [(t & ? & _)|(hd' & x' & lo' & hi' & ? & ? & [= <- <- <-] & N2 & _ & L2 & I2 & _)]; [done|].
    rewrite N1, N2. cbn [mbind option_bind edges2]. constructor. split; [|done]. exists (G ++ [Some dlo; Some dhi]). cbn [fst snd].
    assert (HN : ∀ S f g, yshape S G → yshape (S ++ [Some f; Some g]) (G ++ [Some dlo; Some dhi])).
    { intros S f g HS. apply Forall2_app; [done|]. repeat constructor; eauto. }
    constructor; [| |done|apply HN, T|apply HN, T].
    + rewrite yentries_app by apply T. eapply yok_perm; [exact (yok_pin _ _ _ _ (yok_pin _ _ _ _ K1 L1) I1)|]. cbn [yentries].
      rewrite (Permutation_app_comm (yentries S1 G)). apply Permutation_swap.
    + rewrite yentries_app by apply T. eapply yok_perm; [exact (yok_pin _ _ _ _ (yok_pin _ _ _ _ K2 L2) I2)|]. cbn [yentries].
      rewrite (Permutation_app_comm (yentries S2 G)). apply Permutation_swap.
Qed.
Lemma ydo_tw c : ¬ yhousekeeping c → osim ytw (ydo w1 S1 c) (ydo w2 S2 c).
Proof using T.
  pose proof (yt_1 _ _ _ _ _ T) as K1. pose proof (yt_2 _ _ _ _ _ T) as K2. pose proof (yt_h _ _ _ _ _ T) as HA.
  intros Hc. destruct c as [| |x|l|o i j|i|i|i|i j|t i|ss i|n ss i|i|i|i|i|t| ]; try (by destruct Hc); try apply (yfree_tw i); try apply (ykids_tw i); cbn [ydo];
    try (eapply osim_bind; [apply yslot_tw|]; intros f1 f2 Hf; pose proof (yboth_iso _ _ Hf) as Hi).
  - apply ygive_tw. exact (gives_pair w1 w2 _ _ HA _ _ _ (empty_gives _ _ K1) (empty_gives _ _ K2)).
  - apply ygive_tw. exact (gives_pair w1 w2 _ _ HA _ _ _ (base_gives _ _ K1) (base_gives _ _ K2)).
  - apply ygive_tw. exact (single_pair w1 w2 _ _ K1 K2 HA x).
  - apply ygive_tw. exact (sets_pair l w1 w2 _ _ K1 K2 HA).
  - eapply osim_bind; [apply yslot_tw|]. intros g1 g2 Hg. destruct Hf as (F & H1 & H2), Hg as (F' & H1' & H2').
    apply ygive_tw. exact (op_pair w1 w2 _ _ K1 K2 HA o f1 f2 F g1 g2 F' H1 H2 H1' H2').
  - destruct Hf as (F & H1 & H2). apply (ygive_tw (Some (y_clone w1 f1, f1)) (Some (y_clone w2 f2, f2))).
    exists F, (y_clone w1 f1), f1, (y_clone w2 f2), f2. sp; [done|done| | |done].
    + apply yok_pin; [done|]. by apply (yk_held _ _ K1).
    + apply yok_pin; [done|]. by apply (yk_held _ _ K2).
  - eapply osim_bind; [apply yslot_tw|]. intros g1 g2 Hg. pose proof (yboth_iso _ _ Hg) as Hj. apply ytell_tw. do 2 f_equal.
    unfold y_eq. apply eq_iff_eq_true. rewrite !Nat.eqb_eq.
    pose proof (zg_wf _ (yk_good _ _ K1)) as W1. pose proof (zg_wf _ (yk_good _ _ K2)) as W2. split; intros ->.
    + exact (iso_fun _ _ _ W2 _ _ _ Hi Hj).
    + exact (iso_inj _ _ _ W1 _ _ _ Hi Hj).
  - apply ytell_tw. f_equal. exact (yq_is w1 w2 _ _ K1 K2 f1 f2 Hi t).
  - apply ytell_tw. f_equal. exact (yq_count w1 w2 _ _ K1 K2 HA f1 f2 Hi ss).
  - apply ytell_tw. f_equal. exact (yq_extract w1 w2 _ _ K1 K2 f1 f2 Hi n ss).
  - apply ytell_tw. f_equal. exact (yq_size w1 w2 _ _ K1 K2 HA f1 f2 Hi).
  - apply ytell_tw. do 2 f_equal. exact (yq_label w1 w2 _ _ K1 K2 f1 f2 Hi).
  - apply ytell_tw. do 2 f_equal. exact (yq_level w1 w2 _ _ K1 K2 HA f1 f2 Hi).
  - apply ytell_tw. do 2 f_equal. exact (yq_hid w1 w2 _ _ K1 K2 f1 f2 Hi).
Qed.
Lemma yhouse_tw c : yhousekeeping c → ∃ w1', ydo w1 S1 c = Some (w1', S1, YDone) ∧ ytwin w1' S1 w2 S2 G.
Proof using T.
  destruct T as [[A1 A2 A3 A4] K2 HA H1 H2]. destruct c as [| |x|l|o i j|i|i|i|i j|t i|ss i|n ss i|i|i|i|i|t| ]; intros Hc; try (by destruct Hc); cbn [ydo].
  - eexists. split; [done|]. constructor; [|done|done|done|done]. constructor; done.
  - eexists. split; [done|]. constructor; [|done|done|done|done]. constructor; [by apply zx_clear|done|done|done].
Qed.
End step.

Lemma ygo_tw p : ∀ w1 S1 w2 S2 G, ytwin w1 S1 w2 S2 G → ygo w1 S1 p = ygo w2 S2 (y_no_housekeeping p).
Proof.
  induction p as [|c p IH]; intros w1 S1 w2 S2 G T; [done|]. cbn [ygo]. unfold y_no_housekeeping. rewrite filter_cons.
  destruct (decide (yhousekeeping c)) as [Hc|Hc].
  - rewrite decide_False by tauto. destruct (yhouse_tw _ _ _ _ _ T c Hc) as (w1' & -> & T'). cbn [mbind option_bind].
    rewrite (IH _ _ _ _ _ T'). fold (y_no_housekeeping p). by destruct (ygo w2 S2 _).
  - rewrite decide_True by done. cbn [ygo]. fold (y_no_housekeeping p).
    pose proof (ydo_tw _ _ _ _ _ T c Hc) as Hd. destruct Hd as [[[w1' S1'] a1] [[w2' S2'] a2] [[G' T'] Ha]|]; [|done]. cbn in T', Ha. subst a2.
    cbn [mbind option_bind]. rewrite (IH _ _ _ _ _ T'). destruct (ygo _ _ _); [|done]. cbn [mbind option_bind]. by rewrite decide_False.
Qed.
Lemma yanswers_l p : yanswers p = yanswers (y_no_housekeeping p).
Proof. apply (ygo_tw p _ _ _ _ []). constructor; [apply yok_new|apply yok_new|done|constructor|constructor]. Qed.
Lemma ygo_prefix p q : ∀ w S l, ygo w S (p ++ q) = Some l →
  ∃ l1 l2, l = l1 ++ l2 ∧ ygo w S p = Some l1 ∧ length l1 = length (y_no_housekeeping p).
Proof.
  induction p as [|c p IH]; intros w S l Hl; [by exists [], l|]. cbn [app ygo] in *. unfold y_no_housekeeping. rewrite filter_cons. fold (y_no_housekeeping p).
  destruct (ydo w S c) as [[[w' S'] a]|]; [|done]. cbn [mbind option_bind] in *.
  destruct (ygo w' S' (p ++ q)) as [l'|] eqn:El; [|done]. cbn [mbind option_bind] in *. destruct (IH _ _ _ El) as (l1 & l2 & -> & X1 & Hlen).
  rewrite X1. cbn [mbind option_bind]. injection Hl as <-. destruct (decide (yhousekeeping c)) as [Hc|Hc].
  - rewrite decide_False by tauto. by exists l1, l2.
  - rewrite decide_True by done. exists (a :: l1), l2. sp; [done|done|]. cbn. by f_equal.
Qed.
Lemma yanswers_prefix p q l : yanswers (p ++ q) = Some l →
  ∃ l1 l2, l = l1 ++ l2 ∧ yanswers (y_no_housekeeping p) = Some l1 ∧ length l1 = length (y_no_housekeeping p).
Proof. intros (l1 & l2 & -> & E & Hl)%ygo_prefix. exists l1, l2. sp; [done| |done]. rewrite <- E. symmetry. apply yanswers_l. Qed.
