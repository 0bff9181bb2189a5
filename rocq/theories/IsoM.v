(** The same operation on isomorphic operands of two combined managers gives isomorphic results, or panics in both. *)
From stdpp Require Import strings.
From Verif Require Import Prelude ComputeCache ComputeCacheProofs Arena Trees ArenaProofs ArenaMore Bdd Mdd MtMdd MtMdd2 NaryProofs MddProofs MtProofs MmProofs.
From Verif Require Import SpecBdd SpecMdd SpecExactM MddMain MmMain MmExact MmExactMain MSize MssMgr SpecMss MssMgrProofs Iso.

Notation bar m := (d_ar (mm_b m)).
Notation var m := (t_ar (mm_v m)).
Notation hdrs m := (ar_headers (bar m)).

Lemma osim_impl {A B} (P Q : A → B → Prop) x y : osim P x y → (∀ a b, P a b → Q a b) → osim Q x y.
Proof. intros [a b H|] HI; constructor; auto. Qed.

(** ** one diagram in two arenas *)
Lemma same_iso {T} (a1 a2 : arena T) f1 f2 : awf Rn a1 → awf Rn a2 → hcons (ar_headers a1) → levels_distinct a1 →
  ar_headers a1 = ar_headers a2 → node_valid a1 f1 → node_valid a2 f2 → same_node a1 f1 a2 f2 → iso a1 a2 f1 f2.
Proof.
  intros W1 W2 Hc Hd HH V1 V2 Hs. destruct (nvalid_repr _ _ _ W1 V1) as [d1 R1]. destruct (nvalid_repr _ _ _ W2 V2) as [d2 R2].
  assert (d1 = d2) as <-; [|by exists d1]. 
  assert (∃ H, (∀ d id, repr a1 d id → hdby H d) ∧ ∀ d id, repr a2 d id → hdby H d) as (H & K1 & K2).
  { pose proof Hd as Hd2. unfold levels_distinct in Hd2.
    exists (λ l, default (Header 0 0 EmptyString 0) (list_find (λ hd, h_level hd = l) (ar_headers a1) ≫= λ p, Some p.2)).
    assert (HF : ∀ h hd, ar_headers a1 !! h = Some hd → hd = default (Header 0 0 EmptyString 0) (list_find (λ hd', h_level hd' = h_level hd) (ar_headers a1) ≫= λ p, Some p.2)).
    { intros h hd Hh. destruct (list_find_elem_of (λ hd', h_level hd' = h_level hd) (ar_headers a1) hd) as [[i x] E]; [by eapply elem_of_list_lookup_2|done|].
      rewrite E. cbn. apply list_find_Some in E as (E1 & E2 & _).
      assert (i = h) as ->; [|congruence]. eapply (NoDup_lookup _ _ _ (h_level hd) Hd2); rewrite list_lookup_fmap, ?E1, ?Hh; cbn; by rewrite ?E2. }
    assert (HG : ∀ a : arena T, ar_headers a = ar_headers a1 → ∀ d id, repr a d id →
      hdby (λ l, default (Header 0 0 EmptyString 0) (list_find (λ hd, h_level hd = l) (ar_headers a1) ≫= λ p, Some p.2)) d).
    { intros a Ha. induction d as [t|hd ds IH] using dd_ind'; intros id Hr; [done|].
      apply repr_br in Hr as [_ (h & cs & _ & Hh & Hf)]. apply hdby_br. split; [rewrite Ha in Hh; by eapply HF|].
      rewrite Forall_forall in IH. apply Forall_lookup. intros i d Hdi.
      destruct (Forall2_lookup_l _ _ _ _ _ Hf Hdi) as (c & Hci & Hrc). eapply IH; [by eapply elem_of_list_lookup_2|done]. }
    split; by apply HG. }
  eapply (canon (Eof (ar_headers a1) (λ _, 0)) H); eauto using nredd.
  - intros l. by apply Eof_pos.
  - by eapply repr_okh.
  - rewrite HH. eapply repr_okh; [done| |done]. by rewrite <- HH.
  - intros ρ Hv. assert (Hr : in_range a1 ρ) by (eapply vok_vokh; done).
    assert (Hr2 : in_range a2 ρ) by (unfold in_range; by rewrite <- HH).
    destruct (okh_total (ar_headers a1) d1 ρ) as [t Ht]; [by eapply repr_okh|done|].
    rewrite Ht. symmetry. apply (nval_eval a2 ρ d2 f2 t R2), (Hs ρ t Hr Hr2), (nval_eval a1 ρ d1 f1 t R1), Ht.
Qed.
Lemma iso_same {T} (a1 a2 : arena T) f1 f2 : iso a1 a2 f1 f2 → same_node a1 f1 a2 f2.
Proof. intros (d & R1 & R2) rho t _ _. by rewrite (nval_eval a1 rho d f1 t R1), (nval_eval a2 rho d f2 t R2). Qed.
Lemma iso_ext {T} (a1 a2 a1' a2' : arena T) f1 f2 : ext a1 a1' → ext a2 a2' → iso a1 a2 f1 f2 → iso a1' a2' f1 f2.
Proof. intros E1 E2 (d & R1 & R2). exists d. split; by eapply repr_mono. Qed.

(** ** nodes of combined managers *)
Definition miso (m1 m2 : mm) (x y : mnode) : Prop :=
  match x, y with
  | NVal f, NVal g => iso (var m1) (var m2) f g
  | NBool f, NBool g => iso (bar m1) (bar m2) f g
  | _, _ => False
  end.
Lemma miso_same m1 m2 x y : miso m1 m2 x y → same_mnode m1 x m2 y.
Proof. destruct x, y; try done; cbn; apply iso_same. Qed.
Lemma miso_l m1 m2 x y : miso m1 m2 x y → mm_valid m1 x.
Proof. destruct x, y; try done; cbn; intros (d & R1 & _); by eapply repr_live. Qed.
Lemma miso_r m1 m2 x y : miso m1 m2 x y → mm_valid m2 y.
Proof. destruct x, y; try done; cbn; intros (d & _ & R2); by eapply repr_live. Qed.
Lemma miso_ext I m1 m2 m1' m2' x y : mext I m1 m1' → mext I m2 m2' → miso m1 m2 x y → miso m1' m2' x y.
Proof. intros (_ & B1 & V1) (_ & B2 & V2). destruct x, y; try done; cbn; by apply iso_ext. Qed.

Section two.
Context (I : vint).
(** two managers in step *)
Record pair (m1 m2 : mm) : Prop := {
  pr_1 : xmm I m1;
  pr_2 : xmm I m2;
  pr_h : hdrs m1 = hdrs m2;
  pr_l : levels_distinct (bar m1);
}.
(** the outcomes of a call in the two managers *)
Definition after (m1 m2 : mm) (p q : mm * mnode) : Prop :=
  mmstep I m1 p.1 ∧ mmstep I m2 q.1 ∧ pair p.1 q.1 ∧ miso p.1 q.1 p.2 q.2.

Lemma pair_vh m1 m2 : pair m1 m2 → ar_headers (var m1) = ar_headers (var m2).
Proof. intros [X1 X2 HH _]. by rewrite (mmw_h _ _ (xm_wf _ _ X1)), (mmw_h _ _ (xm_wf _ _ X2)). Qed.
Lemma pair_wb1 m1 m2 : pair m1 m2 → awf Rn (bar m1). Proof. intros [X1 _ _ _]. apply (wb _ _ (xm_wf _ _ X1)). Qed.
Lemma pair_wb2 m1 m2 : pair m1 m2 → awf Rn (bar m2). Proof. intros [_ X2 _ _]. apply (wb _ _ (xm_wf _ _ X2)). Qed.
Lemma pair_wv1 m1 m2 : pair m1 m2 → awf Rn (var m1). Proof. intros [X1 _ _ _]. apply (tg_wf _ _ (tw_good _ _ (mmw_v _ _ (xm_wf _ _ X1)))). Qed.
Lemma pair_wv2 m1 m2 : pair m1 m2 → awf Rn (var m2). Proof. intros [_ X2 _ _]. apply (tg_wf _ _ (tw_good _ _ (mmw_v _ _ (xm_wf _ _ X2)))). Qed.
Lemma pair_hc m1 m2 : pair m1 m2 → hcons (hdrs m1).
Proof. intros [X1 _ _ _]. apply (mm_hc I). apply X1. Qed.
Lemma pair_step m1 m2 m1' m2' : pair m1 m2 → mmstep I m1 m1' → mmstep I m2 m2' → xmm I m1' → xmm I m2' → pair m1' m2'.
Proof.
  intros P (_ & _ & _ & H1) (_ & _ & _ & H2) X1 X2. constructor; [done|done|rewrite H1, H2; apply P|]. unfold levels_distinct. rewrite H1. apply P.
Qed.
Lemma same_miso m1 m2 x y : pair m1 m2 → mm_valid m1 x → mm_valid m2 y → same_mnode m1 x m2 y → miso m1 m2 x y.
Proof.
  intros P. destruct x, y; try done; cbn; intros V1 V2 Hs; apply same_iso; try done.
  - by eapply pair_wv1.
  - by eapply pair_wv2.
  - rewrite (mmw_h _ _ (xm_wf _ _ (pr_1 _ _ P))). by eapply pair_hc.
  - unfold levels_distinct. rewrite (mmw_h _ _ (xm_wf _ _ (pr_1 _ _ P))). apply P.
  - by apply pair_vh.
  - by eapply pair_wb1.
  - by eapply pair_wb2.
  - by eapply pair_hc.
  - apply P.
  - apply P.
Qed.
Lemma pair_agree m1 m2 : pair m1 m2 → states_agree (bar m1) (bar m2).
Proof.
  intros P hd1 hd2 H1 H2 Hl. rewrite <- (pr_h _ _ P) in H2. pose proof (pr_l _ _ P) as D. unfold levels_distinct in D.
  apply elem_of_list_lookup in H1 as [i H1], H2 as [j H2].
  assert (i = j) as ->; [|congruence]. eapply (NoDup_lookup _ _ _ (h_level hd1) D); rewrite list_lookup_fmap, ?H1, ?H2; cbn; by rewrite ?Hl.
Qed.
Lemma pair_l2 m1 m2 : pair m1 m2 → levels_distinct (bar m2).
Proof. intros P. unfold levels_distinct. rewrite <- (pr_h _ _ P). apply P. Qed.

Section ops.
Context (m1 m2 : mm) (P : pair m1 m2).
Local Notation X1 := (pr_1 _ _ P).
Local Notation X2 := (pr_2 _ _ P).
Local Notation W1 := (xm_wf _ _ X1).
Local Notation W2 := (xm_wf _ _ X2).

Lemma exec_of_ask m c m' r : mm_ask I m c = Some (m', r) → mm_exec I m c = Some m'.
Proof.
  destruct c as [| | |f|o f g|o f g|c f g|f g h|f g| |]; cbn [mm_ask mm_exec]; try discriminate; try (intros E; rewrite E; reflexivity).
  unfold as_val. destruct (mm_vif m f g) as [[? ?]|]; cbn; [|discriminate]. by intros [= <- <-].
Qed.
Lemma ask_x m c m' r : xmm I m → mm_legal m c → mm_ask I m c = Some (m', r) → xmm I m'.
Proof. intros X L E. eapply xmm_exec; [exact X|exact L|]. by eapply exec_of_ask. Qed.
Lemma after_of c1 c2 : mm_legal m1 c1 → mm_legal m2 c2 → mm_safe I m1 c1 → mm_safe I m2 c2 → same_mm_call m1 c1 m2 c2 →
  osim (after m1 m2) (mm_ask I m1 c1) (mm_ask I m2 c2).
Proof.
  intros L1 L2 Q1 Q2 Hs. destruct (ask_same_x I m1 m2 c1 c2 X1 X2 (pair_agree _ _ P) (pr_l _ _ P) (pair_l2 _ _ P) L1 L2 Q1 Q2 Hs)
    as (m1' & r1 & m2' & r2 & E1 & E2 & V1 & V2 & Hr). rewrite E1, E2. constructor.
  destruct (ask_step I _ _ _ _ W1 L1 E1) as [S1 _]. destruct (ask_step I _ _ _ _ W2 L2 E2) as [S2 _].
  assert (P' : pair m1' m2').
  { apply (pair_step m1 m2). 1: exact P. 1: exact S1. 1: exact S2. 1: exact (ask_x m1 c1 m1' r1 X1 L1 E1). exact (ask_x m2 c2 m2' r2 X2 L2 E2). }
  unfold after. cbn. sp; try done. by apply same_miso.
Qed.
Lemma refl_after x y : miso m1 m2 x y → after m1 m2 (m1, x) (m2, y).
Proof. intros Hi. unfold after. cbn [fst snd]. sp; [apply (mmstep_refl I), W1|apply (mmstep_refl I), W2|done|done]. Qed.

Lemma undetb_iso : miso m1 m2 (NBool mdd_undet) (NBool mdd_undet).
Proof. exists (Leaf TUndet). split; apply mg_undet; [apply (mw_good _ (mmw_b _ _ W1))|apply (mw_good _ (mmw_b _ _ W2))]. Qed.
Lemma undetv_iso : miso m1 m2 (NVal mt_undet) (NVal mt_undet).
Proof. exists (Leaf VUndet). split; [apply (tg_undet _ _ (tw_good _ _ (mmw_v _ _ W1)))|apply (tg_undet _ _ (tw_good _ _ (mmw_v _ _ W2)))]. Qed.

Lemma not_sim x y : miso m1 m2 x y → osim (after m1 m2) (mm_not m1 x) (mm_not m2 y).
Proof.
  intros Hi. destruct x as [f|f], y as [g|g]; try done; [cbn; constructor; apply refl_after, undetb_iso|].
  apply (after_of (XNot (NBool f)) (XNot (NBool g))); try done; [by eapply miso_l|by eapply miso_r|by apply miso_same].
Qed.
Lemma gate_sim o x1 x2 y1 y2 : miso m1 m2 x1 y1 → miso m1 m2 x2 y2 → osim (after m1 m2) (mm_gate o m1 x1 x2) (mm_gate o m2 y1 y2).
Proof.
  intros H1 H2. apply (after_of (XGate o x1 x2) (XGate o y1 y2)); try done.
  - split; by eapply miso_l.
  - split; by eapply miso_r.
  - cbn [same_mm_call]. sp; [done|by apply miso_same|by apply miso_same].
Qed.
Lemma cmp_sim c x1 x2 y1 y2 : miso m1 m2 x1 y1 → miso m1 m2 x2 y2 → osim (after m1 m2) (mm_cmp c m1 x1 x2) (mm_cmp c m2 y1 y2).
Proof.
  intros H1 H2. apply (after_of (XCmp c x1 x2) (XCmp c y1 y2)); try done.
  - split; by eapply miso_l.
  - split; by eapply miso_r.
  - cbn [same_mm_call]. sp; [done|by apply miso_same|by apply miso_same].
Qed.
Lemma ite_sim x1 x2 x3 y1 y2 y3 : miso m1 m2 x1 y1 → miso m1 m2 x2 y2 → miso m1 m2 x3 y3 →
  osim (after m1 m2) (mm_ite m1 x1 x2 x3) (mm_ite m2 y1 y2 y3).
Proof.
  intros H1 H2 H3. destruct (decide (same_kind x2 x3)) as [Hk|Hk].
  - apply (after_of (XIte x1 x2 x3) (XIte y1 y2 y3)); try done.
    + cbn. sp; try done; by eapply miso_l.
    + cbn. sp; try (by eapply miso_r). by destruct x2, x3, y2, y3.
    + cbn [same_mm_call]. sp; by apply miso_same.
  - destruct x2, x3; try done; destruct y2, y3; try done; destruct x1, y1; try done; constructor.
Qed.
(** arithmetic: overflow panics in both or in none *)
Lemma arith_sim o x1 x2 y1 y2 : miso m1 m2 x1 y1 → miso m1 m2 x2 y2 → osim (after m1 m2) (mm_arith I o m1 x1 x2) (mm_arith I o m2 y1 y2).
Proof.
  intros H1 H2. destruct x1 as [f1|f1], y1 as [g1|g1]; try done; destruct x2 as [f2|f2], y2 as [g2|g2]; try done; cbn [mm_arith];
    try (constructor; apply refl_after, undetv_iso).
  pose proof H1 as (d1 & R1 & R1'). pose proof H2 as (d2 & R2 & R2').
  pose proof (mt_bin_ok I o (mm_v m1) f1 f2 d1 d2 (mmw_v _ _ W1) R1 R2) as B1.
  pose proof (mt_bin_ok I o (mm_v m2) g1 g2 d1 d2 (mmw_v _ _ W2) R1' R2') as B2.
  pose proof (ask_step I m1 (XArith o (NVal f1) (NVal f2))) as A1. pose proof (ask_step I m2 (XArith o (NVal g1) (NVal g2))) as A2.
  pose proof (ask_x m1 (XArith o (NVal f1) (NVal f2))) as Y1. pose proof (ask_x m2 (XArith o (NVal g1) (NVal g2))) as Y2.
  cbn [mm_ask mm_legal mm_arith] in A1, A2, Y1, Y2.
  assert (L1 : mm_valid m1 (NVal f1) ∧ mm_valid m1 (NVal f2)) by (split; by eapply miso_l).
  assert (L2 : mm_valid m2 (NVal g1) ∧ mm_valid m2 (NVal g2)) by (split; by eapply miso_r).
  pose proof (pair_vh _ _ P) as Hv.
  destruct (mt_bin I o (mm_v m1) f1 f2) as [[v1 r1]|], (mt_bin I o (mm_v m2) g1 g2) as [[v2 r2]|]; cbn [tres on_v mbind option_bind] in *.
  - destruct (A1 _ _ W1 L1 eq_refl) as [S1 V1]. destruct (A2 _ _ W2 L2 eq_refl) as [S2 V2].
    specialize (Y1 _ _ X1 L1 eq_refl). specialize (Y2 _ _ X2 L2 eq_refl).
    assert (P' : pair (mm_with_v m1 v1) (mm_with_v m2 v2)) by (by apply (pair_step m1 m2)).
    constructor. unfold after. cbn [fst snd]. sp; try done. apply same_miso; [done..|]. cbn. destruct B1 as [_ (e1 & Q1 & _ & D1)], B2 as [_ (e2 & Q2 & _ & D2)].
    apply same_intro. intros rho K1 K2.
    destruct S1 as (Sw & _ & _ & Sh). 
    assert (K : vokh (ar_headers (var m1)) rho). { intros hd Hin. apply K1. pose proof (mmw_h _ _ Sw) as Hq. rewrite Sh in Hq. cbn in Hq. rewrite Hq, <- (mmw_h _ _ W1). done. }
    destruct (D1 rho K) as (a & b & c & Ea & Eb & Ec & T1). rewrite Hv in K. destruct (D2 rho K) as (a' & b' & c' & Ea' & Eb' & Ec' & T2).
    rewrite Ea in Ea'. injection Ea' as <-. rewrite Eb in Eb'. injection Eb' as <-. unfold MtProofs.trel in T1, T2. rewrite T1 in T2. injection T2 as <-.
    exists c. split; [by apply (nval_eval _ _ _ _ _ Q1)|by apply (nval_eval _ _ _ _ _ Q2)].
  - exfalso. destruct B1 as [_ (e1 & Q1 & _ & D1)], B2 as (rho & a & b & Hr & Ea & Eb & Hn). rewrite <- Hv in Hr.
    destruct (D1 rho Hr) as (a' & b' & c & Ea' & Eb' & _ & T1). unfold MtProofs.trel in T1. congruence.
  - exfalso. destruct B2 as [_ (e1 & Q1 & _ & D1)], B1 as (rho & a & b & Hr & Ea & Eb & Hn). rewrite Hv in Hr.
    destruct (D1 rho Hr) as (a' & b' & c & Ea' & Eb' & _ & T1). unfold MtProofs.trel in T1. congruence.
  - constructor.
Qed.
Lemma bin_sim o x1 x2 y1 y2 : miso m1 m2 x1 y1 → miso m1 m2 x2 y2 → osim (after m1 m2) (mm_bin I o m1 x1 x2) (mm_bin I o m2 y1 y2).
Proof. destruct o; cbn [mm_bin]; [apply arith_sim|apply cmp_sim|apply gate_sim]. Qed.
Lemma value_sim z : osim (after m1 m2) (Some (mm_value m1 z)) (Some (mm_value m2 z)).
Proof.
  pose proof (xmm_exec I m1 (XValue z) _ X1 Logic.I eq_refl) as Y1. pose proof (xmm_exec I m2 (XValue z) _ X2 Logic.I eq_refl) as Y2. 
  destruct (mm_value_l I m1 z W1) as (m1' & r1 & E1 & S1 & V1 & H1). destruct (mm_value_l I m2 z W2) as (m2' & r2 & E2 & S2 & V2 & H2).
  rewrite E1, E2 in *. cbn in Y1, Y2. assert (P' : pair m1' m2') by (by apply (pair_step m1 m2)).
  constructor. unfold after. cbn [fst snd]. sp; try done. apply same_miso; [done..|].
  destruct (H1 (λ _, 0)) as (f1 & -> & _). destruct (H2 (λ _, 0)) as (f2 & -> & _). apply same_intro. intros rho _ _. exists (VVal z).
  destruct (H1 rho) as (? & [= <-] & ?). by destruct (H2 rho) as (? & [= <-] & ?).
Qed.
End ops.

Lemma after_miso m1 m2 p q x y : after m1 m2 p q → miso m1 m2 x y → miso p.1 q.1 x y.
Proof. intros (S1 & S2 & _ & _). apply (miso_ext I); by apply mmstep_mext. Qed.
Lemma after_trans m1 m2 p q p' q' : after m1 m2 p q → after p.1 q.1 p' q' → after m1 m2 p' q'.
Proof. intros (S1 & S2 & _ & _) (S1' & S2' & ? & ?). unfold after. sp; [by eapply (mmstep_trans I)|by eapply (mmstep_trans I)|done|done]. Qed.
Lemma after_weak m1 m2 m1' m2' p q : mmstep I m1 m1' → mmstep I m2 m2' → after m1' m2' p q → after m1 m2 p q.
Proof. intros S1 S2 (S1' & S2' & ? & ?). unfold after. sp; [by eapply (mmstep_trans I)|by eapply (mmstep_trans I)|done|done]. Qed.

Lemma fold_sim o xs : ∀ ys m1 m2 a b, pair m1 m2 → miso m1 m2 a b → Forall2 (miso m1 m2) xs ys →
  osim (after m1 m2) (mm_fold (mm_bin I o) m1 a xs) (mm_fold (mm_bin I o) m2 b ys).
Proof.
  induction xs as [|x xs IH]; intros ys m1 m2 a b P Hab Hf.
  - apply Forall2_nil_inv_l in Hf as ->. cbn. constructor. by apply refl_after.
  - apply Forall2_cons_inv_l in Hf as (y & ys' & Hx & Hf & ->). cbn [mm_fold].
    eapply osim_bind; [by apply bin_sim|]. intros [m1' r1] [m2' r2] Ha. pose proof Ha as (S1 & S2 & P' & Hr). cbn in S1, S2, P', Hr.
    eapply osim_impl; [apply IH; [done|done|]|intros p q; by apply after_weak].
    eapply Forall2_impl; [exact Hf|]. intros u v. by apply (after_miso _ _ _ _ _ _ Ha).
Qed.
End two.
