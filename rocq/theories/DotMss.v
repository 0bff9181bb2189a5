(** Graphviz output of the multi-state wrappers. *)
From Coq Require Import Ascii.
From stdpp Require Import strings pretty.
From Verif Require Import Prelude ComputeCache Arena Trees ArenaProofs ArenaMore Bdd Mdd MtMdd MtMdd2 Zmdd BssMgr ZmddAlg MssMgr
  SpecBdd SpecMdd SpecZmdd SpecZmddAlg SpecMss NaryProofs MddProofs MddMain MtProofs MmProofs MmMain MssMgrProofs MssRpn ZmddProofs ZmddMain MssSolMgr MssFam MssExtract
  Dot SpecDot DotProofs DotText DotMain.

(** ** MddMgr *)
Section mdd.
Context (I : vint) {B : mbase}.
Lemma g_dot_ok w H x F : gok I w H → (x, Some F) ∈ H →
  ∃ ls, g_dot w x = Some (dot_text ls) ∧ mm_drawing (g_mm w) x ls ∧
    ∀ e, mrange (g_mm w) e → ∃ o, answers (F e) o ∧ ∀ o', reads ls e (node_no x) o' ↔ o' = o.
Proof.
  intros Hk Hx. pose proof (gk_held _ _ _ Hk _ _ Hx) as [Hv Hd]. specialize (Hd F eq_refl). pose proof (gk_wf _ _ _ Hk) as Hw.
  destruct x as [f|f]; cbn [g_dot mm_drawing node_no].
  - assert (Hwf : awf Rn (t_ar (mm_v (g_mm w)))) by apply Hw. destruct (dot_ok v_tlabel v_hidden _ _ Hwf f Hv) as (ls & Hrun & Hls).
    exists ls. unfold dot_of. rewrite Hrun. sp; [done|exact (drawing_ext _ _ _ _ _ _ _ v_says v_out Hls)|]. intros e He. specialize (Hd e He).
    destruct (F e) as [b|t]; cbn [mvalue] in Hd; [done|]. eexists. split; [|intros o'; exact (read_ok _ _ _ _ _ Hls e f t (dr_root _ _ _) Hd o')].
    unfold result. destruct t as [|z]; cbn [answers v_hidden v_tlabel]; destruct (ar_nodes _ !! f) as [[]|]; auto.
  - assert (Hwf : awf Rn (d_ar (mm_b (g_mm w)))) by apply Hw. destruct (dot_ok m_tlabel b_hidden _ _ Hwf f Hv) as (ls & Hrun & Hls).
    exists ls. unfold dot_of. rewrite Hrun. sp; [done|exact (drawing_ext _ _ _ _ _ _ _ m_says b_out Hls)|]. intros e He. specialize (Hd e He).
    destruct (F e) as [b|t]; cbn [mvalue] in Hd; [|done]. eexists. split; [|intros o'; exact (read_ok _ _ _ _ _ Hls e f _ (dr_root _ _ _) Hd o')].
    unfold result. destruct b; cbn [answers]; destruct (ar_nodes _ !! f) as [[]|]; done.
Qed.
Lemma answers_inj v v' o : answers v o → answers v' o → v = v'.
Proof.
  assert (Hw : ∀ z : Z, pretty z ≠ "T"%string ∧ pretty z ≠ "F"%string ∧ pretty z ≠ "Undet"%string).
  { intros z. sp; apply numeric_word; set_solver. }
  destruct v as [b|[|z]], v' as [b'|[|z']]; cbn [answers]; intros H1 H2; subst; try done.
  - by destruct b, b'.
  - destruct H2 as [?|?]; [done|]. by destruct b.
  - destruct (Hw z') as (? & ? & ?). destruct b; congruence.
  - destruct H1 as [?|?]; [done|]. by destruct b'.
  - destruct (Hw z') as (? & ? & ?). destruct H1 as [?|?]; congruence.
  - destruct (Hw z) as (? & ? & ?). destruct b'; congruence.
  - destruct (Hw z) as (? & ? & ?). destruct H2 as [?|?]; congruence.
  - apply (inj Some) in H2. apply (inj pretty) in H2. by subst.
Qed.
Lemma mm_plain w x ls : mm_drawing (g_mm w) x ls → clean (t_ar (mm_v (g_mm w))) → clean (d_ar (mm_b (g_mm w))) → Forall plain ls.
Proof.
  destruct x; intros; eapply lines_plain; try done; intros t; [rewrite <- v_says|rewrite <- m_says]; apply tlabels_plain.
Qed.
Lemma g_dot_text w H x F w' H' y G : gok I w H → (x, Some F) ∈ H → gok I w' H' → (y, Some G) ∈ H' →
  clean (t_ar (mm_v (g_mm w))) → clean (t_ar (mm_v (g_mm w'))) → g_dot w x = g_dot w' y →
  ∀ e, mrange (g_mm w) e → mrange (g_mm w') e → F e = G e.
Proof.
  intros Hk Hf Hk' Hg Hc Hc' Heq e He He'. destruct (g_dot_ok w H x F Hk Hf) as (ls & Hr & Hls & Hrd).
  destruct (g_dot_ok w' H' y G Hk' Hg) as (ls' & Hr' & Hls' & Hrd'). rewrite Hr, Hr' in Heq. apply (inj Some) in Heq.
  pose proof (gk_wf _ _ _ Hk) as Hw. pose proof (gk_wf _ _ _ Hk') as Hw'.
  assert (Hb : clean (d_ar (mm_b (g_mm w)))) by (unfold clean; by rewrite <- (mmw_h _ _ Hw)).
  assert (Hb' : clean (d_ar (mm_b (g_mm w')))) by (unfold clean; by rewrite <- (mmw_h _ _ Hw')).
  apply text_inj in Heq as <-; [|by eapply mm_plain..].
  assert (Hno : node_no x = node_no y).
  { pose proof (proj1 (gk_held _ _ _ Hk _ _ Hf)) as Vx. pose proof (proj1 (gk_held _ _ _ Hk' _ _ Hg)) as Vy.
    assert (Hwv : awf Rn (t_ar (mm_v (g_mm w)))) by apply Hw. assert (Hwb : awf Rn (d_ar (mm_b (g_mm w)))) by apply Hw.
    assert (Hwv' : awf Rn (t_ar (mm_v (g_mm w')))) by apply Hw'. assert (Hwb' : awf Rn (d_ar (mm_b (g_mm w')))) by apply Hw'.
    destruct x as [f|f], y as [g|g]; cbn [node_no mm_drawing mm_valid] in *.
    - destruct (nvalid_repr _ _ _ Hwv Vx) as [d Hd], (nvalid_repr _ _ _ Hwv' Vy) as [d' Hd']. exact (same_root _ _ _ _ _ _ _ _ _ _ _ _ Hwv Hd Hd' Hls Hls').
    - destruct (nvalid_repr _ _ _ Hwv Vx) as [d Hd], (nvalid_repr _ _ _ Hwb' Vy) as [d' Hd']. exact (same_root _ _ _ _ _ _ _ _ _ _ _ _ Hwv Hd Hd' Hls Hls').
    - destruct (nvalid_repr _ _ _ Hwb Vx) as [d Hd], (nvalid_repr _ _ _ Hwv' Vy) as [d' Hd']. exact (same_root _ _ _ _ _ _ _ _ _ _ _ _ Hwb Hd Hd' Hls Hls').
    - destruct (nvalid_repr _ _ _ Hwb Vx) as [d Hd], (nvalid_repr _ _ _ Hwb' Vy) as [d' Hd']. exact (same_root _ _ _ _ _ _ _ _ _ _ _ _ Hwb Hd Hd' Hls Hls'). }
  destruct (Hrd e He) as (o & Ha & Ho). destruct (Hrd' e He') as (o' & Ha' & Ho'). rewrite <- Hno in Ho'.
  assert (o = o') as <- by (apply Ho', Ho; done). by eapply answers_inj.
Qed.

(** ** ZmddMgr *)
Definition same_vec (vars : list (string * nat)) (v : nat → nat) (e : string → nat) : Prop :=
  (∀ l s n, vars !! l = Some (s, n) → e s = v l) ∧ (∀ l, length vars ≤ l → v l = 0) ∧ ∀ s, s ∉ vars.*1 → e s = 0.
Lemma same_step vars v e l s n : NoDup vars.*1 → vars !! l = Some (s, n) → same_vec vars v e →
  same_vec vars (with_comp v l 0) (λ s', if decide (s' = s) then 0 else e s').
Proof.
  intros Hnd Hl (H1 & H2 & H3). unfold same_vec, with_comp. sp.
  - intros l' s' n' Hl'. destruct (decide (s' = s)) as [->|Hne], (decide (l' = l)) as [->|Hne']; try done.
    + exfalso. apply Hne'. eapply (NoDup_lookup vars.*1 l' l s); [done|by rewrite list_lookup_fmap, Hl'|by rewrite list_lookup_fmap, Hl].
    + congruence.
    + by eapply H1.
  - intros l' Hlen. destruct (decide (l' = l)); [done|]. by apply H2.
  - intros s' Hs. destruct (decide (s' = s)); [done|]. by apply H3.
Qed.
Lemma same_by_name vars v : NoDup vars.*1 → (∀ l, length vars ≤ l → v l = 0) → same_vec vars v (by_name vars v).
Proof.
  intros Hnd Hz. unfold same_vec, by_name. sp; [|done|].
  - intros l s n Hl. destruct (list_find (λ p, p.1 = s) vars) as [[i [s' n']]|] eqn:Hf.
    + apply list_find_Some in Hf as (Hi & Hs & _). cbn in Hs. subst s'. f_equal.
      eapply (NoDup_lookup vars.*1 i l s); [done|by rewrite list_lookup_fmap, Hi|by rewrite list_lookup_fmap, Hl].
    + rewrite list_find_None, Forall_lookup in Hf. by destruct (Hf _ _ Hl).
  - intros s Hs. destruct (list_find (λ p, p.1 = s) vars) as [[i [s' n']]|] eqn:Hf; [|done].
    apply list_find_Some in Hf as (Hi & Hs' & _). cbn in Hs'. subst s'. destruct Hs. apply elem_of_list_fmap. exists (s, n'). split; [done|].
    by eapply elem_of_list_lookup_2.
Qed.
Section vec.
Context (a : arena vt) (vars : list (string * nat)) (Hnd : NoDup vars.*1) (root : nat) (Hcov : vars_cover a vars root)
  (ls : list dline) (Hls : drawing v_tlabel v_hidden a root ls).
Lemma drawn_reaches id : drawn v_hidden a root id → node_reaches a [root] id.
Proof.
  induction 1 as [|p i c Hp IH (h & cs & Hn & Hc & _)]; [constructor; by left|]. eapply nrs_edge; [exact IH|exact Hn|]. by eapply elem_of_list_lookup_2.
Qed.
Lemma vspells_ok id v e z : drawn v_hidden a root id → same_vec vars v e → (vspells ls z id e ↔ zmember a id v z).
Proof.
  intros Hdr Hv. split.
  - intros Hs. revert v Hdr Hv. induction Hs as [id e Hx He|id x c e Hx He Hs IH]; intros v Hdr Hv.
    + apply (node_line _ _ _ _ _ Hls) in Hx as [_ Hx]. unfold SpecDot.caption in Hx. destruct (ar_nodes a !! id) as [[t|]|] eqn:Hn; [|by destruct Hx|done].
      destruct Hx as [_ Ht]. destruct t as [|z']; cbn [v_tlabel] in Ht.
      { exfalso. eapply (numeric_word z "U"); [set_solver|exact Ht]. }
      apply (inj pretty) in Ht as <-. apply zm_term; [done|]. intros l. destruct (vars !! l) as [[s n]|] eqn:Hl.
      * rewrite <- (proj1 Hv _ _ _ Hl). done.
      * by apply Hv, lookup_ge_None.
    + apply (node_line _ _ _ _ _ Hls) in Hx as [_ Hx]. apply (edge_line _ _ _ _ _ Hls) in He as [_ He]. unfold SpecDot.caption in Hx.
      pose proof (dr_arrow _ _ _ _ _ _ Hdr He) as Hdc. destruct He as (h & cs & Hn & Hc & _). rewrite Hn in Hx. destruct Hx as [_ (hd & Hh & ->)].
      pose proof (Hcov _ _ _ _ (drawn_reaches _ Hdr) Hn Hh) as Hl. rewrite (proj1 Hv _ _ _ Hl) in Hc.
      eapply zm_node; [exact Hn|exact Hh|exact Hc|]. apply IH; [exact Hdc|]. by eapply same_step.
  - intros Hm. revert e Hdr Hv. induction Hm as [id z v Hn Hz|id h cs hd c v z Hn Hh Hc Hm IH]; intros e Hdr Hv.
    + apply vs_square.
      * apply (node_line _ _ _ _ _ Hls). split; [done|]. unfold SpecDot.caption. by rewrite Hn.
      * intros s. destruct (decide (s ∈ vars.*1)) as [Hs|Hs]; [|by apply Hv]. apply elem_of_list_fmap in Hs as ([s' n] & -> & [l Hl]%elem_of_list_lookup).
        cbn. by rewrite (proj1 Hv _ _ _ Hl).
    + pose proof (Hcov _ _ _ _ (drawn_reaches _ Hdr) Hn Hh) as Hl. rewrite <- (proj1 Hv _ _ _ Hl) in Hc.
      assert (Ha : arrow v_hidden a id (e (h_label hd)) c).
      { exists h, cs. sp; [done|done|]. unfold SpecDot.shown. inversion Hm as [? ? ? Hn'|? ? ? ? ? ? ? Hn']; subst; by rewrite Hn'. }
      eapply vs_follow.
      * apply (node_line _ _ _ _ _ Hls). split; [done|]. unfold SpecDot.caption. rewrite Hn. split; [done|eauto].
      * apply (edge_line _ _ _ _ _ Hls). split; [done|exact Ha].
      * apply IH; [by eapply dr_arrow|]. by eapply same_step.
Qed.
End vec.
Lemma q_dot_ok s H Q x R : mss_held I s H Q → (x, R) ∈ Q →
  ∃ ls, q_dot (s_z s) (zn_id x) = Some (dot_text ls) ∧ drawing v_tlabel v_hidden (t_ar (q_z (s_z s))) (zn_id x) ls ∧
    ∀ R', R = Some R' → ∀ v z, (∀ l, length (zn_vars x) ≤ l → v l = 0) → (vspells ls z (zn_id x) (by_name (zn_vars x) v) ↔ R' v z).
Proof.
  intros [Hg Hk]%mss_held_ok Hx. pose proof (qk_fam _ _ _ Hk _ _ Hx) as Hf. pose proof (fo_val _ _ _ _ Hf) as Hv.
  assert (Hwf : awf Rz (t_ar (q_z (s_z s)))) by exact (zmg_wf _ _ (zmw_good _ (zm_reachable_wf _ (qk_re _ _ _ Hk)))).
  destruct (dot_ok v_tlabel v_hidden _ _ Hwf (zn_id x) Hv) as (ls & Hrun & Hls). exists ls. unfold q_dot, dot_of. rewrite Hrun. sp; [done|done|].
  intros R' HR v z Hz. rewrite <- (fo_den _ _ _ _ Hf R' HR).
  assert (Hhc : hcons (hdrs (g_mm (s_m s)))) by exact (gok_hc I _ _ Hg).
  eapply (vspells_ok _ (zn_vars x)); [| |exact Hls|constructor|].
  - apply (famok_vars _ _ _ _ Hhc (gk_nodup _ _ _ Hg) Hf).
  - exact (famok_cover _ _ _ _ (gk_lvl _ _ _ Hg) (qk_re _ _ _ Hk) (qk_hd _ _ _ Hk) Hf).
  - apply same_by_name; [|done]. apply (famok_vars _ _ _ _ Hhc (gk_nodup _ _ _ Hg) Hf).
Qed.
End mdd.
