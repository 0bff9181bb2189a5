(** Graphviz output of the wrappers. *)
From Coq Require Import Ascii.
From stdpp Require Import strings pretty.
From Verif Require Import Prelude ComputeCache Arena Trees ArenaProofs ArenaMore Bdd Zdd Mdd MtMdd MtMdd2 Zmdd BssMgr MssMgr ZddMgr
  SpecBdd SpecBss SpecBssMgr SpecZdd SpecZddMgr SpecMdd SpecMss BddProofs BddMain BssMgrProofs BssMgrMain ZddProofs ZddMain ZddMgrProofs ZddMgrMain
  Dot SpecDot DotProofs DotText.

(** ** The lines determine the root *)
Section two.
Context {T T' : Type} (tl : T → string) (hid : T → bool) (a : arena T) (tl' : T' → string) (hid' : T' → bool) (a' : arena T').
Lemma root_line d f ls : repr a d f → drawing tl hid a f ls → ∃ sq s, DNode f sq s ∈ ls.
Proof.
  intros Hd Hls. assert (Hc : ∃ sq s, caption tl a f sq s).
  { unfold SpecDot.caption. destruct d as [t|hd ds].
    - apply repr_leaf in Hd as [_ ->]. eauto.
    - apply repr_br in Hd as (_ & h & cs & -> & Hh & _). exists false, (h_label hd). eauto. }
  destruct Hc as (sq & s & Hc). exists sq, s. apply (node_line tl hid a f ls Hls). split; [constructor|done].
Qed.
End two.
Lemma same_root {T T'} (tl : T → string) hid a (tl' : T' → string) hid' a' R d d' f g ls :
  awf R a → repr a d f → repr a' d' g → drawing tl hid a f ls → drawing tl' hid' a' g ls → f = g.
Proof.
  intros Hwf Hd Hd' Hls Hls'. destruct (root_line tl hid a d f ls Hd Hls) as (sq & s & Hf). apply (node_line _ _ _ _ _ Hls') in Hf as [Hf _].
  destruct (decide (f = g)) as [|Hne]; [done|]. exfalso.
  inversion Hf as [|p i c Hp Ha]; [congruence|]. subst c.
  assert (He : DEdge p f i ∈ ls) by (apply (edge_line _ _ _ _ _ Hls'); done).
  apply (edge_line _ _ _ _ _ Hls) in He as [Hp' Ha']. destruct (drawn_rank hid a R Hwf d f p Hd Hp') as (dp & Hdp & _).
  by eapply (arrow_acyclic hid a R Hwf dp p i f).
Qed.
Lemma lines_plain {T} (tl : T → string) hid a f ls : drawing tl hid a f ls → clean a → (∀ t, quoteless (tl t)) → Forall plain ls.
Proof.
  intros Hls Hc Ht. apply Forall_forall. intros [id sq s|p c i] Hl; [|done]. apply (node_line _ _ _ _ _ Hls) in Hl as [_ Hl]. cbn [plain].
  unfold SpecDot.caption in Hl. destruct (ar_nodes a !! id) as [[t|h cs]|]; [by destruct Hl as [_ ->]| |done].
  destruct Hl as [_ (hd & Hh & ->)]. by eapply Hc, elem_of_list_lookup_2.
Qed.
Lemma tlabels_plain : (∀ t, quoteless (b_tlabel t)) ∧ (∀ t, quoteless (z_tlabel t)) ∧ (∀ t, quoteless (m_tlabel t)) ∧ ∀ t, quoteless (v_tlabel t).
Proof. sp; intros []; try by vm_compute. cbn [v_tlabel]. apply numeric_quote, numeric_Z. Qed.

(** ** BddMgr *)
Lemma bss_named m e id t : bss_value m e id t → named_value (b_ar m) (bits e) id t.
Proof.
  induction 1 as [id t Hn|id h lo hi hd t Hn Hh Hv IH]; [by constructor|]. eapply mv_node; [done|done| |exact IH].
  unfold bits. by destruct (e (h_label hd)).
Qed.
Lemma w_dot_ok w H f (F : nfun) : bss_held w H → (f, F) ∈ H →
  ∃ ls, w_dot w f = Some (dot_text ls) ∧ drawing b_tlabel b_hidden (b_ar (w_bdd w)) f ls ∧
    ∀ e o, reads ls (bits e) f o ↔ o = Some (if F e then "1" else "0")%string.
Proof.
  intros Hk%held_wok Hf. destruct (wk_held _ _ Hk _ _ Hf) as [Hv Hd]. assert (Hwf : awf Rb (b_ar (w_bdd w))) by apply Hk.
  destruct (dot_ok b_tlabel b_hidden _ _ Hwf f (proj1 (valid_live _ _) Hv)) as (ls & Hrun & Hls).
  exists ls. unfold w_dot, dot_of. rewrite Hrun. sp; [done|done|]. intros e o.
  rewrite (read_ok _ _ _ _ _ Hls (bits e) f _ (dr_root _ _ _) (bss_named _ _ _ _ (Hd e))). unfold result.
  destruct (ar_nodes _ !! f) as [[]|]; destruct (F e); done.
Qed.
Lemma w_dot_text w H f (F : nfun) w' H' g (G : nfun) : bss_held w H → (f, F) ∈ H → bss_held w' H' → (g, G) ∈ H' →
  clean (b_ar (w_bdd w)) → clean (b_ar (w_bdd w')) → w_dot w f = w_dot w' g → ∀ e, F e = G e.
Proof.
  intros Hk Hf Hk' Hg Hc Hc' Heq e. destruct (w_dot_ok w H f F Hk Hf) as (ls & Hr & Hls & Hrd).
  destruct (w_dot_ok w' H' g G Hk' Hg) as (ls' & Hr' & Hls' & Hrd'). rewrite Hr, Hr' in Heq. apply (inj Some) in Heq.
  apply text_inj in Heq as <-; [|eapply lines_plain; [done|done|apply tlabels_plain]..].
  apply held_wok in Hk, Hk'. destruct (valid_repr _ _ (wk_wf _ _ Hk) (proj1 (wk_held _ _ Hk _ _ Hf))) as [d Hd].
  destruct (valid_repr _ _ (wk_wf _ _ Hk') (proj1 (wk_held _ _ Hk' _ _ Hg))) as [d' Hd'].
  pose proof (same_root _ _ _ _ _ _ _ _ _ _ _ _ (gd_wf _ (bw_good _ (wk_wf _ _ Hk))) Hd Hd' Hls Hls') as <-.
  pose proof (proj2 (Hrd e _) eq_refl) as Hx. apply Hrd' in Hx. by destruct (F e), (G e).
Qed.

(** ** ZddMgr *)
Lemma zkids m : zwf m → ∀ id h cs, live (z_ar m) id → ar_nodes (z_ar m) !! id = Some (NT h cs) → ∃ hd lo hi,
  ar_headers (z_ar m) !! h = Some hd ∧ cs = [lo; hi] ∧ live (z_ar m) lo ∧ live (z_ar m) hi.
Proof.
  intros Hw id h cs Hl Hn. destruct (aw_nt _ _ (zg_wf _ (zw_good _ Hw)) _ _ _ Hl Hn) as (hd & Hh & Hlen & _ & HF).
  rewrite (zg_edges _ (zw_good _ Hw) _ _ Hh) in Hlen. unfold E2 in Hlen. destruct cs as [|lo [|hi [|]]]; try done.
  exists hd, lo, hi. apply Forall_cons in HF as [[? _] HF]. apply Forall_cons in HF as [[? _] _]. done.
Qed.
Lemma y_dot_ok w H f F : zdd_in_use w H → (f, Some F) ∈ H →
  ∃ ls, y_dot w f = Some (dot_text ls) ∧ drawing z_tlabel z_hidden (z_ar (y_zdd w)) f ls ∧ ∀ S, spells ls f S ↔ F S.
Proof.
  intros Hk%in_use_ok Hf. destruct (zk_held _ _ Hk _ _ Hf) as (Hv & _ & Hd). pose proof (zk_wf _ _ Hk) as Hw.
  destruct (dot_ok z_tlabel z_hidden _ _ (zg_wf _ (zw_good _ Hw)) f Hv) as (ls & Hrun & Hls).
  exists ls. unfold y_dot, dot_of. rewrite Hrun. sp; [done|done|]. intros S. rewrite <- Hd.
  apply (spells_ok (y_zdd w) (zkids _ Hw) f Hv ls Hls). constructor.
Qed.
Lemma y_dot_text w H f F w' H' g G : zdd_in_use w H → (f, Some F) ∈ H → zdd_in_use w' H' → (g, Some G) ∈ H' →
  clean (z_ar (y_zdd w)) → clean (z_ar (y_zdd w')) → y_dot w f = y_dot w' g → ∀ S, F S ↔ G S.
Proof.
  intros Hk Hf Hk' Hg Hc Hc' Heq S. destruct (y_dot_ok w H f F Hk Hf) as (ls & Hr & Hls & Hrd).
  destruct (y_dot_ok w' H' g G Hk' Hg) as (ls' & Hr' & Hls' & Hrd'). rewrite Hr, Hr' in Heq. apply (inj Some) in Heq.
  apply text_inj in Heq as <-; [|eapply lines_plain; [done|done|apply tlabels_plain]..].
  apply in_use_ok in Hk, Hk'. destruct (zvalid_repr _ _ (zk_wf _ _ Hk) (proj1 (zk_held _ _ Hk _ _ Hf))) as [d Hd].
  destruct (zvalid_repr _ _ (zk_wf _ _ Hk') (proj1 (zk_held _ _ Hk' _ _ Hg))) as [d' Hd'].
  pose proof (same_root _ _ _ _ _ _ _ _ _ _ _ _ (zg_wf _ (zw_good _ (zk_wf _ _ Hk))) Hd Hd' Hls Hls') as <-. by rewrite <- Hrd, <- Hrd'.
Qed.
