(** From the internal invariants of the multi-valued managers to the statements about reachable managers. *)
From Verif Require Import Prelude ComputeCache ComputeCacheProofs Arena Trees ArenaProofs Bdd ArenaMore Mdd MtMdd MtMdd2.
From Verif Require Import SpecBdd SpecMdd NaryProofs MddProofs MtProofs MmProofs.

(** ** Diagrams *)
Section gen.
Context {T : Type}.
Implicit Types a : arena T.

Lemma nval_eval a rho d id t : repr a d id → node_value a rho id t ↔ eval rho d = Some t.
Proof.
  intros Hr. split.
  - intros Hv. revert d Hr. induction Hv as [id t Hn|id h cs hd c t Hn Hh Hc Hv IH]; intros d Hr.
    + destruct d as [t'|hd ds].
      * apply repr_leaf in Hr as [_ Hn']. cbn. congruence.
      * apply repr_br in Hr as [_ (h & cs & Hn' & _)]. congruence.
    + destruct d as [t'|hd' ds].
      * apply repr_leaf in Hr as [_ Hn']. congruence.
      * apply repr_br in Hr as [_ (h' & cs' & Hn' & Hh' & Hf)].
        rewrite Hn in Hn'. injection Hn' as <- <-. rewrite Hh in Hh'. injection Hh' as <-.
        destruct (Forall2_lookup_r _ _ _ _ _ Hf Hc) as (d & Hd & Hrd).
        rewrite eval_br, Hd. cbn. by apply IH.
  - revert id t Hr. induction d as [t'|hd ds IH] using dd_ind'; intros id t Hr Hev.
    + apply repr_leaf in Hr as [_ Hn]. constructor. cbn in Hev. congruence.
    + apply repr_br in Hr as [_ (h & cs & Hn & Hh & Hf)]. rewrite eval_br in Hev.
      destruct (ds !! rho (h_level hd)) as [d|] eqn:Hd; [|done]. cbn in Hev.
      destruct (Forall2_lookup_l _ _ _ _ _ Hf Hd) as (c & Hc & Hrc).
      eapply nv_node; try done. rewrite Forall_forall in IH. eapply IH; [by eapply elem_of_list_lookup_2|done|done].
Qed.
Lemma nval_fun a rho id t t' : node_value a rho id t → node_value a rho id t' → t = t'.
Proof.
  intros H. revert t'. induction H as [id t Hn|id h cs hd c t Hn Hh Hc Hv IH]; intros t' H'.
  - destruct H' as [? ? Hn'|]; congruence.
  - destruct H' as [? ? Hn'|? h' cs' hd' c' ? Hn' Hh' Hc' Hv']; [congruence|].
    assert (c' = c) as ->; [|by apply IH]. rewrite Hn in Hn'. injection Hn' as <- <-. congruence.
Qed.

Lemma nvalid_repr R a id : awf R a → node_valid a id → ∃ d, repr a d id.
Proof. intros Hw Hv. by eapply repr_exists. Qed.
Lemma nbelow_rank a id d l : repr a d id → node_below a id l → rank d ≤ l.
Proof.
  intros Hr Hb. unfold node_below in Hb. rewrite (a_node_level _ _ _ Hr) in Hb. destruct d; cbn in *; lia.
Qed.
Lemma nreaches_reach a roots id : node_reaches a roots id ↔ reach a roots id.
Proof. split; induction 1; [by constructor|by econstructor|by constructor|by econstructor]. Qed.

Lemma nredd a d id : awf Rn a → repr a d id → redd d.
Proof.
  intros Hwf. revert id. induction d as [t|hd ds IH] using dd_ind'; intros id Hr; [done|].
  pose proof Hr as [Hl (h & cs & Hn & Hh & Hf)]%repr_br. apply redd_br. split.
  - intros [c Hc]. destruct (aw_nt _ _ Hwf _ _ _ Hl Hn) as (hd' & _ & _ & HR & _). apply HR.
    destruct ds as [|d0 ds].
    { inversion Hf; subst. by exists 0. }
    inversion Hf as [|? c0 ? cs' Hc0 Hf']; subst. exists c0. apply Forall_lookup. intros i c' Hc'.
    destruct (Forall2_lookup_r _ _ _ _ _ Hf Hc') as (d' & Hd' & Hr').
    rewrite Forall_lookup in Hc. rewrite <- (Hc _ _ Hd') in Hr'.
    assert (c = d0) as -> by by apply (Hc 0). by eapply repr_inj.
  - rewrite Forall_forall in IH. apply Forall_lookup. intros i d Hd.
    destruct (Forall2_lookup_l _ _ _ _ _ Hf Hd) as (c & Hc & Hrc).
    eapply IH; [by eapply elem_of_list_lookup_2|done].
Qed.

Lemma ncanon a f g : awf Rn a → hcons (ar_headers a) → levels_distinct a → node_valid a f → node_valid a g →
  (∀ rho t, in_range a rho → node_value a rho f t → node_value a rho g t) → f = g.
Proof.
  intros Hwf Hc Hd Vf Vg Heq. destruct (nvalid_repr _ _ _ Hwf Vf) as [df Hf]. destruct (nvalid_repr _ _ _ Hwf Vg) as [dg Hg].
  assert (df = dg) as <-; [|by eapply repr_inj].
  destruct (a_hdby _ Hd) as [H HH].
  eapply (canon (Eof (ar_headers a) (λ _, 0)) H); eauto using nredd.
  - intros l. by apply Eof_pos.
  - by eapply repr_okh.
  - by eapply repr_okh.
  - intros ρ Hv. assert (Hr : in_range a ρ) by (eapply vok_vokh; done).
    destruct (okh_total (ar_headers a) df ρ) as [t Ht]; [by eapply repr_okh|done|].
    rewrite Ht. symmetry. apply (nval_eval a ρ dg g t Hg), (Heq ρ t Hr), (nval_eval a ρ df f t Hf), Ht.
Qed.

Lemma nvalue_total a rho id : awf Rn a → hcons (ar_headers a) → in_range a rho → node_valid a id →
  ∃ t, node_value a rho id t.
Proof.
  intros Hw Hc Hr Hv. destruct (nvalid_repr _ _ _ Hw Hv) as [d Hd].
  destruct (okh_total (ar_headers a) d rho) as [t Ht]; [by eapply repr_okh|done|].
  exists t. by apply (nval_eval _ _ _ _ _ Hd).
Qed.

Lemma nval_mono a a' rho id t : ext a a' → awf Rn a → node_valid a id → node_value a rho id t ↔ node_value a' rho id t.
Proof.
  intros He Hw Hv. destruct (nvalid_repr _ _ _ Hw Hv) as [d Hd].
  rewrite (nval_eval a rho d id t Hd), (nval_eval a' rho d id t); [done|]. by eapply repr_mono.
Qed.
Lemma nrange_ext a a' rho : ext a a' → in_range a' rho → in_range a rho.
Proof. intros [Hp _]. by apply vokh_mono. Qed.

Lemma nmk a a' hd ds dr r rho c (cs : list nat) t :
  mkrel hd ds dr → (∀ i d, ds !! i = Some d → ∃ x, cs !! i = Some x ∧ repr a d x) →
  length ds = length cs → repr a' dr r → cs !! rho (h_level hd) = Some c →
  node_value a rho c t → node_value a' rho r t.
Proof.
  intros Hmk Hds Hlen Hr Hc Hv. destruct (lookup_lt_is_Some_2 ds (rho (h_level hd))) as [d Hd].
  { rewrite Hlen. by eapply lookup_lt_Some. }
  apply (nval_eval a' rho dr r t Hr). rewrite (mkrel_eval hd ds dr rho d Hmk Hd).
  destruct (Hds _ _ Hd) as (x & Hx & Hrx). rewrite Hc in Hx. injection Hx as <-.
  by apply (nval_eval a rho d c t Hrx).
Qed.

Lemma fits_kids R a h hd cs : awf R a → ar_headers a !! h = Some hd → node_fits a h cs →
  length cs = h_edges hd ∧ ∀ i r, cs !! i = Some r →
    ∃ d, repr a d r ∧ rank d ≤ h_level hd ∧ ∃ x, cs !! i = Some x ∧ repr a d x.
Proof.
  intros Hw Hh Hf. unfold node_fits in Hf. rewrite Hh in Hf. destruct Hf as [Hlen Hf]. split; [done|].
  intros i r Hr. rewrite Forall_lookup in Hf. destruct (Hf _ _ Hr) as [Hv Hb].
  destruct (nvalid_repr _ _ _ Hw Hv) as [d Hd]. exists d. sp; [done|by eapply nbelow_rank|by exists r].
Qed.
Lemma fits_header a h cs : node_fits a h cs → ∃ hd, ar_headers a !! h = Some hd.
Proof. unfold node_fits. destruct (ar_headers a !! h); [eauto|done]. Qed.

Lemma hfits_new a l e : header_fits a l e → hnew (ar_headers a) l e.
Proof. intros [? Hf]. split; [done|]. by rewrite Forall_forall in Hf. Qed.

Lemma gc_value a a' id rho t : ar_headers a' = ar_headers a → ar_nodes a' = ar_nodes a → awf Rn a' →
  (∀ i, live a' i → live a i) → node_valid a' id → node_value a' rho id t ↔ node_value a rho id t.
Proof.
  intros Hh Hn Hw Hsub Hv. destruct (nvalid_repr _ _ _ Hw Hv) as [d Hd].
  rewrite (nval_eval a' rho d id t Hd), (nval_eval a rho d id t); [done|]. by eapply repr_gc_inv.
Qed.
End gen.

(** ** The boolean manager *)
Lemma mcreate_ok m h cs : mwf m → node_fits (d_ar m) h cs →
  ∃ hd m' r, ar_headers (d_ar m) !! h = Some hd ∧ mdd_create_node m h cs = (m', r) ∧ mstep m m' ∧
    node_valid (d_ar m') r ∧
    ∀ rho c t, cs !! rho (h_level hd) = Some c → node_value (d_ar m) rho c t → node_value (d_ar m') rho r t.
Proof.
  intros Hw Hf. destruct (fits_header _ _ _ Hf) as [hd Hh].
  destruct (fits_kids _ _ _ _ _ (mg_wf _ (mw_good _ Hw)) Hh Hf) as [Hlen Hk].
  destruct (mcreate_node m h hd cs _ Hw Hh Hlen Hk) as (m' & r & dr & ds & Heq & Hst & Hr & _ & Hmk & Hds & HPP).
  exists hd, m', r. sp; try done; [by eapply repr_live|]. intros rho c t Hc Hv. eapply nmk; try done. congruence.
Qed.

(** the exact behaviour of each connective, including Undet *)
Definition mconn_rel (c : conn) (a b r : tv) : Prop :=
  match c with
  | And => BddProofs.Rand a b r
  | Or => BddProofs.Ror a b r
  | Xor => BddProofs.Rxor a b r
  | Imp => BddProofs.Ror (knot a) b r
  | Nand => BddProofs.Rand a b (knot r)
  | Nor => BddProofs.Ror a b (knot r)
  | Xnor => BddProofs.Rxor a b (knot r)
  end.
Lemma mknot_knot a : knot (knot a) = a.
Proof. by destruct a. Qed.
Lemma mconn_det c x y r : mconn_rel c (tvb x) (tvb y) r → r = tvb (conn_bool c x y).
Proof. destruct c, x, y, r; cbn; unfold BddProofs.Rand, BddProofs.Ror, BddProofs.Rxor; cbn; intuition congruence. Qed.

Lemma mnot_tree m f df : mwf m → repr (d_ar m) df f →
  ∃ m' r dr, mdd_not m f = Some (m', r) ∧ mstep m m' ∧ repr (d_ar m') dr r ∧ rank dr ≤ rank df ∧
    ∀ ρ a, vokh (ar_headers (d_ar m)) ρ → eval ρ df = Some a → eval ρ dr = Some (knot a).
Proof.
  intros Hw Hf. destruct (mdd_not_ok m f df Hw Hf) as (m' & r & dr & Heq & Hst & Hr & Hk & Hp).
  exists m', r, dr. sp; try done; [cbn in Hk; lia|]. intros ρ a Hv Ha.
  destruct (Hp ρ Hv) as (a' & b & c & Ha' & _ & Hc & HR). rewrite Ha in Ha'. injection Ha' as <-.
  by rewrite Hc, HR.
Qed.
Lemma mconn_tree c m f g df dg : mwf m → repr (d_ar m) df f → repr (d_ar m) dg g →
  mres (mconn_rel c) m df dg (mdd_conn c m f g).
Proof.
  intros Hw Hf Hg.
  assert (Hneg : ∀ Rel (o : option (mdd * nat)), mres Rel m df dg o →
    mres (λ a b r, Rel a b (knot r)) m df dg ('(m, tmp) ← o; mdd_not m tmp)).
  { intros Rel o (m1 & t & dt & -> & Hst1 & Ht & Hk1 & P1). cbn [mbind option_bind].
    destruct (mnot_tree m1 t dt) as (m2 & r & dr & Heq & Hst2 & Hr & Hk2 & Hev); [apply Hst1|done|].
    exists m2, r, dr. sp; try done; [by eapply mstep_trans|lia|].
    intros ρ Hv. destruct (P1 ρ Hv) as (a & b & c' & Ha & Hb & Hc & HR). exists a, b, (knot c').
    sp; try done; [|by rewrite mknot_knot]. apply Hev; [|done]. by destruct Hst1 as (_ & _ & ->). }
  destruct c; cbn [mdd_conn].
  - by apply (mdd_bin_ok MAnd).
  - by apply (mdd_bin_ok MOr).
  - by apply (mdd_bin_ok MXOr).
  - unfold mdd_imp. destruct (mnot_tree m f df Hw Hf) as (m1 & t & dt & -> & Hst1 & Ht & Hk1 & Hev).
    cbn [mbind option_bind]. destruct (mdd_bin_ok MOr m1 t g dt dg) as (m' & r & dr & Heq & Hst & Hr & Hk & Hp);
      [done|apply Hst1|done|eapply repr_mono; [apply Hst1|done]|].
    exists m', r, dr. sp; try done; [by eapply mstep_trans|lia|].
    intros ρ Hv. destruct Hst1 as (_ & _ & Hh1). destruct (okh_total _ _ ρ (m_okh _ _ _ Hw Hf) Hv) as [a Ha].
    rewrite Hh1 in Hp. destruct (Hp ρ Hv) as (a' & b & c & Ha' & Hb & Hc & HR).
    rewrite (Hev ρ a Hv Ha) in Ha'. injection Ha' as <-. by exists a, b, c.
  - apply Hneg. by apply (mdd_bin_ok MAnd).
  - apply Hneg. by apply (mdd_bin_ok MOr).
  - apply Hneg. by apply (mdd_bin_ok MXOr).
Qed.

(** frame: every call other than gc keeps all nodes *)
Lemma mexec_ok m c : mwf m → mdd_legal m c →
  ∃ m' r, mdd_exec m c = Some (m', r) ∧ mwf m' ∧ ((∀ roots, c ≠ DGc roots) → ext (d_ar m) (d_ar m')).
Proof.
  intros Hw. pose proof (mg_wf _ (mw_good _ Hw)) as Hwf.
  destruct c as [l s e|h cs|f|c f g|f g|f g h|roots|]; cbn [mdd_exec mdd_legal]; intros Hl.
  - destruct (mdd_create_header m l s e) as [m' h] eqn:Hh. exists m', h.
    apply mdd_create_header_ok in Hh as (? & ? & _); try done. by apply hfits_new.
  - destruct (mcreate_ok m h cs Hw Hl) as (hd & m' & r & _ & -> & (? & ? & _) & _). by exists m', r.
  - destruct (nvalid_repr _ _ _ Hwf Hl) as [d Hd].
    destruct (mnot_tree m f d Hw Hd) as (m' & r & dr & Heq & (? & ? & _) & _). by exists m', r.
  - destruct Hl as [Vf Vg]. destruct (nvalid_repr _ _ _ Hwf Vf) as [df Hf]. destruct (nvalid_repr _ _ _ Hwf Vg) as [dg Hg].
    destruct (mconn_tree c m f g df dg Hw Hf Hg) as (m' & r & dr & Heq & (? & ? & _) & _). by exists m', r.
  - destruct Hl as [Vf Vg]. destruct (nvalid_repr _ _ _ Hwf Vf) as [df Hf]. destruct (nvalid_repr _ _ _ Hwf Vg) as [dg Hg].
    destruct (mdd_bin_ok MReplace m f g df dg) as (m' & r & dr & Heq & (? & ? & _) & _); try done. by exists m', r.
  - destruct Hl as (Vf & Vg & Vh). destruct (nvalid_repr _ _ _ Hwf Vf) as [df Hf].
    destruct (nvalid_repr _ _ _ Hwf Vg) as [dg Hg]. destruct (nvalid_repr _ _ _ Hwf Vh) as [dh Hh].
    destruct (mdd_ite_ok m f g h df dg dh Hw Hf Hg Hh) as (m' & r & dr & Heq & (? & ? & _) & _). by exists m', r.
  - destruct (mdd_gc_ok m roots Hw) as (m' & n & Heq & Hw' & _).
    { intros r Hr. rewrite Forall_forall in Hl. by apply Hl. }
    exists m', n. sp; try done. intros Hn. by destruct (Hn roots).
  - eexists _, _. split; [done|]. split; [by apply mdd_clear_cache_ok|]. intros _. apply ext_refl.
Qed.
Lemma mrun_ok m cs m' : mwf m → mdd_run m cs = Some m' → mwf m'.
Proof.
  revert m. induction cs as [|c cs IH]; intros m Hw; cbn [mdd_run]; [by intros [= <-]|].
  destruct (decide (mdd_legal m c)) as [Hl|]; [|done].
  destruct (mexec_ok m c Hw Hl) as (m1 & r & -> & Hw1 & _). cbn [mbind option_bind]. by apply IH.
Qed.
Lemma mreachable_wf m : mdd_reachable m → mwf m.
Proof. intros [cs Hcs]. eapply mrun_ok; [apply mdd_new_ok|done]. Qed.
Lemma mrun_app m cs c m1 m2 r : mdd_run m cs = Some m1 → mdd_legal m1 c → mdd_exec m1 c = Some (m2, r) →
  mdd_run m (cs ++ [c]) = Some m2.
Proof.
  revert m. induction cs as [|c' cs IH]; intros m; cbn [app mdd_run].
  - intros [= ->] Hl He. rewrite decide_True by done. by rewrite He.
  - destruct (decide (mdd_legal m c')); [|done]. destruct (mdd_exec m c') as [[m' x]|]; [|done].
    cbn [mbind option_bind]. apply IH.
Qed.
Lemma mreachable_step m c m' r : mdd_reachable m → mdd_legal m c → mdd_exec m c = Some (m', r) → mdd_reachable m'.
Proof. intros [cs Hcs] Hl He. exists (cs ++ [c]). by eapply mrun_app. Qed.

Lemma mconn_l' m c f g : mwf m → node_valid (d_ar m) f → node_valid (d_ar m) g →
  ∃ m' r, mdd_conn c m f g = Some (m', r) ∧ mstep m m' ∧ node_valid (d_ar m') r ∧
    ∀ rho x y, in_range (d_ar m) rho → node_value (d_ar m) rho f (tvb x) → node_value (d_ar m) rho g (tvb y) →
      node_value (d_ar m') rho r (tvb (conn_bool c x y)).
Proof.
  intros Hw Vf Vg. pose proof (mg_wf _ (mw_good _ Hw)) as Hwf.
  destruct (nvalid_repr _ _ _ Hwf Vf) as [df Hf]. destruct (nvalid_repr _ _ _ Hwf Vg) as [dg Hg].
  destruct (mconn_tree c m f g df dg Hw Hf Hg) as (m' & r & dr & Heq & Hst & Hr & _ & Hp).
  exists m', r. split; [done|]. split; [done|]. split; [by eapply repr_live|]. intros rho x y Hv Hx Hy.
  apply (nval_eval _ _ _ _ _ Hf) in Hx. apply (nval_eval _ _ _ _ _ Hg) in Hy.
  apply (nval_eval _ _ _ _ _ Hr). destruct (Hp rho Hv) as (a & b & c' & Ha & Hb & Hc & HR).
  rewrite Hx in Ha. rewrite Hy in Hb. injection Ha as <-. injection Hb as <-. rewrite Hc. f_equal.
  by apply mconn_det.
Qed.
Lemma mconn_l m c f g : mdd_reachable m → node_valid (d_ar m) f → node_valid (d_ar m) g →
  ∃ m' r, mdd_conn c m f g = Some (m', r) ∧ node_valid (d_ar m') r ∧
    ∀ rho x y, in_range (d_ar m) rho → node_value (d_ar m) rho f (tvb x) → node_value (d_ar m) rho g (tvb y) →
      node_value (d_ar m') rho r (tvb (conn_bool c x y)).
Proof.
  intros Hre V0 V1. destruct (mconn_l' m c f g (mreachable_wf _ Hre) V0 V1) as (m' & r & ? & _ & ?). by exists m', r.
Qed.
Lemma mnot_l' m f : mwf m → node_valid (d_ar m) f →
  ∃ m' r, mdd_not m f = Some (m', r) ∧ mstep m m' ∧ node_valid (d_ar m') r ∧
    ∀ rho x, in_range (d_ar m) rho → node_value (d_ar m) rho f (tvb x) → node_value (d_ar m') rho r (tvb (negb x)).
Proof.
  intros Hw Vf. pose proof (mg_wf _ (mw_good _ Hw)) as Hwf.
  destruct (nvalid_repr _ _ _ Hwf Vf) as [df Hf].
  destruct (mnot_tree m f df Hw Hf) as (m' & r & dr & Heq & Hst & Hr & _ & Hp).
  exists m', r. split; [done|]. split; [done|]. split; [by eapply repr_live|]. intros rho x Hv Hx.
  apply (nval_eval _ _ _ _ _ Hf) in Hx. apply (nval_eval _ _ _ _ _ Hr). rewrite (Hp rho _ Hv Hx). by destruct x.
Qed.
Lemma mnot_l m f : mdd_reachable m → node_valid (d_ar m) f →
  ∃ m' r, mdd_not m f = Some (m', r) ∧ node_valid (d_ar m') r ∧
    ∀ rho x, in_range (d_ar m) rho → node_value (d_ar m) rho f (tvb x) → node_value (d_ar m') rho r (tvb (negb x)).
Proof.
  intros Hre V0. destruct (mnot_l' m f (mreachable_wf _ Hre) V0) as (m' & r & ? & _ & ?). by exists m', r.
Qed.
Lemma mite_l' m f g h : mwf m → node_valid (d_ar m) f → node_valid (d_ar m) g → node_valid (d_ar m) h →
  ∃ m' r, mdd_ite m f g h = Some (m', r) ∧ mstep m m' ∧ node_valid (d_ar m') r ∧
    ∀ rho x b c, in_range (d_ar m) rho → node_value (d_ar m) rho f (tvb x) →
      node_value (d_ar m) rho g b → node_value (d_ar m) rho h c →
      node_value (d_ar m') rho r (if x then b else c).
Proof.
  intros Hw Vf Vg Vh. pose proof (mg_wf _ (mw_good _ Hw)) as Hwf.
  destruct (nvalid_repr _ _ _ Hwf Vf) as [df Hf]. destruct (nvalid_repr _ _ _ Hwf Vg) as [dg Hg].
  destruct (nvalid_repr _ _ _ Hwf Vh) as [dh Hh].
  destruct (mdd_ite_ok m f g h df dg dh Hw Hf Hg Hh) as (m' & r & dr & Heq & Hst & Hr & _ & Hp).
  exists m', r. split; [done|]. split; [done|]. split; [by eapply repr_live|]. intros rho x b c Hv Hx Hb Hc.
  apply (nval_eval _ _ _ _ _ Hf) in Hx. apply (nval_eval _ _ _ _ _ Hg) in Hb. apply (nval_eval _ _ _ _ _ Hh) in Hc.
  apply (nval_eval _ _ _ _ _ Hr). destruct (Hp rho Hv) as (a' & b' & c' & r' & Ha & Hb' & Hc' & Hr' & HR).
  rewrite Hx in Ha. rewrite Hb in Hb'. rewrite Hc in Hc'. simplify_eq. rewrite Hr'. by destruct x; cbn in HR; subst.
Qed.
Lemma mite_l m f g h : mdd_reachable m → node_valid (d_ar m) f → node_valid (d_ar m) g → node_valid (d_ar m) h →
  ∃ m' r, mdd_ite m f g h = Some (m', r) ∧ node_valid (d_ar m') r ∧
    ∀ rho x b c, in_range (d_ar m) rho → node_value (d_ar m) rho f (tvb x) →
      node_value (d_ar m) rho g b → node_value (d_ar m) rho h c →
      node_value (d_ar m') rho r (if x then b else c).
Proof.
  intros Hre V0 V1 V2. destruct (mite_l' m f g h (mreachable_wf _ Hre) V0 V1 V2) as (m' & r & ? & _ & ?). by exists m', r.
Qed.
Lemma mreplace_l' m f g : mwf m → node_valid (d_ar m) f → node_valid (d_ar m) g →
  ∃ m' r, mdd_replace m f g = Some (m', r) ∧ mstep m m' ∧ node_valid (d_ar m') r ∧
    ∀ rho a b, in_range (d_ar m) rho → node_value (d_ar m) rho f a → node_value (d_ar m) rho g b →
      node_value (d_ar m') rho r (if decide (a = TUndet) then b else a).
Proof.
  intros Hw Vf Vg. pose proof (mg_wf _ (mw_good _ Hw)) as Hwf.
  destruct (nvalid_repr _ _ _ Hwf Vf) as [df Hf]. destruct (nvalid_repr _ _ _ Hwf Vg) as [dg Hg].
  destruct (mdd_bin_ok MReplace m f g df dg) as (m' & r & dr & Heq & Hst & Hr & _ & Hp); try done.
  exists m', r. split; [done|]. split; [done|]. split; [by eapply repr_live|]. intros rho x y Hv Hx Hy.
  apply (nval_eval _ _ _ _ _ Hf) in Hx. apply (nval_eval _ _ _ _ _ Hg) in Hy.
  apply (nval_eval _ _ _ _ _ Hr). destruct (Hp rho Hv) as (a & b & c' & Ha & Hb & Hc & HR).
  rewrite Hx in Ha. rewrite Hy in Hb. simplify_eq. rewrite Hc. cbn in HR. unfold Rrepl in HR. subst c'.
  by destruct a.
Qed.
Lemma mreplace_l m f g : mdd_reachable m → node_valid (d_ar m) f → node_valid (d_ar m) g →
  ∃ m' r, mdd_replace m f g = Some (m', r) ∧ node_valid (d_ar m') r ∧
    ∀ rho a b, in_range (d_ar m) rho → node_value (d_ar m) rho f a → node_value (d_ar m) rho g b →
      node_value (d_ar m') rho r (if decide (a = TUndet) then b else a).
Proof.
  intros Hre V0 V1. destruct (mreplace_l' m f g (mreachable_wf _ Hre) V0 V1) as (m' & r & ? & _ & ?). by exists m', r.
Qed.
Lemma mcanon_l m f g : mdd_reachable m → levels_distinct (d_ar m) → node_valid (d_ar m) f → node_valid (d_ar m) g →
  f = g ↔ (∀ rho t, in_range (d_ar m) rho → node_value (d_ar m) rho f t ↔ node_value (d_ar m) rho g t).
Proof.
  intros Hre Hd Vf Vg. pose proof (mreachable_wf _ Hre) as Hw. split; [by intros ->|]. intros H.
  apply (ncanon (d_ar m)); try done; try apply (mw_good _ Hw). intros rho t Hr. by apply H.
Qed.
Lemma mtotal_l m rho f : mdd_reachable m → in_range (d_ar m) rho → node_valid (d_ar m) f →
  ∃ t, node_value (d_ar m) rho f t.
Proof. intros Hre. pose proof (mw_good _ (mreachable_wf _ Hre)) as Hg. apply nvalue_total; apply Hg. Qed.
Lemma mframe_l m c : mdd_reachable m → mdd_legal m c → (∀ roots, c ≠ DGc roots) →
  ∃ m' r, mdd_exec m c = Some (m', r) ∧
    ∀ id, node_valid (d_ar m) id → node_valid (d_ar m') id ∧
      ∀ rho t, node_value (d_ar m) rho id t ↔ node_value (d_ar m') rho id t.
Proof.
  intros Hre Hl Hng. pose proof (mreachable_wf _ Hre) as Hw.
  destruct (mexec_ok m c Hw Hl) as (m' & r & Heq & Hw' & He). specialize (He Hng).
  exists m', r. split; [done|]. intros id Hv. split; [by eapply ext_live|].
  intros rho t. apply nval_mono; try done. apply Hw.
Qed.
Lemma mgc_l m roots : mdd_reachable m → Forall (node_valid (d_ar m)) roots →
  ∃ m' n, mdd_gc m roots = Some (m', n) ∧
    (∀ id, node_valid (d_ar m') id ↔ id ∈ [mdd_zero; mdd_one; mdd_undet] ∨ node_reaches (d_ar m) roots id) ∧
    (∀ id rho t, node_valid (d_ar m') id → node_value (d_ar m') rho id t ↔ node_value (d_ar m) rho id t) ∧
    (∀ l, NoDup l → (∀ id, id ∈ l ↔ node_valid (d_ar m') id) →
       mdd_live_node_count m' = length l ∧ n + length l = length (ar_nodes (d_ar m))).
Proof.
  intros Hre Hroots. pose proof (mreachable_wf _ Hre) as Hw. rewrite Forall_forall in Hroots.
  destruct (mdd_gc_ok m roots Hw) as (m' & n & Heq & Hw' & Hhd & Hns & Hl & Hsub & Hn).
  { intros r Hr. by apply Hroots. }
  exists m', n. split; [done|]. sp.
  - intros id. rewrite nreaches_reach. apply Hl.
  - intros id rho t. apply gc_value; try done. apply Hw'.
  - intros l Hnd Hin. unfold mdd_live_node_count, ar_live_count. rewrite <- Hns.
    pose proof (a_free_count Rn (d_ar m') l (mg_wf _ (mw_good _ Hw')) Hnd Hin). lia.
Qed.

(** ** The value manager *)
Section val.
Context (I : vint).

Lemma vsem_arith o a b : no_overflow I o a b → vsem I o a b = Some (arith_vt o a b).
Proof.
  unfold vsem, arith_vt, no_overflow, arith.
  destruct o, a as [|x], b as [|y]; cbn; try done; try (by intros ->).
  - intros H. destruct (Z.eqb_spec y 0) as [->|]; [done|]. rewrite decide_False by done.
    destruct (Z.eqb_spec x (vi_min I)), (Z.eqb_spec y (-1)); cbn; try done. by destruct H.
  - intros H. destruct (Z.eqb_spec y 0) as [->|]; [done|]. rewrite decide_False by done.
    destruct (Z.eqb_spec x (vi_min I)), (Z.eqb_spec y (-1)); cbn; try done. by destruct H.
Qed.

Lemma tcreate_ok m h cs : twf I m → node_fits (t_ar m) h cs →
  ∃ hd m' r, ar_headers (t_ar m) !! h = Some hd ∧ mt_create_node m h cs = (m', r) ∧ tstep I m m' ∧
    node_valid (t_ar m') r ∧
    ∀ rho c t, cs !! rho (h_level hd) = Some c → node_value (t_ar m) rho c t → node_value (t_ar m') rho r t.
Proof.
  intros Hw Hf. destruct (fits_header _ _ _ Hf) as [hd Hh].
  destruct (fits_kids _ _ _ _ _ (tg_wf _ _ (tw_good _ _ Hw)) Hh Hf) as [Hlen Hk].
  destruct (tcreate_node I m h hd cs _ Hw Hh Hlen Hk) as (m' & r & dr & ds & Heq & Hst & Hr & _ & Hmk & Hds & HPP).
  exists hd, m', r. sp; try done; [by eapply repr_live|]. intros rho c t Hc Hv. eapply nmk; try done. congruence.
Qed.

Lemma tbin_l' m o f g : twf I m → node_valid (t_ar m) f → node_valid (t_ar m) g →
  match mt_bin I o m f g with
  | Some (m', r) => tstep I m m' ∧ node_valid (t_ar m') r ∧
      ∀ rho a b, in_range (t_ar m) rho → node_value (t_ar m) rho f a → node_value (t_ar m) rho g b →
        no_overflow I o a b → node_value (t_ar m') rho r (arith_vt o a b)
  | None => ∃ rho a b, in_range (t_ar m) rho ∧ node_value (t_ar m) rho f a ∧ node_value (t_ar m) rho g b ∧
      ¬ no_overflow I o a b
  end.
Proof.
  intros Hw Vf Vg. pose proof (tg_wf _ _ (tw_good _ _ Hw)) as Hwf.
  destruct (nvalid_repr _ _ _ Hwf Vf) as [df Hf]. destruct (nvalid_repr _ _ _ Hwf Vg) as [dg Hg].
  pose proof (mt_bin_ok I o m f g df dg Hw Hf Hg) as Hres. destruct (mt_bin I o m f g) as [[m' r]|].
  - destruct Hres as (Hst & dr & Hr & _ & Hp). split; [done|]. split; [by eapply repr_live|].
    intros rho a b Hv Ha Hb Hno.
    apply (nval_eval _ _ _ _ _ Hf) in Ha. apply (nval_eval _ _ _ _ _ Hg) in Hb. apply (nval_eval _ _ _ _ _ Hr).
    destruct (Hp rho Hv) as (a' & b' & c & Ha' & Hb' & Hc & HR). simplify_eq. rewrite Hc, <- HR.
    by apply vsem_arith.
  - destruct Hres as (rho & a & b & Hv & Ha & Hb & Hn). exists rho, a, b. sp; [done| | |].
    + by apply (nval_eval _ _ _ _ _ Hf).
    + by apply (nval_eval _ _ _ _ _ Hg).
    + intros Hno. rewrite (vsem_arith o a b Hno) in Hn. done.
Qed.

Lemma texec_ok m c m' r : twf I m → mt_legal m c → mt_exec I m c = Some (m', r) →
  twf I m' ∧ ((∀ roots, c ≠ TGc roots) → ext (t_ar m) (t_ar m')).
Proof.
  intros Hw. destruct c as [l s e|z|h cs|o f g|roots|]; cbn [mt_exec mt_legal]; intros Hl Heq.
  - destruct (mt_create_header m l s e) as [m1 r1] eqn:Hc. simplify_eq.
    apply (mt_create_header_ok I) in Hc as (? & ? & _); try done.
    apply hcons_app; [apply (tw_good _ _ Hw)|by apply hfits_new].
  - destruct (mt_value_ok I m z Hw) as (m1 & r1 & Hv & (? & ? & _) & _).
    rewrite Hv in Heq. by injection Heq as <- <-.
  - destruct (tcreate_ok m h cs Hw Hl) as (hd & m1 & r1 & _ & Hn & (? & ? & _) & _).
    rewrite Hn in Heq. by injection Heq as <- <-.
  - destruct Hl as [Vf Vg]. pose proof (tbin_l' m o f g Hw Vf Vg) as Hb. rewrite Heq in Hb. by destruct Hb as [(? & ? & _) _].
  - destruct (mt_gc_ok I m roots Hw) as (m1 & n & Hn & Hw' & _).
    { intros x Hx. rewrite Forall_forall in Hl. by apply Hl. }
    rewrite Hn in Heq. injection Heq as <- <-. split; [done|]. intros Hn'. by destruct (Hn' roots).
  - injection Heq as <- <-. split; [by apply mt_clear_cache_ok|]. intros _. apply ext_refl.
Qed.
Lemma trun_ok m cs m' : twf I m → mt_run I m cs = Some m' → twf I m'.
Proof.
  revert m. induction cs as [|c cs IH]; intros m Hw; cbn [mt_run]; [by intros [= <-]|].
  destruct (decide (mt_legal m c)) as [Hl|]; [|done].
  destruct (mt_exec I m c) as [[m1 r]|] eqn:He; [|done]. cbn [mbind option_bind]. apply IH.
  by eapply texec_ok.
Qed.
Lemma treachable_wf m : mt_reachable I m → twf I m.
Proof. intros [cs Hcs]. eapply trun_ok; [apply mt_new_ok|done]. Qed.
Lemma trun_app m cs c m1 m2 r : mt_run I m cs = Some m1 → mt_legal m1 c → mt_exec I m1 c = Some (m2, r) →
  mt_run I m (cs ++ [c]) = Some m2.
Proof.
  revert m. induction cs as [|c' cs IH]; intros m; cbn [app mt_run].
  - intros [= ->] Hl He. rewrite decide_True by done. by rewrite He.
  - destruct (decide (mt_legal m c')); [|done]. destruct (mt_exec I m c') as [[m' x]|]; [|done].
    cbn [mbind option_bind]. apply IH.
Qed.
Lemma treachable_step m c m' r : mt_reachable I m → mt_legal m c → mt_exec I m c = Some (m', r) → mt_reachable I m'.
Proof. intros [cs Hcs] Hl He. exists (cs ++ [c]). by eapply trun_app. Qed.

Lemma tarith_l m o f g : mt_reachable I m → node_valid (t_ar m) f → node_valid (t_ar m) g →
  (∀ rho a b, in_range (t_ar m) rho → node_value (t_ar m) rho f a → node_value (t_ar m) rho g b → no_overflow I o a b) →
  ∃ m' r, mt_bin I o m f g = Some (m', r) ∧ node_valid (t_ar m') r ∧
    ∀ rho a b, in_range (t_ar m) rho → node_value (t_ar m) rho f a → node_value (t_ar m) rho g b →
      node_value (t_ar m') rho r (arith_vt o a b).
Proof.
  intros Hre Vf Vg Hno. pose proof (tbin_l' m o f g (treachable_wf _ Hre) Vf Vg) as Hb.
  destruct (mt_bin I o m f g) as [[m' r]|].
  - destruct Hb as (_ & Hv & Hb). exists m', r. sp; try done. eauto.
  - destruct Hb as (rho & a & b & ? & ? & ? & Hn). by destruct Hn; eapply Hno.
Qed.
Lemma tarith_at_l m o f g m' r : mt_reachable I m → node_valid (t_ar m) f → node_valid (t_ar m) g →
  mt_bin I o m f g = Some (m', r) →
  ∀ rho a b, in_range (t_ar m) rho → node_value (t_ar m) rho f a → node_value (t_ar m) rho g b →
    no_overflow I o a b → node_value (t_ar m') rho r (arith_vt o a b).
Proof.
  intros Hre Vf Vg Heq. pose proof (tbin_l' m o f g (treachable_wf _ Hre) Vf Vg) as Hb. rewrite Heq in Hb. apply Hb.
Qed.
Lemma tcanon_l m f g : mt_reachable I m → levels_distinct (t_ar m) → node_valid (t_ar m) f → node_valid (t_ar m) g →
  f = g ↔ (∀ rho t, in_range (t_ar m) rho → node_value (t_ar m) rho f t ↔ node_value (t_ar m) rho g t).
Proof.
  intros Hre Hd Vf Vg. pose proof (treachable_wf _ Hre) as Hw. split; [by intros ->|]. intros H.
  apply (ncanon (t_ar m)); try done; try apply (tw_good _ _ Hw). intros rho t Hr. by apply H.
Qed.
Lemma ttotal_l m rho f : mt_reachable I m → in_range (t_ar m) rho → node_valid (t_ar m) f →
  ∃ t, node_value (t_ar m) rho f t.
Proof. intros Hre. pose proof (tw_good _ _ (treachable_wf _ Hre)) as Hg. apply nvalue_total; apply Hg. Qed.
Lemma tvalue_l m z : mt_reachable I m →
  ∃ m' r, mt_value m z = (m', r) ∧ node_valid (t_ar m') r ∧ ∀ rho, node_value (t_ar m') rho r (VVal z).
Proof.
  intros Hre. destruct (mt_value_ok I m z (treachable_wf _ Hre)) as (m' & r & Heq & _ & Hr).
  exists m', r. sp; [done|by eapply repr_live|]. intros rho. by apply (nval_eval _ _ _ _ _ Hr).
Qed.
Lemma tframe_l m c m' r : mt_reachable I m → mt_legal m c → (∀ roots, c ≠ TGc roots) → mt_exec I m c = Some (m', r) →
    ∀ id, node_valid (t_ar m) id → node_valid (t_ar m') id ∧
      ∀ rho t, node_value (t_ar m) rho id t ↔ node_value (t_ar m') rho id t.
Proof.
  intros Hre Hl Hng Heq id Hv. pose proof (treachable_wf _ Hre) as Hw.
  destruct (texec_ok m c m' r Hw Hl Heq) as [Hw' He]. specialize (He Hng). split; [by eapply ext_live|].
  intros rho t. apply nval_mono; try done. apply (tw_good _ _ Hw).
Qed.
Lemma tgc_l m roots : mt_reachable I m → Forall (node_valid (t_ar m)) roots →
  ∃ m' n, mt_gc m roots = Some (m', n) ∧
    (∀ id, node_valid (t_ar m') id ↔ id = mt_undet ∨ node_reaches (t_ar m) roots id) ∧
    (∀ id rho t, node_valid (t_ar m') id → node_value (t_ar m') rho id t ↔ node_value (t_ar m) rho id t) ∧
    (∀ l, NoDup l → (∀ id, id ∈ l ↔ node_valid (t_ar m') id) →
       mt_live_node_count m' = length l ∧ n + length l = length (ar_nodes (t_ar m))).
Proof.
  intros Hre Hroots. pose proof (treachable_wf _ Hre) as Hw. rewrite Forall_forall in Hroots.
  destruct (mt_gc_ok I m roots Hw) as (m' & n & Heq & Hw' & Hhd & Hns & Hl & Hsub & Hn).
  { intros r Hr. by apply Hroots. }
  exists m', n. split; [done|]. sp.
  - intros id. rewrite nreaches_reach, <- elem_of_list_singleton. apply Hl.
  - intros id rho t. apply gc_value; try done. apply (tw_good _ _ Hw').
  - intros l Hnd Hin. unfold mt_live_node_count, ar_live_count. rewrite <- Hns.
    pose proof (a_free_count Rn (t_ar m') l (tg_wf _ _ (tw_good _ _ Hw')) Hnd Hin). lia.
Qed.
End val.
