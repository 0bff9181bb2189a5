(** Results of the MDD manager depend on the operands' functions only. *)
From Verif Require Import Prelude ComputeCache ComputeCacheProofs Arena Trees StripTrees ArenaProofs Bdd ArenaMore Mdd MtMdd MtMdd2.
From Verif Require Import SpecBdd SpecMdd NaryProofs MddProofs MddMain NExact MddExact SpecExactM.

(** ** Two arenas *)
Section two.
Context {T : Type} (a1 a2 : arena T).
Context (W1 : awf Rn a1) (W2 : awf Rn a2) (C1 : hcons (ar_headers a1)) (C2 : hcons (ar_headers a2)) (Ag : states_agree a1 a2).
Context (D1 : levels_distinct a1) (D2 : levels_distinct a2).

Definition E12 (hs1 hs2 : list header) : nat → nat := Eof (hs1 ++ hs2) (λ _, 0).
Lemma hcons12 : hcons (ar_headers a1 ++ ar_headers a2).
Proof.
  destruct C1 as [P1 A1], C2 as [P2 A2]. split.
  - intros hd [?|?]%elem_of_app; auto.
  - intros hd hd' [?|?]%elem_of_app [?|?]%elem_of_app Hl; auto. symmetry. by apply Ag.
Qed.
Lemma hof_exists (hs : list header) : NoDup (h_level <$> hs) → ∃ H : nat → header, ∀ hd, hin hs hd → hd = H (h_level hd).
Proof.
  intros Hnd. exists (λ l, default (Header 0 0 String.EmptyString 0) (list_find (λ hd, h_level hd = l) hs ≫= λ p, Some p.2)).
  intros hd [h Hh]%elem_of_list_lookup. destruct (list_find _ _) as [[i hd']|] eqn:Hfd.
  - apply list_find_Some in Hfd as (Hi & Hl & _). cbn. assert (i = h) as ->; [|congruence].
    eapply NoDup_lookup; [exact Hnd| |].
    + rewrite list_lookup_fmap, Hi. cbn. by rewrite Hl.
    + rewrite list_lookup_fmap, Hh. done.
  - exfalso. apply list_find_None in Hfd. rewrite Forall_lookup in Hfd. by apply (Hfd _ _ Hh).
Qed.
Lemma edges12 hd : hin (ar_headers a1) hd ∨ hin (ar_headers a2) hd → h_edges hd = E12 (ar_headers a1) (ar_headers a2) (h_level hd).
Proof. intros Hin. apply Eof_edges; [apply hcons12|]. by apply elem_of_app. Qed.

Lemma nsame_strip d1 d2 f1 f2 : repr a1 d1 f1 → repr a2 d2 f2 →
  same_node a1 f1 a2 f2 ↔ strip (E12 (ar_headers a1) (ar_headers a2)) d1 = strip (E12 (ar_headers a1) (ar_headers a2)) d2.
Proof.
  intros R1 R2. set (E := E12 (ar_headers a1) (ar_headers a2)). split.
  - intros Hs. destruct (a_hdby a1 D1) as [H1 Hh1]. destruct (a_hdby a2 D2) as [H2 Hh2].
    assert (O1 : okdd E d1).
    { eapply repr_ok; [exact W1| |exact R1]. intros h hd Hh. apply edges12. left. by eapply elem_of_list_lookup_2. }
    assert (O2 : okdd E d2).
    { eapply repr_ok; [exact W2| |exact R2]. intros h hd Hh. apply edges12. right. by eapply elem_of_list_lookup_2. }
    eapply (strip_canon E H1 H2); eauto using nredd.
    + intros l. apply Eof_pos, hcons12.
    + intros ρ Hv. pose proof (vok_vokh _ _ _ hcons12 Hv) as Hr.
      assert (I1 : in_range a1 ρ) by (intros hd Hin; apply Hr, elem_of_app; by left).
      assert (I2 : in_range a2 ρ) by (intros hd Hin; apply Hr, elem_of_app; by right).
      destruct (eval_total E ρ d1 O1 Hv) as [t Ht]. rewrite Ht. symmetry.
      apply (nval_eval a2 ρ d2 f2 t R2), (Hs ρ t I1 I2), (nval_eval a1 ρ d1 f1 t R1), Ht.
  - intros Heq ρ t _ _. rewrite (nval_eval a1 ρ d1 f1 t R1), (nval_eval a2 ρ d2 f2 t R2).
    by rewrite <- (strip_eval E ρ d1), <- (strip_eval E ρ d2), Heq.
Qed.
End two.

(** ** One manager *)
Lemma xw_aw m : xmwf m → awf Rn (d_ar m).
Proof. intros Hw. apply (xmw_good _ Hw). Qed.
Lemma xw_hc m : xmwf m → hcons (ar_headers (d_ar m)).
Proof. intros Hw. apply (xmw_good _ Hw). Qed.

Definition XC (A : header → Prop) (c : conn) (df dg dr : dd tv) : Prop :=
  match c with
  | And => X A MAnd df dg dr
  | Or => X A MOr df dg dr
  | Xor => X A MXOr df dg dr
  | Imp => ∃ dt, X A MNot df (Leaf TZero) dt ∧ X A MOr dt dg dr
  | Nand => ∃ dt, X A MAnd df dg dt ∧ X A MNot dt (Leaf TZero) dr
  | Nor => ∃ dt, X A MOr df dg dt ∧ X A MNot dt (Leaf TZero) dr
  | Xnor => ∃ dt, X A MXOr df dg dt ∧ X A MNot dt (Leaf TZero) dr
  end.
Lemma xmconn c m f g df dg : xmwf m → repr (d_ar m) df f → repr (d_ar m) dg g →
  ∃ m' r dr, mdd_conn c m f g = Some (m', r) ∧ xmstep m m' ∧ repr (d_ar m') dr r ∧ XC (hin (ar_headers (d_ar m))) c df dg dr.
Proof.
  intros Hw Hf Hg. set (A := hin (ar_headers (d_ar m))).
  assert (Hneg : ∀ o (x : option (mdd * nat)), xmres o m df dg x →
    ∃ m' r dr, ('(m, tmp) ← x; mdd_not m tmp) = Some (m', r) ∧ xmstep m m' ∧ repr (d_ar m') dr r ∧
      ∃ dt, X A o df dg dt ∧ X A MNot dt (Leaf TZero) dr).
  { intros o x (m1 & t & dt & -> & Hst1 & Ht & Hk1 & P1). cbn [mbind option_bind]. pose proof Hst1 as (W1 & He1 & Hh1).
    destruct (xmdd_not_ok m1 t dt W1 Ht) as (m2 & r & dr & Heq & Hst2 & Hr & Hk2 & Hev).
    rewrite Hh1 in Hev. exists m2, r, dr. sp; try done; [by eapply xmstep_trans|]. by exists dt. }
  destruct c; cbn [mdd_conn XC].
  - destruct (xmdd_bin_ok MAnd m f g df dg) as (m' & r & dr & ? & ? & ? & ? & ?); try done. by exists m', r, dr.
  - destruct (xmdd_bin_ok MOr m f g df dg) as (m' & r & dr & ? & ? & ? & ? & ?); try done. by exists m', r, dr.
  - destruct (xmdd_bin_ok MXOr m f g df dg) as (m' & r & dr & ? & ? & ? & ? & ?); try done. by exists m', r, dr.
  - unfold mdd_imp. destruct (xmdd_not_ok m f df Hw Hf) as (m1 & t & dt & -> & Hst1 & Ht & Hk1 & Hev).
    pose proof Hst1 as (W1 & He1 & Hh1).
    cbn [mbind option_bind]. destruct (xmdd_bin_ok MOr m1 t g dt dg) as (m' & r & dr & Heq & Hst & Hr & Hk & Hp); try done.
    { by eapply repr_mono. }
    rewrite Hh1 in Hp. exists m', r, dr. sp; try done; [by eapply xmstep_trans|]. by exists dt.
  - apply Hneg. by apply (xmdd_bin_ok MAnd).
  - apply Hneg. by apply (xmdd_bin_ok MOr).
  - apply Hneg. by apply (xmdd_bin_ok MXOr).
Qed.
Section rel.
Context (H : nat → header) (A : header → Prop) (E : nat → nat).
Context (HA : ∀ hd, A hd → hd = H (h_level hd)) (HE : ∀ hd, A hd → h_edges hd = E (h_level hd)).
Lemma XC_strip c df dg dr : XC A c df dg dr → hdby H df → hdby H dg → XC (barel E) c (strip E df) (strip E dg) (strip E dr).
Proof using HA HE.
  intros HX Hf Hg. pose proof (X_strip H A E HA HE) as HS. pose proof (X_hdby H A HA) as HD.
  destruct c; cbn [XC] in *; auto; destruct HX as (dt & H1 & H2); exists (strip E dt); (split; [first [by apply HS|by apply (HS MNot df (Leaf TZero))]|]).
  - apply HS; [done| |done]. eapply HD; [exact H1|done|done].
  - apply (HS MNot dt (Leaf TZero)); [done| |done]. eapply HD; [exact H1|done|done].
  - apply (HS MNot dt (Leaf TZero)); [done| |done]. eapply HD; [exact H1|done|done].
  - apply (HS MNot dt (Leaf TZero)); [done| |done]. eapply HD; [exact H1|done|done].
Qed.
Lemma XC_det c df dg dr dr' : XC A c df dg dr → XC A c df dg dr' → dr = dr'.
Proof using HA.
  intros HX HX'. pose proof (X_det H A HA) as HD. destruct c; cbn [XC] in *; try (by eapply HD).
  all: destruct HX as (dt & H1 & H2), HX' as (dt' & H1' & H2'); rewrite <- (HD _ _ _ _ H1 _ H1') in H2'; by eapply HD.
Qed.
End rel.

Lemma xmexec_ok m c : xmwf m → mdd_legal m c → ∃ m' r, mdd_exec m c = Some (m', r) ∧ xmwf m'.
Proof.
  intros Hw. pose proof (xw_aw _ Hw) as Hwf.
  destruct c as [l s e|h cs|f|c f g|f g|f g h|roots|]; cbn [mdd_exec mdd_legal]; intros Hl.
  - destruct (mdd_create_header m l s e) as [m' h] eqn:Hh. exists m', h.
    apply xmdd_create_header_ok in Hh as (? & ? & _); try done. by apply hfits_new.
  - destruct (fits_header _ _ _ Hl) as [hd Hh].
    destruct (fits_kids _ _ _ _ _ Hwf Hh Hl) as [Hlen Hk].
    destruct (xmcreate_node m h hd cs _ Hw Hh Hlen Hk) as (m' & r & dr & ds & -> & (? & _) & _). by exists m', r.
  - destruct (nvalid_repr _ _ _ Hwf Hl) as [d Hd].
    destruct (xmdd_not_ok m f d Hw Hd) as (m' & r & dr & Heq & (? & ? & _) & _). by exists m', r.
  - destruct Hl as [Vf Vg]. destruct (nvalid_repr _ _ _ Hwf Vf) as [df Hf]. destruct (nvalid_repr _ _ _ Hwf Vg) as [dg Hg].
    destruct (xmconn c m f g df dg Hw Hf Hg) as (m' & r & dr & Heq & (? & ? & _) & _). by exists m', r.
  - destruct Hl as [Vf Vg]. destruct (nvalid_repr _ _ _ Hwf Vf) as [df Hf]. destruct (nvalid_repr _ _ _ Hwf Vg) as [dg Hg].
    destruct (xmdd_bin_ok MReplace m f g df dg) as (m' & r & dr & Heq & (? & ? & _) & _); try done. by exists m', r.
  - destruct Hl as (Vf & Vg & Vh). destruct (nvalid_repr _ _ _ Hwf Vf) as [df Hf].
    destruct (nvalid_repr _ _ _ Hwf Vg) as [dg Hg]. destruct (nvalid_repr _ _ _ Hwf Vh) as [dh Hh].
    destruct (xmdd_ite_ok m f g h df dg dh Hw Hf Hg Hh) as (m' & r & dr & Heq & (? & ? & _) & _). by exists m', r.
  - destruct (xmdd_gc_ok m roots Hw) as (m' & n & Heq & Hw' & _).
    { intros r Hr. rewrite Forall_forall in Hl. by apply Hl. }
    by exists m', n.
  - eexists _, _. split; [done|]. by apply xmdd_clear_cache_ok.
Qed.
Lemma xmrun_ok m cs m' : xmwf m → mdd_run m cs = Some m' → xmwf m'.
Proof.
  revert m. induction cs as [|c cs IH]; intros m Hw; cbn [mdd_run]; [by intros [= <-]|].
  destruct (decide (mdd_legal m c)) as [Hl|]; [|done].
  destruct (xmexec_ok m c Hw Hl) as (m1 & r & -> & Hw1). cbn [mbind option_bind]. by apply IH.
Qed.
Lemma mreachable_xwf m : mdd_reachable m → xmwf m.
Proof. intros [cs Hcs]. eapply xmrun_ok; [apply xmdd_new_ok|done]. Qed.

(** ** Two managers *)
Lemma agree_hdr {T1 T2 S1 S2} (a1 : arena T1) (a2 : arena T2) (b1 : arena S1) (b2 : arena S2) :
  ar_headers b1 = ar_headers a1 → ar_headers b2 = ar_headers a2 → states_agree a1 a2 → states_agree b1 b2.
Proof. unfold states_agree. by intros -> ->. Qed.
Lemma distinct_hdr {T1 S1} (a1 : arena T1) (b1 : arena S1) :
  ar_headers b1 = ar_headers a1 → levels_distinct a1 → levels_distinct b1.
Proof. unfold levels_distinct. by intros ->. Qed.

Lemma hdby_in {T} (a : arena T) H d id : (∀ hd, hin (ar_headers a) hd → hd = H (h_level hd)) → repr a d id → hdby H d.
Proof.
  intros HH. revert id. induction d as [t|hd ds IH] using dd_ind'; intros id Hr; [done|].
  apply repr_br in Hr as [_ (h & cs & _ & Hh & Hf)]. apply hdby_br. split; [by apply HH; eapply elem_of_list_lookup_2|].
  rewrite Forall_forall in IH. apply Forall_lookup. intros i d Hd.
  destruct (Forall2_lookup_l _ _ _ _ _ Hf Hd) as (c & Hc & Hrc). eapply IH; [by eapply elem_of_list_lookup_2|done].
Qed.

Section sim.
Context (hs1 hs2 : list header) (E : nat → nat) (H1 H2 : nat → header).
Context (A1 : ∀ hd, hin hs1 hd → hd = H1 (h_level hd)) (A2 : ∀ hd, hin hs2 hd → hd = H2 (h_level hd)).
Context (HE1 : ∀ hd, hin hs1 hd → h_edges hd = E (h_level hd)) (HE2 : ∀ hd, hin hs2 hd → h_edges hd = E (h_level hd)).
Lemma barel_by hd : barel E hd → hd = bare E (h_level hd).
Proof. done. Qed.
Lemma X_sim o f1 g1 r1 f2 g2 r2 : X (hin hs1) o f1 g1 r1 → X (hin hs2) o f2 g2 r2 → hdby H1 f1 → hdby H1 g1 → hdby H2 f2 → hdby H2 g2 →
  strip E f1 = strip E f2 → strip E g1 = strip E g2 → strip E r1 = strip E r2.
Proof using All.
  intros X1 X2 ? ? ? ? Ef Eg. apply (X_strip H1 _ E A1 HE1) in X1; [|done..]. apply (X_strip H2 _ E A2 HE2) in X2; [|done..].
  rewrite Ef, Eg in X1. eapply (X_det (bare E) _ barel_by); eassumption.
Qed.
Lemma XC_sim c f1 g1 r1 f2 g2 r2 : XC (hin hs1) c f1 g1 r1 → XC (hin hs2) c f2 g2 r2 → hdby H1 f1 → hdby H1 g1 → hdby H2 f2 → hdby H2 g2 →
  strip E f1 = strip E f2 → strip E g1 = strip E g2 → strip E r1 = strip E r2.
Proof using All.
  intros X1 X2 ? ? ? ? Ef Eg. apply (XC_strip H1 _ E A1 HE1) in X1; [|done..]. apply (XC_strip H2 _ E A2 HE2) in X2; [|done..].
  rewrite Ef, Eg in X1. eapply (XC_det (bare E) _ barel_by); eassumption.
Qed.
Lemma X3_sim {T} (u : T) f1 g1 h1 r1 f2 g2 h2 r2 : X3 u (hin hs1) f1 g1 h1 r1 → X3 u (hin hs2) f2 g2 h2 r2 →
  hdby H1 f1 → hdby H1 g1 → hdby H1 h1 → hdby H2 f2 → hdby H2 g2 → hdby H2 h2 →
  strip E f1 = strip E f2 → strip E g1 = strip E g2 → strip E h1 = strip E h2 → strip E r1 = strip E r2.
Proof using All.
  intros X1 X2 ? ? ? ? ? ? Ef Eg Eh. apply (X3_strip H1 _ E A1 HE1) in X1; [|done..]. apply (X3_strip H2 _ E A2 HE2) in X2; [|done..].
  rewrite Ef, Eg, Eh in X1. eapply (X3_det (bare E) _ barel_by); eassumption.
Qed.
End sim.

Section same2.
Context (m1 m2 : mdd) (W1 : xmwf m1) (W2 : xmwf m2) (Ag : states_agree (d_ar m1) (d_ar m2)).
Context (D1 : levels_distinct (d_ar m1)) (D2 : levels_distinct (d_ar m2)).
Notation hs1 := (ar_headers (d_ar m1)).
Notation hs2 := (ar_headers (d_ar m2)).

Definition xpost (x1 x2 : option (mdd * nat)) : Prop :=
  ∃ m1' r1 m2' r2, x1 = Some (m1', r1) ∧ x2 = Some (m2', r2) ∧
    xmstep m1 m1' ∧ xmstep m2 m2' ∧ node_valid (d_ar m1') r1 ∧ node_valid (d_ar m2') r2 ∧
    same_node (d_ar m1') r1 (d_ar m2') r2.
Lemma xsame_in d1 d2 f1 f2 : repr (d_ar m1) d1 f1 → repr (d_ar m2) d2 f2 → same_node (d_ar m1) f1 (d_ar m2) f2 →
  strip (E12 hs1 hs2) d1 = strip (E12 hs1 hs2) d2.
Proof using All.
  intros R1 R2 Hs. eapply (nsame_strip (d_ar m1) (d_ar m2)); eauto using xw_aw, xw_hc.
Qed.
Lemma xpost_intro m1' r1 dr1 m2' r2 dr2 : xmstep m1 m1' → xmstep m2 m2' → repr (d_ar m1') dr1 r1 → repr (d_ar m2') dr2 r2 →
  strip (E12 hs1 hs2) dr1 = strip (E12 hs1 hs2) dr2 → xpost (Some (m1', r1)) (Some (m2', r2)).
Proof using All.
  intros S1 S2 R1 R2 Heq. exists m1', r1, m2', r2. sp; try done; [by eapply repr_live|by eapply repr_live|].
  destruct S1 as (W1' & _ & Hh1), S2 as (W2' & _ & Hh2).
  eapply (nsame_strip (d_ar m1') (d_ar m2') (xw_aw _ W1') (xw_aw _ W2') (xw_hc _ W1') (xw_hc _ W2')); try done.
  - by eapply agree_hdr.
  - by eapply distinct_hdr.
  - by eapply distinct_hdr.
  - by rewrite Hh1, Hh2.
Qed.
Lemma xheaders : ∃ H1 H2, (∀ hd, hin hs1 hd → hd = H1 (h_level hd)) ∧ (∀ hd, hin hs2 hd → hd = H2 (h_level hd)) ∧
  (∀ hd, hin hs1 hd → h_edges hd = E12 hs1 hs2 (h_level hd)) ∧ (∀ hd, hin hs2 hd → h_edges hd = E12 hs1 hs2 (h_level hd)) ∧
  (∀ d id, repr (d_ar m1) d id → hdby H1 d) ∧ (∀ d id, repr (d_ar m2) d id → hdby H2 d).
Proof using All.
  pose proof (edges12 (d_ar m1) (d_ar m2) (xw_hc _ W1) (xw_hc _ W2) Ag) as HE.
  destruct (hof_exists hs1 D1) as [H1 Hh1]. destruct (hof_exists hs2 D2) as [H2 Hh2]. exists H1, H2. sp; try done.
  - intros hd Hin. apply HE. by left.
  - intros hd Hin. apply HE. by right.
  - intros d id. by apply hdby_in.
  - intros d id. by apply hdby_in.
Qed.

Lemma xconn_same c f1 g1 f2 g2 :
  node_valid (d_ar m1) f1 → node_valid (d_ar m1) g1 → node_valid (d_ar m2) f2 → node_valid (d_ar m2) g2 →
  same_node (d_ar m1) f1 (d_ar m2) f2 → same_node (d_ar m1) g1 (d_ar m2) g2 →
  xpost (mdd_conn c m1 f1 g1) (mdd_conn c m2 f2 g2).
Proof using All.
  intros Vf1 Vg1 Vf2 Vg2 Sf Sg.
  destruct (nvalid_repr _ _ _ (xw_aw _ W1) Vf1) as [df1 Hf1]. destruct (nvalid_repr _ _ _ (xw_aw _ W1) Vg1) as [dg1 Hg1].
  destruct (nvalid_repr _ _ _ (xw_aw _ W2) Vf2) as [df2 Hf2]. destruct (nvalid_repr _ _ _ (xw_aw _ W2) Vg2) as [dg2 Hg2].
  destruct (xmconn c m1 f1 g1 df1 dg1 W1 Hf1 Hg1) as (m1' & r1 & dr1 & -> & Hst1 & Hr1 & HR1).
  destruct (xmconn c m2 f2 g2 df2 dg2 W2 Hf2 Hg2) as (m2' & r2 & dr2 & -> & Hst2 & Hr2 & HR2).
  destruct xheaders as (H1 & H2 & A1 & A2 & HE1 & HE2 & B1 & B2).
  apply (xpost_intro m1' r1 dr1 m2' r2 dr2); try done.
  eapply (XC_sim _ _ _ H1 H2 A1 A2 HE1 HE2); eauto using xsame_in.
Qed.
Lemma xbin_same o f1 g1 f2 g2 : o ≠ MNot →
  node_valid (d_ar m1) f1 → node_valid (d_ar m1) g1 → node_valid (d_ar m2) f2 → node_valid (d_ar m2) g2 →
  same_node (d_ar m1) f1 (d_ar m2) f2 → same_node (d_ar m1) g1 (d_ar m2) g2 →
  xpost (mdd_bin_f o (ar_fuel (d_ar m1)) m1 f1 g1) (mdd_bin_f o (ar_fuel (d_ar m2)) m2 f2 g2).
Proof using All.
  intros Ho Vf1 Vg1 Vf2 Vg2 Sf Sg.
  destruct (nvalid_repr _ _ _ (xw_aw _ W1) Vf1) as [df1 Hf1]. destruct (nvalid_repr _ _ _ (xw_aw _ W1) Vg1) as [dg1 Hg1].
  destruct (nvalid_repr _ _ _ (xw_aw _ W2) Vf2) as [df2 Hf2]. destruct (nvalid_repr _ _ _ (xw_aw _ W2) Vg2) as [dg2 Hg2].
  destruct (xmdd_bin_ok o m1 f1 g1 df1 dg1 Ho W1 Hf1 Hg1) as (m1' & r1 & dr1 & -> & Hst1 & Hr1 & _ & HR1).
  destruct (xmdd_bin_ok o m2 f2 g2 df2 dg2 Ho W2 Hf2 Hg2) as (m2' & r2 & dr2 & -> & Hst2 & Hr2 & _ & HR2).
  destruct xheaders as (H1 & H2 & A1 & A2 & HE1 & HE2 & B1 & B2).
  apply (xpost_intro m1' r1 dr1 m2' r2 dr2); try done.
  eapply (X_sim _ _ _ H1 H2 A1 A2 HE1 HE2); eauto using xsame_in.
Qed.
Lemma xnot_same f1 f2 : node_valid (d_ar m1) f1 → node_valid (d_ar m2) f2 → same_node (d_ar m1) f1 (d_ar m2) f2 →
  xpost (mdd_not m1 f1) (mdd_not m2 f2).
Proof using All.
  intros Vf1 Vf2 Sf.
  destruct (nvalid_repr _ _ _ (xw_aw _ W1) Vf1) as [df1 Hf1]. destruct (nvalid_repr _ _ _ (xw_aw _ W2) Vf2) as [df2 Hf2].
  destruct (xmdd_not_ok m1 f1 df1 W1 Hf1) as (m1' & r1 & dr1 & -> & Hst1 & Hr1 & _ & HR1).
  destruct (xmdd_not_ok m2 f2 df2 W2 Hf2) as (m2' & r2 & dr2 & -> & Hst2 & Hr2 & _ & HR2).
  destruct xheaders as (H1 & H2 & A1 & A2 & HE1 & HE2 & B1 & B2).
  apply (xpost_intro m1' r1 dr1 m2' r2 dr2); try done.
  eapply (X_sim _ _ _ H1 H2 A1 A2 HE1 HE2); [exact HR1|exact HR2|by eauto|done|by eauto|done|by eauto using xsame_in|done].
Qed.
Lemma xite_same f1 g1 h1 f2 g2 h2 :
  node_valid (d_ar m1) f1 → node_valid (d_ar m1) g1 → node_valid (d_ar m1) h1 →
  node_valid (d_ar m2) f2 → node_valid (d_ar m2) g2 → node_valid (d_ar m2) h2 →
  same_node (d_ar m1) f1 (d_ar m2) f2 → same_node (d_ar m1) g1 (d_ar m2) g2 → same_node (d_ar m1) h1 (d_ar m2) h2 →
  xpost (mdd_ite m1 f1 g1 h1) (mdd_ite m2 f2 g2 h2).
Proof using All.
  intros Vf1 Vg1 Vh1 Vf2 Vg2 Vh2 Sf Sg Sh.
  destruct (nvalid_repr _ _ _ (xw_aw _ W1) Vf1) as [df1 Hf1]. destruct (nvalid_repr _ _ _ (xw_aw _ W1) Vg1) as [dg1 Hg1].
  destruct (nvalid_repr _ _ _ (xw_aw _ W2) Vf2) as [df2 Hf2]. destruct (nvalid_repr _ _ _ (xw_aw _ W2) Vg2) as [dg2 Hg2].
  destruct (nvalid_repr _ _ _ (xw_aw _ W1) Vh1) as [dh1 Hh1]. destruct (nvalid_repr _ _ _ (xw_aw _ W2) Vh2) as [dh2 Hh2].
  destruct (xmdd_ite_ok m1 f1 g1 h1 df1 dg1 dh1 W1 Hf1 Hg1 Hh1) as (m1' & r1 & dr1 & -> & Hst1 & Hr1 & _ & HR1).
  destruct (xmdd_ite_ok m2 f2 g2 h2 df2 dg2 dh2 W2 Hf2 Hg2 Hh2) as (m2' & r2 & dr2 & -> & Hst2 & Hr2 & _ & HR2).
  destruct xheaders as (H1 & H2 & A1 & A2 & HE1 & HE2 & B1 & B2).
  apply (xpost_intro m1' r1 dr1 m2' r2 dr2); try done.
  eapply (X3_sim _ _ _ H1 H2 A1 A2 HE1 HE2); eauto using xsame_in.
Qed.
End same2.

Lemma exec_same m1 m2 c1 c2 : mdd_reachable m1 → mdd_reachable m2 → states_agree (d_ar m1) (d_ar m2) →
  levels_distinct (d_ar m1) → levels_distinct (d_ar m2) → mdd_legal m1 c1 → mdd_legal m2 c2 → same_mdd_call m1 c1 m2 c2 →
  xpost m1 m2 (mdd_exec m1 c1) (mdd_exec m2 c2).
Proof.
  intros R1%mreachable_xwf R2%mreachable_xwf Ag D1 D2 L1 L2 Hs.
  destruct c1 as [| |f1|o f1 g1|f1 g1|f1 g1 h1| |], c2 as [| |f2|o' f2 g2|f2 g2|f2 g2 h2| |]; try done; cbn [mdd_exec mdd_legal same_mdd_call] in *.
  - by apply xnot_same.
  - destruct Hs as (<- & ? & ?), L1, L2. by apply xconn_same.
  - destruct Hs as (? & ?), L1, L2. by apply xbin_same.
  - destruct Hs as (? & ? & ?), L1 as (? & ? & ?), L2 as (? & ? & ?). by apply xite_same.
Qed.
(** if the second result has the function of the first result, and so has a node already there, that node is the second result *)
Lemma again_gen {T} (a1 a2 a3 : arena T) r r2 r3 : awf Rn a1 → awf Rn a2 → awf Rn a3 → hcons (ar_headers a1) → hcons (ar_headers a2) →
  levels_distinct a1 → levels_distinct a2 → states_agree a1 a2 → ext a2 a3 → ar_headers a3 = ar_headers a2 →
  node_valid a1 r → node_valid a2 r2 → node_valid a3 r3 → same_node a1 r a2 r2 → same_node a1 r a3 r3 → r2 = r3.
Proof.
  intros W1 W2 W3 C1 C2 D1 D2 Ag E23 Hh V1 V2 V3 S2 S3.
  destruct (nvalid_repr _ _ _ W1 V1) as [d1 H1]. destruct (nvalid_repr _ _ _ W2 V2) as [d2 H2]. destruct (nvalid_repr _ _ _ W3 V3) as [d3 H3].
  apply (nsame_strip a1 a2 W1 W2 C1 C2 Ag D1 D2 _ _ _ _ H1 H2) in S2.
  assert (C3 : hcons (ar_headers a3)) by by rewrite Hh. assert (D3 : levels_distinct a3) by (by eapply distinct_hdr).
  apply (nsame_strip a1 a3 W1 W3 C1 C3) with (d1 := d1) (d2 := d3) in S3; try done; [|by eapply agree_hdr].
  rewrite Hh in S3. apply (ncanon a3); try done; [by eapply ext_live|].
  intros rho t _. rewrite (nval_eval a3 rho d2 r2 t (repr_mono _ _ _ _ E23 H2)), (nval_eval a3 rho d3 r3 t H3).
  rewrite <- (strip_eval (E12 (ar_headers a1) (ar_headers a2)) rho d2), <- (strip_eval (E12 (ar_headers a1) (ar_headers a2)) rho d3). congruence.
Qed.
Lemma exec_again m c m1 r m2 c2 r2 : mdd_reachable m → levels_distinct (d_ar m) → mdd_legal m c → mdd_exec m c = Some (m1, r) →
  mdd_reachable m2 → levels_distinct (d_ar m2) → states_agree (d_ar m) (d_ar m2) → mdd_legal m2 c2 → node_valid (d_ar m2) r2 →
  same_mdd_call m c m2 c2 → same_node (d_ar m1) r (d_ar m2) r2 →
  ∃ m3, mdd_exec m2 c2 = Some (m3, r2).
Proof.
  intros Re D L Heq Re2 D2 Ag L2 V2 Sc Sr.
  destruct (exec_same m m2 c c2) as (n1 & s1 & n2 & s2 & E1 & E2 & S1 & S2 & U1 & U2 & Ss); try done.
  rewrite Heq in E1. injection E1 as <- <-. rewrite E2. exists n2. do 2 f_equal.
  destruct S1 as (W1 & _ & Hh1), S2 as (W2 & Ext2 & Hh2). pose proof (mreachable_xwf _ Re2) as X2. symmetry.
  apply (again_gen (d_ar m1) (d_ar m2) (d_ar n2) r r2 s2); try done; try (by apply xw_aw); try (by apply xw_hc).
  - by eapply distinct_hdr.
  - eapply agree_hdr; [exact Hh1|reflexivity|exact Ag].
Qed.
(** ** constants *)
Lemma xbin_const o m f g r df dg dr : o ≠ MNot → xmwf m → repr (d_ar m) df f → repr (d_ar m) dg g → repr (d_ar m) dr r →
  tarmf o df dg = TRet dr → ∃ m', mdd_bin_f o (ar_fuel (d_ar m)) m f g = Some (m', r).
Proof.
  intros Ho W Hf Hg Hr HX. destruct (xmdd_bin_ok o m f g df dg Ho W Hf Hg) as (m' & r' & dr' & -> & (W' & E & _) & Hr' & _ & Hx).
  exists m'. do 2 f_equal. assert (dr' = dr) as ->; [|eapply (repr_inj Rn); [apply (xw_aw _ W')|exact Hr'|by eapply repr_mono]].
  destruct Hx as [o d ? Hb|o df dg ? Ha|o df dg dx ? Ha _|o df dg hd ds ? Ha]; try congruence.
  destruct d as [t|hd ds]; [done|]. by destruct o.
Qed.
Lemma undet_wins o m g : o ≠ MNot → o ≠ MReplace → mdd_reachable m → node_valid (d_ar m) g →
  (∃ m', mdd_bin_f o (ar_fuel (d_ar m)) m mdd_undet g = Some (m', mdd_undet)) ∧
  (∃ m', mdd_bin_f o (ar_fuel (d_ar m)) m g mdd_undet = Some (m', mdd_undet)).
Proof.
  intros Ho Hr W%mreachable_xwf Vg. destruct (nvalid_repr _ _ _ (xw_aw _ W) Vg) as [dg Hg].
  pose proof (mg_undet _ (xmw_good _ W)) as Hu. split.
  - eapply xbin_const; [done|done|exact Hu|exact Hg|exact Hu|]. destruct o; try done; by destruct dg as [[]|].
  - eapply xbin_const; [done|done|exact Hg|exact Hu|exact Hu|]. destruct o; try done; by destruct dg as [[]|].
Qed.
Lemma const_laws m g : mdd_reachable m → node_valid (d_ar m) g →
  (∃ m', mdd_and m mdd_one g = Some (m', g)) ∧ (∃ m', mdd_and m g mdd_one = Some (m', g)) ∧
  (∃ m', mdd_or m mdd_zero g = Some (m', g)) ∧ (∃ m', mdd_or m g mdd_zero = Some (m', g)) ∧
  (∃ m', mdd_xor m mdd_zero g = Some (m', g)) ∧ (∃ m', mdd_xor m g mdd_zero = Some (m', g)) ∧
  (∃ m', mdd_and m mdd_zero g = Some (m', if decide (g = mdd_undet) then mdd_undet else mdd_zero)) ∧
  (∃ m', mdd_and m g mdd_zero = Some (m', if decide (g = mdd_undet) then mdd_undet else mdd_zero)) ∧
  (∃ m', mdd_or m mdd_one g = Some (m', if decide (g = mdd_undet) then mdd_undet else mdd_one)) ∧
  (∃ m', mdd_or m g mdd_one = Some (m', if decide (g = mdd_undet) then mdd_undet else mdd_one)).
Proof.
  intros Re Vg. pose proof (mreachable_xwf _ Re) as W. destruct (nvalid_repr _ _ _ (xw_aw _ W) Vg) as [dg Hg].
  pose proof (mg_undet _ (xmw_good _ W)) as Hu. pose proof (mg_zero _ (xmw_good _ W)) as Hz. pose proof (mg_one _ (xmw_good _ W)) as Ho.
  assert (Hdec : g = mdd_undet ∨ (g ≠ mdd_undet ∧ dg ≠ Leaf TUndet)).
  { destruct (decide (g = mdd_undet)) as [|Hn]; [by left|]. right. split; [done|]. intros ->. apply Hn.
    by eapply (repr_inj Rn); [apply (xw_aw _ W)|..]. }
  unfold mdd_and, mdd_or, mdd_xor. sp.
  - eapply (xbin_const MAnd); [done|done|exact Ho|exact Hg|exact Hg|]. by destruct dg as [[]|].
  - eapply (xbin_const MAnd); [done|done|exact Hg|exact Ho|exact Hg|]. by destruct dg as [[]|].
  - eapply (xbin_const MOr); [done|done|exact Hz|exact Hg|exact Hg|]. by destruct dg as [[]|].
  - eapply (xbin_const MOr); [done|done|exact Hg|exact Hz|exact Hg|]. by destruct dg as [[]|].
  - eapply (xbin_const MXOr); [done|done|exact Hz|exact Hg|exact Hg|]. by destruct dg as [[]|].
  - eapply (xbin_const MXOr); [done|done|exact Hg|exact Hz|exact Hg|]. by destruct dg as [[]|].
  - destruct Hdec as [->|[Hn Hd]]; [rewrite decide_True by done; destruct (undet_wins MAnd m mdd_zero ltac:(done) ltac:(done) Re (repr_live _ _ _ Hz)); done|]. rewrite decide_False by done.
    eapply (xbin_const MAnd); [done|done|exact Hz|exact Hg|exact Hz|]. by destruct dg as [[]|].
  - destruct Hdec as [->|[Hn Hd]]; [rewrite decide_True by done; destruct (undet_wins MAnd m mdd_zero ltac:(done) ltac:(done) Re (repr_live _ _ _ Hz)); done|]. rewrite decide_False by done.
    eapply (xbin_const MAnd); [done|done|exact Hg|exact Hz|exact Hz|]. by destruct dg as [[]|].
  - destruct Hdec as [->|[Hn Hd]]; [rewrite decide_True by done; destruct (undet_wins MOr m mdd_one ltac:(done) ltac:(done) Re (repr_live _ _ _ Ho)); done|]. rewrite decide_False by done.
    eapply (xbin_const MOr); [done|done|exact Ho|exact Hg|exact Ho|]. by destruct dg as [[]|].
  - destruct Hdec as [->|[Hn Hd]]; [rewrite decide_True by done; destruct (undet_wins MOr m mdd_one ltac:(done) ltac:(done) Re (repr_live _ _ _ Ho)); done|]. rewrite decide_False by done.
    eapply (xbin_const MOr); [done|done|exact Hg|exact Ho|exact Ho|]. by destruct dg as [[]|].
Qed.
