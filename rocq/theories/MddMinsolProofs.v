(** The subtraction and solution functions on the two forests: what the recursions of MddMinsol compute. *)
From Verif Require Import Prelude ComputeCache ComputeCacheProofs Arena Trees ArenaProofs Bdd ArenaMore Mdd MtMdd MtMdd2.
From Verif Require Import SpecBdd SpecMdd NaryProofs MddProofs MtProofs MmProofs MddMain MddMinsol ZmddTrees MssTrees MssSol.

(** orders of the two forests: undetermined is least *)
Definition vle (a b : vt) : Prop :=
  match a, b with VUndet, _ => True | VVal x, VVal y => (x ≤ y)%Z | VVal _, VUndet => False end.
Definition ble (a b : tv) : Prop :=
  match a, b with TUndet, _ => True | TZero, TUndet => False | TZero, _ => True | TOne, TOne => True | TOne, _ => False end.
Lemma vle_refl a : vle a a.
Proof. destruct a; cbn; [done|lia]. Qed.
Lemma vle_trans a b c : vle a b → vle b c → vle a c.
Proof. destruct a, b, c; cbn; try done. lia. Qed.
Lemma vle_anti a b : vle a b → vle b a → a = b.
Proof. destruct a, b; cbn; try done. intros. f_equal. lia. Qed.
Lemma ble_refl a : ble a a.
Proof. by destruct a. Qed.
Lemma ble_trans a b c : ble a b → ble b c → ble a c.
Proof. by destruct a, b, c. Qed.
Lemma ble_anti a b : ble a b → ble b a → a = b.
Proof. by destruct a, b. Qed.

(** which leaf of a family stands for which value *)
Definition vorig (t : vt) : option vt := match t with VVal z => Some (VVal z) | VUndet => None end.
Definition vlisted (t : vt) : Prop := t ≠ VUndet.
Definition bmin_orig (t : tv) : option tv := match t with TOne => Some TOne | _ => None end.
Definition bmax_orig (t : tv) : option tv := match t with TOne => Some TZero | _ => None end.

Lemma leaf_kind {T} top (a : arena T) d id n : lrepr top a d id → ar_nodes a !! id = Some n →
  match n with Term t => d = Leaf t | NT _ _ => ∃ hd ds, d = Br hd ds end.
Proof.
  intros Hr Hn. destruct d as [t|hd ds].
  - apply lrepr_leaf in Hr as [_ Hn']. rewrite Hn in Hn'. by injection Hn' as ->.
  - apply lrepr_br in Hr as (_ & h & cs & Hn' & _). rewrite Hn in Hn'. injection Hn' as ->. eauto.
Qed.

(** a leaf that does not occur *)
Fixpoint noleaf {T} (u : T) (d : dd T) : Prop :=
  match d with
  | Leaf t => t ≠ u
  | Br _ cs => (fix all l := match l with [] => True | c :: l => noleaf u c ∧ all l end) cs
  end.
Lemma noleaf_br {T} (u : T) hd cs : noleaf u (Br hd cs) ↔ Forall (noleaf u) cs.
Proof.
  cbn [noleaf]. induction cs as [|c cs IH]; [by split|]. rewrite Forall_cons, <- IH. done.
Qed.
Lemma noleaf_eval {T} (u : T) d x t : noleaf u d → eval x d = Some t → t ≠ u.
Proof.
  revert x. induction d as [l|hd cs IH] using dd_ind'; intros x Hn; [by intros [= <-]|].
  rewrite eval_br. apply noleaf_br in Hn. destruct (cs !! x (h_level hd)) as [c|] eqn:Hc; [|done]. cbn.
  rewrite Forall_lookup in IH, Hn. by eapply IH, Hn.
Qed.
Lemma noleaf_drev {T} (u : T) d : noleaf u d → noleaf u (drev d).
Proof.
  induction d as [l|hd cs IH] using dd_ind'; [done|]. intros H%noleaf_br. cbn [drev]. apply noleaf_br.
  apply Forall_forall. intros d Hd. rewrite elem_of_reverse in Hd. apply elem_of_list_In, in_map_iff in Hd as (d' & <- & Hd').
  apply elem_of_list_In in Hd'. rewrite Forall_forall in IH, H. by apply IH, H.
Qed.
Lemma noleaf_fl {T} (u : T) top d : noleaf u d → noleaf u (fl top d).
Proof. unfold fl. destruct top; [apply noleaf_drev|done]. Qed.
Lemma noleaf_of {T} (u : T) hs d : hcons hs → okh hs d → (∀ x, vokh hs x → eval x d ≠ Some u) → noleaf u d.
Proof.
  intros Hc. induction d as [l|hd cs IH] using dd_ind'; intros Ho H.
  - intros ->. by apply (H (λ _, 0)); [apply vokh_zero|].
  - apply noleaf_br, Forall_lookup. intros i c Hi. rewrite Forall_lookup in IH. destruct (okh_kid _ _ _ _ _ Ho Hi) as [Hk Hoc].
    destruct (okh_level _ _ _ Hc Ho) as (hd' & Hin & Hl & He).
    eapply IH; [done|done|]. intros x Hx He'. apply (H (upd x (h_level hd) i)).
    + rewrite <- Hl. apply vokh_upd; [done|done|done|]. rewrite He. by eapply lookup_lt_Some.
    + rewrite eval_br, upd_same, Hi. cbn. by rewrite (okh_upd hs).
Qed.

Section arms.
Context {T : Type} (o : T → option T).
Lemma wspec_all df dg : (∀ x t t', eval x df = Some t → o t' ≠ Some t) → disj o dg →
  (∀ x t, fden o dg x t → ∃ t', o t' = Some t) → wspec o df dg dg.
Proof.
  intros H _ Hg x t. split; [|by intros [? _]]. intros Hx. split; [done|]. intros He.
  destruct (Hg x t Hx) as (t' & Ht'). by eapply H.
Qed.
Lemma fden_orig d x t : fden o d x t → ∃ t', o t' = Some t.
Proof. induction 1 as [l x t Ho _|]; [by exists l|done]. Qed.
Lemma wspec_none df dg u : o u = None → (∀ x t, fden o dg x t → eval x df = Some t) → wspec o df dg (Leaf u).
Proof.
  intros Hu H x t. rewrite fden_leaf, Hu. split; [by intros [? _]|]. intros [Hx He]. by apply H in Hx.
Qed.
End arms.

(** ** The value forest *)
Section value.
Context (I : vint) (top : bool).
Notation hs m := (ar_headers (t_ar m)).
Definition vwf (m : mt) : Prop := twf I m ∧ levels_distinct (t_ar m).
Definition vstp (m m' : mt) : Prop := vwf m' ∧ ext (t_ar m) (t_ar m') ∧ hs m' = hs m.
Lemma vstp_of m m' : vwf m → tstep I m m' → vstp m m'.
Proof. intros [_ Hd] (Hw & He & Hh). split; [split; [done|]|done]. unfold levels_distinct. by rewrite Hh. Qed.
Lemma vwf_ar m : vwf m → awf Rn (t_ar m) ∧ hcons (hs m).
Proof. intros [[[] _] _]. done. Qed.

Lemma vmk_ok s h hd ns ds : vwf s → hs s !! h = Some hd → length ns = h_edges hd → Forall2 (repr (t_ar s)) ds ns →
  Forall (λ d, rank d ≤ h_level hd) ds →
  ∃ s' r dr, fo_mk (vforest I) s h ns = (s', r) ∧ vstp s s' ∧ repr (t_ar s') dr r ∧ mkrel hd ds dr.
Proof.
  intros Hw Hh Hl Hf Hr.
  destruct (tcreate_node I s h hd ns (λ i d, ds !! i = Some d)) as (s' & r & dr & ds' & Heq & Hst & Hrep & _ & Hmk & Hlen & HP);
    [apply Hw|done|done| |].
  { intros i r Hi. destruct (Forall2_lookup_r _ _ _ _ _ Hf Hi) as (d & Hd & Hrd). exists d. sp; try done.
    rewrite Forall_lookup in Hr. by eapply Hr. }
  assert (ds' = ds) as ->.
  { apply Forall2_length in Hf. apply list_eq. intros i. destruct (ds' !! i) as [d|] eqn:Hi; [by rewrite (HP i d Hi)|].
    symmetry. apply lookup_ge_None in Hi. apply lookup_ge_None. lia. }
  exists s', r, dr. sp; try done. by apply vstp_of.
Qed.

Lemma vmeet_ok s a b da db : vwf s → repr (t_ar s) da a → repr (t_ar s) db b →
  ∃ s' r, fo_meet (vforest I) s a b = Some (s', r) ∧ vstp s s' ∧ (r = a ↔ below vle (hs s) da db).
Proof.
  intros Hw Ha Hb. cbn [fo_meet vforest]. pose proof (mt_bin_ok I VMin s a b da db (proj1 Hw) Ha Hb) as Hm.
  destruct (mt_bin I VMin s a b) as [[s' r]|].
  2:{ destruct Hm as (ρ & x & y & _ & _ & _ & Hv). by destruct x, y. }
  destruct Hm as (Hst & dr & Hr & _ & Hp). exists s', r. pose proof (vstp_of _ _ Hw Hst) as Hst'. sp; try done.
  destruct Hst' as ((Hw' & Hd') & He & Hh). pose proof (repr_mono _ _ _ _ He Ha) as Ha'.
  assert (Hkey : ∀ x y z, trel I VMin x y z → z = x ↔ vle x y).
  { intros x y z. unfold trel. destruct x as [|x], y as [|y]; cbn; intros [= <-]; try done.
    split; [intros [= Hm]; lia|]. intros. f_equal. lia. }
  split.
  - intros ->. rewrite (repr_fun _ _ _ _ Hr Ha') in Hp. intros ρ Hv.
    destruct (Hp ρ Hv) as (x & y & z & Hx & Hy & Hz & Hrel). exists x, y. sp; try done. rewrite Hx in Hz. injection Hz as <-.
    by eapply Hkey.
  - intros Hbe. destruct (vwf_ar s' (conj Hw' Hd')) as [Hwf Hc].
    eapply (ncanon (t_ar s')); [done|done|done|by eapply repr_live|by eapply repr_live|].
    intros ρ t Hv. rewrite (nval_eval _ _ _ _ _ Hr), (nval_eval _ _ _ _ _ Ha').
    assert (Hv' : vokh (hs s) ρ) by by rewrite <- Hh. destruct (Hp ρ Hv') as (x & y & z & Hx & Hy & Hz & Hrel).
    destruct (Hbe ρ Hv') as (x' & y' & Hx' & Hy' & Hle). rewrite Hx in Hx'. injection Hx' as <-. rewrite Hy in Hy'. injection Hy' as <-.
    rewrite Hz, Hx. intros [= <-]. f_equal. symmetry. by eapply Hkey.
Qed.

Lemma vleaf_ok s id t : vwf s → repr (t_ar s) (Leaf t) id →
  ∃ l, repr (t_ar s) (Leaf l) (vsol_leaf id t) ∧ ∀ t', vorig l = Some t' ↔ t' = t ∧ vlisted t.
Proof.
  intros [[Hg _] _] Hr. destruct t as [|z]; cbn [vsol_leaf].
  - exists VUndet. split; [apply Hg|]. intros t'. split; [done|]. by intros [_ []].
  - exists (VVal z). split; [done|]. intros t'. cbn. split; [intros [= <-]|]; [by split|]. by intros [-> _].
Qed.

Lemma varm_ok s f g df dg fn gn : vwf s → lrepr top (t_ar s) df f → lrepr top (t_ar s) dg g →
  ar_nodes (t_ar s) !! f = Some fn → ar_nodes (t_ar s) !! g = Some gn → disj vorig dg →
  match vwithout_arm f g fn gn with
  | WRet x => ∃ dr, lrepr top (t_ar s) dr x ∧ rank dr ≤ rank dg ∧ wspec vorig df dg dr ∧ disj vorig dr
  | WBase => ∃ hd ds, df = Br hd ds ∧ rank dg = 0
  | WMap => rank df = 0 ∧ ∃ hd ds, dg = Br hd ds
  | WLevel => (∃ hd ds, df = Br hd ds) ∧ ∃ hd ds, dg = Br hd ds
  end.
Proof.
  intros [[Hgd _] _] Hf Hg Hfn Hgn Hd.
  pose proof (leaf_kind _ _ _ _ _ Hf Hfn) as Kf. pose proof (leaf_kind _ _ _ _ _ Hg Hgn) as Kg.
  assert (Hu : lrepr top (t_ar s) (Leaf VUndet) mt_undet).
  { unfold lrepr. rewrite fl_leaf. apply Hgd. }
  assert (HU : (∀ x t, fden vorig dg x t → eval x df = Some t) →
    ∃ dr, lrepr top (t_ar s) dr mt_undet ∧ rank dr ≤ rank dg ∧ wspec vorig df dg dr ∧ disj vorig dr).
  { intros H. exists (Leaf VUndet). sp; try done; [cbn; lia|]. by apply wspec_none. }
  assert (HG : (∀ x t t', eval x df = Some t → fden vorig dg x t → vorig t' ≠ Some t) →
    ∃ dr, lrepr top (t_ar s) dr g ∧ rank dr ≤ rank dg ∧ wspec vorig df dg dr ∧ disj vorig dr).
  { intros H. exists dg. sp; try done. intros x t. split; [|by intros [? _]]. intros Hx. split; [done|]. intros He.
    destruct (fden_orig _ _ _ _ Hx) as (t' & Ht'). by eapply H. }
  destruct fn as [[|a]|hf fc].
  - subst df. cbn [vwithout_arm]. apply HG. intros x t t' [= <-] _. by destruct t'.
  - subst df. destruct gn as [[|b]|hg gc]; cbn [vwithout_arm].
    + subst dg. apply HU. intros x t Hx. apply fden_leaf in Hx as [? _]. done.
    + subst dg. destruct (a =? b)%Z eqn:Hab.
      * apply Z.eqb_eq in Hab as ->. apply HU. intros x t [[= <-] _]%fden_leaf. done.
      * apply Z.eqb_neq in Hab. apply HG. intros x t t' [= <-] [[= ->] _]%fden_leaf. done.
    + done.
  - destruct Kf as (hd & ds & ->). destruct gn as [[|b]|hg gc]; cbn [vwithout_arm].
    + subst dg. apply HU. intros x t Hx. apply fden_leaf in Hx as [? _]. done.
    + subst dg. by exists hd, ds.
    + split; [by exists hd, ds|done].
Qed.

Lemma vsol_ok s f df : vwf s → lrepr top (t_ar s) df f → True →
  ∃ s' m, sol (vforest I) top vwithout_arm vsol_leaf s f = Some (s', m) ∧ vstp s s' ∧
    match m with
    | Some r => ∃ dr, lrepr top (t_ar s') dr r ∧ rank dr ≤ rank df ∧ chain (lle top vle) (hs s) df ∧
        solspec vorig (hs s) vlisted df dr ∧ disj vorig dr
    | None => ¬ chain (lle top vle) (hs s) df
    end.
Proof.
  eapply (sol_ok (vforest I) top vwithout_arm vsol_leaf vorig vle vlisted vwf vstp (λ _, True)).
  - apply vwf_ar.
  - intros s0 [Hw Hd]. split; [done|]. split; [apply ext_refl|done].
  - intros s1 s2 s3 (_ & H1 & H2) (? & H3 & H4). split; [done|]. split; [by eapply ext_trans|congruence].
  - done.
  - apply vmk_ok.
  - done.
  - done.
  - intros s0 a b da db ? ? ? _ _. by apply vmeet_ok.
  - apply vleaf_ok.
  - apply varm_ok.
  - apply vle_refl.
  - apply vle_trans.
  - apply vle_anti.
Qed.
End value.

(** ** The boolean forest *)
Section bool.
Context (top : bool).
Notation hs m := (ar_headers (d_ar m)).
Definition bwf (m : mdd) : Prop := mwf m ∧ levels_distinct (d_ar m).
Definition bstp (m m' : mdd) : Prop := bwf m' ∧ ext (d_ar m) (d_ar m') ∧ hs m' = hs m.
Lemma bstp_of m m' : bwf m → mstep m m' → bstp m m'.
Proof. intros [_ Hd] (Hw & He & Hh). split; [split; [done|]|done]. unfold levels_distinct. by rewrite Hh. Qed.
Lemma bwf_ar m : bwf m → awf Rn (d_ar m) ∧ hcons (hs m).
Proof. intros [[[] _] _]. done. Qed.

Lemma bmk_ok s h hd ns ds : bwf s → hs s !! h = Some hd → length ns = h_edges hd → Forall2 (repr (d_ar s)) ds ns →
  Forall (λ d, rank d ≤ h_level hd) ds →
  ∃ s' r dr, fo_mk bforest s h ns = (s', r) ∧ bstp s s' ∧ repr (d_ar s') dr r ∧ mkrel hd ds dr.
Proof.
  intros Hw Hh Hl Hf Hr.
  destruct (mcreate_node s h hd ns (λ i d, ds !! i = Some d)) as (s' & r & dr & ds' & Heq & Hst & Hrep & _ & Hmk & Hlen & HP);
    [apply Hw|done|done| |].
  { intros i r Hi. destruct (Forall2_lookup_r _ _ _ _ _ Hf Hi) as (d & Hd & Hrd). exists d. sp; try done.
    rewrite Forall_lookup in Hr. by eapply Hr. }
  assert (ds' = ds) as ->.
  { apply Forall2_length in Hf. apply list_eq. intros i. destruct (ds' !! i) as [d|] eqn:Hi; [by rewrite (HP i d Hi)|].
    symmetry. apply lookup_ge_None in Hi. apply lookup_ge_None. lia. }
  exists s', r, dr. sp; try done. by apply bstp_of.
Qed.

Lemma bmeet_ok s a b da db : bwf s → repr (d_ar s) da a → repr (d_ar s) db b →
  noleaf TUndet da → noleaf TUndet db →
  ∃ s' r, fo_meet bforest s a b = Some (s', r) ∧ bstp s s' ∧ (r = a ↔ below ble (hs s) da db).
Proof.
  intros Hw Ha Hb Hda Hdb. cbn [fo_meet bforest].
  destruct (mdd_bin_ok MAnd s a b da db ltac:(done) (proj1 Hw) Ha Hb) as (s' & r & dr & Heq & Hst & Hr & _ & Hp).
  exists s', r. pose proof (bstp_of _ _ Hw Hst) as Hst'. sp; try done.
  destruct Hst' as ((Hw' & Hd') & He & Hh). pose proof (repr_mono _ _ _ _ He Ha) as Ha'.
  assert (Hkey : ∀ ρ x y z, eval ρ da = Some x → eval ρ db = Some y → mrel MAnd x y z → z = x ↔ ble x y).
  { intros ρ x y z Hx Hy. apply (noleaf_eval _ _ _ _ Hda) in Hx. apply (noleaf_eval _ _ _ _ Hdb) in Hy. cbn. unfold BddProofs.Rand.
    intros [-> |[_ [-> | ->]]]; [|done|done]. by destruct x, y. }
  split.
  - intros ->. rewrite (repr_fun _ _ _ _ Hr Ha') in Hp. intros ρ Hv.
    destruct (Hp ρ Hv) as (x & y & z & Hx & Hy & Hz & Hrel). exists x, y. sp; try done. rewrite Hx in Hz. injection Hz as <-.
    by eapply Hkey.
  - intros Hbe. destruct (bwf_ar s' (conj Hw' Hd')) as [Hwf Hc].
    eapply (ncanon (d_ar s')); [done|done|done|by eapply repr_live|by eapply repr_live|].
    intros ρ t Hv. rewrite (nval_eval _ _ _ _ _ Hr), (nval_eval _ _ _ _ _ Ha').
    assert (Hv' : vokh (hs s) ρ) by by rewrite <- Hh. destruct (Hp ρ Hv') as (x & y & z & Hx & Hy & Hz & Hrel).
    destruct (Hbe ρ Hv') as (x' & y' & Hx' & Hy' & Hle). rewrite Hx in Hx'. injection Hx' as <-. rewrite Hy in Hy'. injection Hy' as <-.
    rewrite Hz, Hx. intros [= <-]. f_equal. symmetry. by eapply Hkey.
Qed.

Lemma bminleaf_ok s id t : bwf s → repr (d_ar s) (Leaf t) id →
  ∃ l, repr (d_ar s) (Leaf l) (bminsol_leaf id t) ∧ ∀ t', bmin_orig l = Some t' ↔ t' = t ∧ t = TOne.
Proof.
  intros [[Hg _] _] Hr. destruct t; cbn [bminsol_leaf].
  - exists TUndet. split; [apply Hg|]. intros t'. split; [done|]. by intros [_ ?].
  - exists TOne. split; [done|]. intros t'. cbn. split; [by intros [= <-]|]. by intros [-> _].
  - exists TUndet. split; [apply Hg|]. intros t'. split; [done|]. by intros [_ ?].
Qed.
Lemma bmaxleaf_ok s id t : bwf s → repr (d_ar s) (Leaf t) id →
  ∃ l, repr (d_ar s) (Leaf l) (bmaxsol_leaf id t) ∧ ∀ t', bmax_orig l = Some t' ↔ t' = t ∧ t = TZero.
Proof.
  intros [[Hg _] _] Hr. destruct t; cbn [bmaxsol_leaf].
  - exists TOne. split; [apply Hg|]. intros t'. cbn. split; [by intros [= <-]|]. by intros [-> _].
  - exists TUndet. split; [apply Hg|]. intros t'. split; [done|]. by intros [_ ?].
  - exists TUndet. split; [apply Hg|]. intros t'. split; [done|]. by intros [_ ?].
Qed.

Lemma barm_ok (up : bool) s f g df dg fn gn : let o := if up then bmax_orig else bmin_orig in
  bwf s → lrepr top (d_ar s) df f → lrepr top (d_ar s) dg g →
  ar_nodes (d_ar s) !! f = Some fn → ar_nodes (d_ar s) !! g = Some gn → disj o dg →
  match (if up then bupwithout_arm else bwithout_arm) f g fn gn with
  | WRet x => ∃ dr, lrepr top (d_ar s) dr x ∧ rank dr ≤ rank dg ∧ wspec o df dg dr ∧ disj o dr
  | WBase => ∃ hd ds, df = Br hd ds ∧ rank dg = 0
  | WMap => rank df = 0 ∧ ∃ hd ds, dg = Br hd ds
  | WLevel => (∃ hd ds, df = Br hd ds) ∧ ∃ hd ds, dg = Br hd ds
  end.
Proof.
  intros o [[Hgd _] _] Hf Hg Hfn Hgn Hd.
  pose proof (leaf_kind _ _ _ _ _ Hf Hfn) as Kf. pose proof (leaf_kind _ _ _ _ _ Hg Hgn) as Kg.
  assert (Hu : lrepr top (d_ar s) (Leaf TUndet) mdd_undet).
  { unfold lrepr. rewrite fl_leaf. apply Hgd. }
  assert (H1 : lrepr top (d_ar s) (Leaf TOne) mdd_one).
  { unfold lrepr. rewrite fl_leaf. apply Hgd. }
  assert (Hou : o TUndet = None) by by destruct up.
  assert (Ho0 : o TZero = None) by by destruct up.
  assert (Ho1 : ∀ t t', o t = Some t' → t = TOne ∧ t' = if up then TZero else TOne).
  { intros t t'. subst o. destruct up, t; cbn; try done; by intros [= <-]. }
  assert (HU : (∀ x t, fden o dg x t → eval x df = Some t) →
    ∃ dr, lrepr top (d_ar s) dr mdd_undet ∧ rank dr ≤ rank dg ∧ wspec o df dg dr ∧ disj o dr).
  { intros H. exists (Leaf TUndet). sp; try done; [cbn; lia|]. by apply wspec_none. }
  assert (HG : (∀ x t, eval x df = Some t → fden o dg x t → False) →
    ∃ dr, lrepr top (d_ar s) dr g ∧ rank dr ≤ rank dg ∧ wspec o df dg dr ∧ disj o dr).
  { intros H. exists dg. sp; try done. intros x t. split; [|by intros [? _]]. intros Hx. split; [done|]. intros He.
    by eapply H. }
  assert (Hval : ∀ x t, fden o dg x t → t = if up then TZero else TOne).
  { intros x t Hx. destruct (fden_orig _ _ _ _ Hx) as (t' & Ht'). by apply Ho1 in Ht' as [_ ?]. }
  assert (Hgu : dg = Leaf TUndet ∨ dg = Leaf TZero → ∀ x t, fden o dg x t → False).
  { intros [-> | ->] x t [Hx _]%fden_leaf; congruence. }
  destruct fn as [[]|hf fc].
  - subst df. destruct up.
    + assert (E : ∃ dr, lrepr top (d_ar s) dr mdd_undet ∧ rank dr ≤ rank dg ∧ wspec o (Leaf TZero) dg dr ∧ disj o dr).
      { apply HU. intros x t Hx. by rewrite (Hval x t Hx). }
      by destruct gn as [[]|].
    + assert (E : ∃ dr, lrepr top (d_ar s) dr g ∧ rank dr ≤ rank dg ∧ wspec o (Leaf TZero) dg dr ∧ disj o dr).
      { apply HG. intros x t [= <-] Hx. by apply Hval in Hx. }
      destruct gn as [[]|]; try done; cbn [bwithout_arm].
      * subst dg. exists (Leaf TOne).
        sp; try done. intros x t. rewrite fden_leaf. split; [|by intros [? _]]. intros [Hx ?]. sp; try done.
        cbn in Hx. injection Hx as <-. done.
      * apply HU. intros x t Hx. exfalso. eapply Hgu; [|done]. by left.
  - subst df. destruct up.
    + assert (E : ∃ dr, lrepr top (d_ar s) dr g ∧ rank dr ≤ rank dg ∧ wspec o (Leaf TOne) dg dr ∧ disj o dr).
      { apply HG. intros x t [= <-] Hx. by apply Hval in Hx. }
      destruct gn as [[]|]; try done. cbn [bupwithout_arm].
      apply HU. intros x t Hx. exfalso. eapply Hgu; [|done]. by left.
    + assert (E : ∃ dr, lrepr top (d_ar s) dr mdd_undet ∧ rank dr ≤ rank dg ∧ wspec o (Leaf TOne) dg dr ∧ disj o dr).
      { apply HU. intros x t Hx. by rewrite (Hval x t Hx). }
      by destruct gn as [[]|].
  - subst df.
    assert (E : ∃ dr, lrepr top (d_ar s) dr g ∧ rank dr ≤ rank dg ∧ wspec o (Leaf TUndet) dg dr ∧ disj o dr).
    { apply HG. intros x t [= <-] Hx. apply Hval in Hx. by destruct up. }
    by destruct up, gn as [[]|].
  - destruct Kf as (hd & ds & ->).
    assert (E : dg = Leaf TUndet ∨ dg = Leaf TZero →
      ∃ dr, lrepr top (d_ar s) dr mdd_undet ∧ rank dr ≤ rank dg ∧ wspec o (Br hd ds) dg dr ∧ disj o dr).
    { intros Hz. apply HU. intros x t Hx. exfalso. by eapply Hgu. }
    destruct gn as [[]|hg gc].
    + destruct up; cbn [bwithout_arm bupwithout_arm]; apply E; by right.
    + subst dg. destruct up; by exists hd, ds.
    + destruct up; cbn [bwithout_arm bupwithout_arm]; apply E; by left.
    + destruct up; (split; [by exists hd, ds|done]).
Qed.

Lemma bsol_ok (up : bool) s f df : let o := if up then bmax_orig else bmin_orig in
  let listed := λ t, t = if up then TZero else TOne in
  bwf s → lrepr top (d_ar s) df f → noleaf TUndet df →
  ∃ s' m, sol bforest top (if up then bupwithout_arm else bwithout_arm) (if up then bmaxsol_leaf else bminsol_leaf) s f = Some (s', m) ∧
    bstp s s' ∧
    match m with
    | Some r => ∃ dr, lrepr top (d_ar s') dr r ∧ rank dr ≤ rank df ∧ chain (lle top ble) (hs s) df ∧
        solspec o (hs s) listed df dr ∧ disj o dr
    | None => ¬ chain (lle top ble) (hs s) df
    end.
Proof.
  intros o listed.
  eapply (sol_ok bforest top _ _ o ble listed bwf bstp (noleaf TUndet)).
  - apply bwf_ar.
  - intros s0 [Hw Hd]. split; [done|]. split; [apply ext_refl|done].
  - intros s1 s2 s3 (_ & H1 & H2) (? & H3 & H4). split; [done|]. split; [by eapply ext_trans|congruence].
  - done.
  - apply bmk_ok.
  - intros hd ds i d H Hi. apply noleaf_br in H. rewrite Forall_lookup in H. by eapply H.
  - apply noleaf_fl.
  - apply bmeet_ok.
  - subst o listed. destruct up; [apply bmaxleaf_ok|apply bminleaf_ok].
  - apply (barm_ok up).
  - apply ble_refl.
  - apply ble_trans.
  - apply ble_anti.
Qed.
End bool.
