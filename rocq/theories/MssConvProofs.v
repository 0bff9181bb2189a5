(** The conversion of a solution diagram into a ZMDD family. *)
From stdpp Require Import strings.
From Verif Require Import Prelude ComputeCache Arena Bdd Mdd MtMdd MtMdd2 Zmdd MssConv Trees ArenaProofs ArenaMore SpecBdd SpecMdd SpecZmdd
  NaryProofs MddProofs MddMain ZmddTrees ZmddProofs ZmddMain MssTrees MssSol MddMinsolProofs.

(** header [hd'] describes a variable of [hs] *)
Definition hmatch (hs : list header) (hd' : header) : Prop :=
  ∃ hd, hd ∈ hs ∧ h_level hd' = h_level hd ∧ h_label hd' = h_label hd ∧ h_edges hd' = h_edges hd.

Section conv.
Context {T : Type} (leaf : T → option Z) (rv : bool) (a : arena T) (Hwf : awf Rn a) (Hc : hcons (ar_headers a)).

Definition cvd (z : mt) (d : dd T) (x : nat) : Prop :=
  ∃ dz, repr (t_ar z) dz x ∧ rank dz ≤ rank d ∧ ∀ v n, zden dz v n ↔ ∃ l, fden Some d v l ∧ leaf l = Some n.
Record cinv (s : cst) : Prop := {
  ci_re : zm_reachable (cv_z s);
  ci_hd : ∀ hd, hd ∈ ar_headers (t_ar (cv_z s)) → hmatch (ar_headers a) hd;
  ci_h : ∀ h h', cv_h s !! h = Some h' → ∃ hd hd', ar_headers a !! h = Some hd ∧ ar_headers (t_ar (cv_z s)) !! h' = Some hd' ∧
    h_level hd' = h_level hd ∧ h_edges hd' = h_edges hd;
  ci_memo : ∀ i x, cv_memo s !! i = Some x → ∃ d, lrepr rv a d i ∧ cvd (cv_z s) d x;
}.
Definition cstep (s s' : cst) : Prop := cinv s' ∧ ext (t_ar (cv_z s)) (t_ar (cv_z s')).
Lemma cstep_refl s : cinv s → cstep s s.
Proof. intros. split; [done|apply ext_refl]. Qed.
Lemma cstep_trans s1 s2 s3 : cstep s1 s2 → cstep s2 s3 → cstep s1 s3.
Proof. intros [_ H1] [? H2]. split; [done|by eapply ext_trans]. Qed.
Lemma cvd_mono z z' d x : ext (t_ar z) (t_ar z') → cvd z d x → cvd z' d x.
Proof. intros He (dz & Hr & ? & ?). exists dz. sp; try done. by eapply repr_mono. Qed.

(** a legal call on the destination *)
Lemma cinv_exec s c z r : cinv s → zm_legal (cv_z s) c → (∀ roots, c ≠ ZGc roots) → zm_exec (cv_z s) c = Some (z, r) →
  (∀ hd, hd ∈ ar_headers (t_ar z) → hmatch (ar_headers a) hd) →
  cstep s (CSt z (cv_h s) (cv_memo s)).
Proof.
  intros [Hre Hhd Hh Hm] Hl Hg He Hhd'.
  destruct (zm_exec_ok _ c (zm_reachable_wf _ Hre) Hl) as (z' & r' & He' & _ & Hx). rewrite He in He'. injection He' as <- <-.
  specialize (Hx Hg). split; [|done]. constructor; cbn.
  - by eapply zm_reachable_step.
  - done.
  - intros h h' H. destruct (Hh _ _ H) as (hd & hd' & ? & H2 & ? & ?). exists hd, hd'. sp; try done.
    destruct Hx as [[k Hp] _]. rewrite Hp. by apply lookup_app_l_Some.
  - intros i x H. destruct (Hm _ _ H) as (d & ? & ?). exists d. split; [done|]. by eapply cvd_mono.
Qed.
Lemma cinv_memo s d i x : cinv s → lrepr rv a d i → cvd (cv_z s) d x →
  cstep s (CSt (cv_z s) (cv_h s) (<[i := x]> (cv_memo s))).
Proof.
  intros [Hre Hhd Hh Hm] Hd Hx. split; [|apply ext_refl]. constructor; try done. cbn.
  intros j y. rewrite lookup_insert_Some. intros [[<- <-]|[_ H]]; [by exists d|by apply Hm].
Qed.

Lemma dst_header_ok s h hd n : cinv s → ar_headers a !! h = Some hd → n = h_edges hd →
  ∃ s' h' hd', dst_header s h (h_level hd) (h_label hd) n = (s', h') ∧ cstep s s' ∧
    ar_headers (t_ar (cv_z s')) !! h' = Some hd' ∧ h_level hd' = h_level hd ∧ h_edges hd' = h_edges hd.
Proof.
  intros Hi Hh ->. unfold dst_header. destruct (cv_h s !! h) as [h'|] eqn:E.
  { destruct (ci_h _ Hi _ _ E) as (hd1 & hd' & H1 & ? & ? & ?). rewrite Hh in H1. injection H1 as <-.
    exists s, h', hd'. sp; done. }
  destruct (zm_create_header (cv_z s) (h_level hd) (h_label hd) (h_edges hd)) as [z h'] eqn:Ez.
  pose proof (zm_reachable_wf _ (ci_re _ Hi)) as Hw. apply elem_of_list_lookup_2 in Hh as Hin.
  assert (Hf : header_fits (t_ar (cv_z s)) (h_level hd) (h_edges hd)).
  { split; [by apply Hc|]. apply Forall_forall. intros hd1 H1 Hl. destruct (ci_hd _ Hi _ H1) as (hd2 & H2 & L2 & _ & E2).
    rewrite E2. apply Hc; try done. congruence. }
  destruct (zm_create_header_ok (cv_z s) (h_level hd) (h_label hd) (h_edges hd) z h' Hw) as (_ & Hx & -> & Hhs & _); [|done|].
  { apply hcons_app; [apply (zmw_good _ Hw)|by apply hfits_new]. }
  assert (Hst : cstep s (CSt z (cv_h s) (cv_memo s))).
  { eapply (cinv_exec s (ZHeader (h_level hd) (h_label hd) (h_edges hd))); [done|done|done| |].
    - cbn [zm_exec]. by rewrite Ez.
    - intros hd1. rewrite Hhs, elem_of_app, elem_of_list_singleton. intros [H1| ->]; [by apply (ci_hd _ Hi)|].
      exists hd. done. }
  do 3 eexists. split; [done|]. cbn [cv_z]. rewrite Hhs. sp.
  - destruct Hst as [[Hre Hhd Hh' Hm] He]. split; [|done]. constructor; cbn [cv_z cv_h cv_memo] in *; try done.
    intros k k'. rewrite lookup_insert_Some. intros [[<- <-]|[_ H]]; [|by apply Hh'].
    exists hd. eexists. sp; [done|rewrite Hhs; by apply list_lookup_middle|done|done].
  - by apply list_lookup_middle.
  - done.
  - done.
Qed.

Lemma to_zmdd_ok n : ∀ s d root, cinv s → lrepr rv a d root → rank d < n →
  ∃ s' x, to_zmdd_f leaf n a rv s root = Some (s', x) ∧ cstep s s' ∧ cvd (cv_z s') d x.
Proof.
  induction n as [|n IH]; intros s d root Hi Hd Hn; [lia|]. cbn [to_zmdd_f].
  destruct (cv_memo s !! root) as [x|] eqn:Em.
  { destruct (ci_memo _ Hi _ _ Em) as (d' & Hd' & Hx). rewrite (lrepr_fun _ _ _ _ _ Hd' Hd) in Hx.
    exists s, x. sp; done. }
  assert (Hfin : ∀ nd (X : node T → option (cst * nat)), ar_nodes a !! root = Some nd →
    (∃ s' x, X nd = Some (s', x) ∧ cstep s s' ∧ cvd (cv_z s') d x) →
    ∃ s' x, (nd ← ar_nodes a !! root; '(s, result) ← X nd; Some (CSt (cv_z s) (cv_h s) (<[root := result]> (cv_memo s)), result)) = Some (s', x) ∧
      cstep s s' ∧ cvd (cv_z s') d x).
  { intros nd X -> (s' & x & HX & Hst & Hx). cbn [mbind option_bind]. rewrite HX. cbn [mbind option_bind].
    do 2 eexists. split; [done|]. split; [|done]. eapply cstep_trans; [exact Hst|]. eapply cinv_memo; [apply Hst|done|done]. }
  pose proof (zm_reachable_wf _ (ci_re _ Hi)) as Hw.
  destruct d as [t|hd ds].
  - pose proof Hd as [_ Hnd]%lrepr_leaf. apply (Hfin (Term t)); [done|]. destruct (leaf t) as [v|] eqn:Hlf.
    + destruct (zm_value_ok (cv_z s) v Hw) as (z & x & Hz & (_ & _ & Hhz) & Hr). rewrite Hz.
      do 2 eexists. split; [done|]. split.
      * eapply (cinv_exec s (ZValue v)); [done|done|done|cbn [zm_exec]; by rewrite Hz|]. rewrite Hhz. apply Hi.
      * exists (Leaf (VVal v)). cbn [cv_z]. sp; try done. intros x' n'. rewrite zden_leaf. setoid_rewrite fden_leaf. naive_solver.
    + do 2 eexists. split; [done|]. split; [by apply cstep_refl|]. exists und. sp; [apply (zmw_good _ Hw)|done|].
      intros x' n'. split; [by intros ?%zden_und|]. intros (l & [[= <-] _]%fden_leaf & Hl). congruence.
  - pose proof Hd as [_ (h & cs & Hnd & _)]%lrepr_br.
    destruct (lrepr_kids rv a hd ds root h cs Hwf Hc Hd Hnd) as (Hh & Hf & Hlen & Hpos).
    apply (Hfin (NT h cs)); [done|]. rewrite Hh. cbn [mbind option_bind].
    assert (Hrk : ∀ i d, ds !! i = Some d → rank d ≤ h_level hd).
    { intros i d Hdi. by eapply okh_kid; [exact (lrepr_okh rv a _ _ Hwf Hc Hd)|]. }
    pose proof (mapst_spec cstep (λ s c x, ∀ d, lrepr rv a d c → cvd (cv_z s) d x) (λ _, False)
      (λ s e, to_zmdd_f leaf n a rv s e) cs s cstep_trans (λ x y Hxy, cstep_refl y (proj1 Hxy)) (cstep_refl s Hi)) as Hm.
    feed specialize Hm.
    { intros x y c b _ [_ He] HQ d Hcd. eapply cvd_mono; [exact He|]. by apply HQ. }
    { intros s' c Hcin [Hi' _]. assert (Hcs : c ∈ ch rv cs) by (by apply ch_elem). apply elem_of_list_lookup in Hcs as [i Hic].
      destruct (Forall2_lookup_r _ _ _ _ _ Hf Hic) as (dc & Hdc & Hrc).
      destruct (IH s' dc c Hi' Hrc) as (s'' & x & -> & Hst & Hx); [specialize (Hrk _ _ Hdc); cbn in Hn; lia|].
      split; [done|]. intros d' Hd'. by rewrite (lrepr_fun _ _ _ _ _ Hd' Hrc). }
    destruct (mapst _ s cs) as [[s1 xs]|]; [destruct Hm as [Hst1 HQ]|by destruct Hm as (? & _ & ?)].
    cbn [mbind option_bind].
    assert (Hch : (if rv then rev xs else xs) = ch rv xs).
    { unfold ch. destruct rv; [|done]. unfold reverse. by rewrite rev_alt. }
    rewrite Hch.
    destruct (dst_header_ok s1 h hd (length cs) (proj1 Hst1) Hh Hlen) as (s2 & h' & hd' & -> & Hst2 & Hh' & Hlv & Hed).
    apply (ch_Forall2 rv) in HQ.
    pose proof (zm_reachable_wf _ (ci_re _ (proj1 Hst2))) as Hw2.
    assert (Hxlen : length (ch rv xs) = h_edges hd').
    { rewrite <- (Forall2_length _ _ _ HQ), ch_length. congruence. }
    destruct (zmcreate_node (cv_z s2) h' hd' (ch rv xs) (λ i dz, ∃ d, ds !! i = Some d ∧ ∀ v n, zden dz v n ↔ ∃ l, fden Some d v l ∧ leaf l = Some n))
      as (z & r & dr & dzs & Heq & (Hwz & Hez & Hhz) & Hr & Hk & Hmk & Hdl & Hok & HP); [done|done|done| |].
    { intros i x Hx. destruct (Forall2_lookup_r _ _ _ _ _ HQ Hx) as (c & Hci & Hcx).
      destruct (Forall2_lookup_r _ _ _ _ _ Hf Hci) as (d & Hdi & Hrd). specialize (Hcx d Hrd).
      destruct (cvd_mono _ _ _ _ (proj2 Hst2) Hcx) as (dz & ? & ? & ?). exists dz. specialize (Hrk _ _ Hdi).
      sp; [done|lia|]. by exists d. }
    rewrite Heq. cbn [mbind option_bind]. do 2 eexists. split; [done|]. split.
    + eapply cstep_trans; [exact Hst1|]. eapply cstep_trans; [exact Hst2|].
      eapply (cinv_exec s2 (ZNode h' (ch rv xs))); [apply Hst2| |done|exact Heq|].
      * cbn [zm_legal]. unfold node_fits. rewrite Hh'. split; [done|]. apply Forall_lookup. intros i x Hx.
        destruct (Forall2_lookup_r _ _ _ _ _ HQ Hx) as (c & Hci & Hcx).
        destruct (Forall2_lookup_r _ _ _ _ _ Hf Hci) as (d & Hdi & Hrd). specialize (Hcx d Hrd).
        destruct (cvd_mono _ _ _ _ (proj2 Hst2) Hcx) as (dz & Hrz & Hkz & ?). specialize (Hrk _ _ Hdi).
        split; [by eapply repr_live|]. unfold node_below. rewrite (a_node_level _ _ _ Hrz). destruct dz; cbn in *; [done|lia].
      * rewrite Hhz. apply Hst2.
    + exists dr. cbn [cv_z rank]. sp; [done|lia|]. intros v n'. rewrite (mkz_den _ _ _ _ v n' Hmk Hok), Hlv. split.
      * intros (dz & Hdz & Hv). destruct (HP _ _ Hdz) as (d & Hdi & Hiff). destruct (proj1 (Hiff _ _) Hv) as (l & Hl & Hlf).
        exists l. split; [|done]. apply fden_br. by exists d.
      * intros (l & (d & Hdi & Hl)%fden_br & Hlf). destruct (lookup_lt_is_Some_2 dzs (v (h_level hd))) as [dz Hdz].
        { rewrite Hdl, Hed, <- Hlen, <- (ch_length rv cs), <- (Forall2_length _ _ _ Hf). by eapply lookup_lt_Some. }
        exists dz. split; [done|]. destruct (HP _ _ Hdz) as (d' & Hdi' & Hiff). rewrite Hdi in Hdi'. injection Hdi' as <-.
        apply Hiff. by exists l.
Qed.
End conv.

Lemma fden_some {T} (o : T → option T) d x t : fden o d x t ↔ ∃ l, fden Some d x l ∧ o l = Some t.
Proof.
  split.
  - induction 1 as [l x t Ho Hx|hd cs x c t Hc _ (l & Hl & Ho)]; [exists l; split; [by constructor|done]|].
    exists l. split; [by econstructor|done].
  - intros (l & Hl & Ho). induction Hl as [l x l' [= ->] Hx|hd cs x c l Hc _ IH]; [by constructor|].
    econstructor; [done|]. by apply IH.
Qed.
