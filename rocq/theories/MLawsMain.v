(** The laws of probability for handles of an MddMgr. *)
From Coq Require Import ZArith Ring_theory Ring.
From stdpp Require Import strings.
From Verif Require Import Prelude ComputeCache Arena Trees ArenaProofs Bdd Mdd MtMdd MtMdd2 BssMgr MssMgr MssAlg SpecBss SpecMdd SpecMss SpecZmddAlg SpecMssAlg
  MssMgrProofs MssMgrVar MssRpn MssExtract MssAlgMain SpecMssLook MssLookProofs SpecLaws SpecMLaws Laws MLaws.

Global Set Default Goal Selector "!".

Lemma held_magree I w H x F e e' : mdd_held I w H → (x, Some F) ∈ H → states (declared w) e → states (declared w) e' →
  same_on (declared w) e e' → F e = F e'.
Proof.
  intros Hm Hx Hs Hs' He. pose proof (held_gok I w H Hm) as Hk. pose proof (held_look I w H x F Hk Hx) as Hh.
  assert (Ha : nagree (g_mm w) (rho_of (g_mm w) e) e').
  { intros hd Hin. rewrite (rho_agree (g_mm w) e (gk_lvl _ _ _ Hk) hd Hin). apply He. unfold declared. rewrite <- list_fmap_compose.
    apply elem_of_list_fmap. by exists hd. }
  destruct x as [f|f]; pose proof Hh as (_ & _ & _ & d & Hd & _);
    by apply (gen_ev w _ _ f F Hh d _ _ _ _ Hd Hs (rho_agree (g_mm w) e (gk_lvl _ _ _ Hk)) Hs' Ha).
Qed.
Lemma held_mnames I w H : mdd_held I w H → NoDup (declared w).*1.
Proof.
  intros Hm. pose proof (gk_nodup _ _ _ (held_gok I w H Hm)) as Hn. unfold declared. by rewrite <- list_fmap_compose.
Qed.

(** ** vectors of states *)
Definition vof (names : list string) (v : list nat) : menv := λ s, default 0 ((list_to_map (zip names v) : gmap string nat) !! s).
Lemma vof_at names v i s j : NoDup names → names !! i = Some s → v !! i = Some j → vof names v s = j.
Proof.
  intros Hn Hi Hj. unfold vof. rewrite (elem_of_list_to_map_1 _ s j); [done| |].
  - clear -Hn. revert v. induction Hn as [|s l Hs Hn IH]; intros v; [constructor|]. destruct v as [|k v]; [constructor|]. cbn. constructor; [|apply IH].
    intros ([s' k'] & [= ->] & Hin)%elem_of_list_fmap. apply Hs. by eapply elem_of_zip_l.
  - eapply elem_of_list_lookup_2. apply lookup_zip_with_Some. by exists s, j.
Qed.
Definition chosenb (ss : list Z) (v : mval) : bool := match score v with Some z => bool_decide (z ∈ ss) | None => false end.
Lemma chosenb_iff ss v : chosenb ss v = true ↔ chosen ss v.
Proof.
  unfold chosenb, chosen. destruct (score v) as [z|]; [|naive_solver]. rewrite bool_decide_eq_true. naive_solver.
Qed.

Section vecs.
Context (vars : list (string * nat)) (Hnd : NoDup vars.*1).
Local Notation vo := (vof vars.*1).
Lemma vo_at v i s n : within vars.*2 v → vars !! i = Some (s, n) → ∃ j, v !! i = Some j ∧ vo v s = j ∧ j < n.
Proof.
  intros Hv Hi. destruct (Forall2_lookup_r _ _ _ i n Hv) as (j & Hj & Hlt); [by rewrite list_lookup_fmap, Hi|].
  exists j. split; [done|]. split; [|done]. apply (vof_at _ _ i); [done| |done]. by rewrite list_lookup_fmap, Hi.
Qed.
Lemma vo_states v : within vars.*2 v → states vars (vo v).
Proof. intros Hv s n [i Hi]%elem_of_list_lookup. by destruct (vo_at v i s n Hv Hi) as (j & _ & -> & Hj). Qed.
Lemma vo_le u v : within vars.*2 u → within vars.*2 v → Forall2 Nat.le u v → below_on vars (vo u) (vo v).
Proof.
  intros Hu Hv Huv s ([s' n] & -> & [i Hi]%elem_of_list_lookup)%elem_of_list_fmap. cbn [fst].
  destruct (vo_at u i s' n Hu Hi) as (j & Hj & -> & _). destruct (vo_at v i s' n Hv Hi) as (k & Hk & -> & _).
  by apply (list.Forall2_lookup_lr _ _ _ _ _ _ Huv Hj Hk).
Qed.
Definition vec_of (e : menv) : list nat := e <$> vars.*1.
Lemma vec_of_within e : states vars e → within vars.*2 (vec_of e).
Proof. intros He. unfold within, vec_of. apply Forall2_fmap, Forall2_fmap_l, Forall_Forall2_diag, Forall_forall. intros [s n] Hin. by apply He. Qed.
Lemma vo_vec_of e : same_on vars (vo (vec_of e)) e.
Proof.
  intros s [i Hi]%elem_of_list_lookup. apply (vof_at _ _ i); [done|done|]. unfold vec_of. by rewrite list_lookup_fmap, Hi.
Qed.
Lemma dense_same e e' : same_on vars e e' → dense vars e = dense vars e'.
Proof. intros He. unfold dense. f_equal. apply list_fmap_ext. intros i v Hv. rewrite He; [done|]. apply elem_of_list_fmap. exists v. split; [done|]. by eapply elem_of_list_lookup_2. Qed.
Lemma dense_vo_lookup v i s n : within vars.*2 v → vars !! i = Some (s, n) → dense vars (vo v) !! s = v !! i.
Proof.
  intros Hv Hi. destruct (vo_at v i s n Hv Hi) as (j & -> & Ej & _). unfold dense. apply elem_of_list_to_map_1.
  - rewrite <- list_fmap_compose. erewrite list_fmap_ext; [exact Hnd|]. done.
  - apply elem_of_list_fmap. exists (s, n). split; [cbn; by rewrite Ej|]. by eapply elem_of_list_lookup_2.
Qed.
Lemma dense_vo_inj u v : within vars.*2 u → within vars.*2 v → dense vars (vo u) = dense vars (vo v) → u = v.
Proof.
  intros Hu Hv E. apply list_eq. intros i. destruct (vars !! i) as [[s n]|] eqn:Hi.
  - by rewrite <- (dense_vo_lookup u i s n Hu Hi), <- (dense_vo_lookup v i s n Hv Hi), E.
  - apply lookup_ge_None in Hi. rewrite !lookup_ge_None_2; [done|..].
    + apply Forall2_length in Hv. rewrite fmap_length in Hv. lia.
    + apply Forall2_length in Hu. rewrite fmap_length in Hu. lia.
Qed.

Section ring.
Context {R : Type} (rO rI : R) (radd rmul rsub : R → R → R) (ropp : R → R).
Context (Rth : ring_theory rO rI radd rmul rsub ropp eq).
Definition rows (t : gmap string (list R)) : list (list R) := (λ s, default [] (t !! s)) <$> vars.*1.
Lemma rows_at t i s n : table_for vars t → vars !! i = Some (s, n) → ∃ ps, t !! s = Some ps ∧ length ps = n ∧ rows t !! i = Some ps.
Proof.
  intros Ht Hi. destruct (Ht s n) as (ps & Hps & Hl); [by eapply elem_of_list_lookup_2|]. exists ps. split; [done|]. split; [done|].
  unfold rows. by rewrite !list_lookup_fmap, Hi; cbn; rewrite Hps.
Qed.
Lemma rows_length t : table_for vars t → length <$> rows t = vars.*2.
Proof.
  intros Ht. unfold rows. rewrite <- !list_fmap_compose. apply list_fmap_ext. intros i [s n] Hi. cbn.
  destruct (Ht s n) as (ps & -> & Hl); [by eapply elem_of_list_lookup_2|done].
Qed.
Lemma rows_forall t (Q : list R → Prop) : table_for vars t → (∀ s n ps, (s, n) ∈ vars → t !! s = Some ps → Q ps) → Forall Q (rows t).
Proof.
  intros Ht HQ. apply Forall_forall. intros ps (s & -> & ([s' n] & -> & Hin)%elem_of_list_fmap)%elem_of_list_fmap. cbn [fst].
  destruct (Ht s' n Hin) as (ps & Hps & _). rewrite Hps. by eapply HQ.
Qed.
Lemma mweight_vw t v : within vars.*2 v → mweight rO rI rmul t vars (dense vars (vo v)) = vw rO rI rmul (rows t) v.
Proof.
  intros Hv. unfold mweight.
  assert (Hl : ∀ i s, vars.*1 !! i = Some s → dense vars (vo v) !! s = v !! i).
  { intros i s Hi. rewrite list_lookup_fmap in Hi. apply fmap_Some in Hi as ([s' n] & Hi & ->). by eapply dense_vo_lookup. }
  assert (Hlen : length v = length vars.*1) by (apply Forall2_length in Hv; by rewrite !fmap_length in *).
  revert Hl Hlen. generalize (dense vars (vo v)). intros M. unfold rows. clear. generalize vars.*1. intros l. revert v. induction l as [|s l IH]; intros v Hl Hlen; [by destruct v|].
  destruct v as [|i v]; [done|]. rewrite !fmap_cons. cbn [foldr vw]. f_equal.
  - unfold state_weight. rewrite (Hl 0 s eq_refl). cbn. by destruct (t !! s).
  - apply IH; [|by injection Hlen]. intros k s' Hk. exact (Hl (S k) s' Hk).
Qed.
End ring.
End vecs.

Section laws.
Context {R : Type} (rO rI : R) (radd rmul rsub : R → R → R) (ropp : R → R).
Context (Rth : ring_theory rO rI radd rmul rsub ropp eq).
Add Ring mlm_ring : Rth.
Context (I : vint) (w : mmgr) (H : handles) (Hm : mdd_held I w H).
Local Notation vars := (declared w).
Local Notation mex := (mex rO rI radd rmul).
Local Notation prob x t ss := (g_prob rO rI radd rmul w x t ss).
Local Notation distr := (distribution rO rI radd vars).
Local Notation E F ss := (λ v, chosenb ss (F (vof vars.*1 v))).

Lemma m_ex x F t ss : (x, Some F) ∈ H → distr t → prob x t ss = Some (mex (rows vars t) (E F ss)).
Proof.
  intros Hx [Ht H1]. pose proof (held_mnames I w H Hm) as Hnd.
  destruct (held_prob I w H x F ss Hm Hx rO rI radd rmul rsub ropp Rth t Ht H1) as [_ Hp].
  set (L := filter (λ v, E F ss v = true) (nvecs (length <$> rows vars t))).
  rewrite (Hp ((λ v, dense vars (vof vars.*1 v)) <$> L)).
  - f_equal. rewrite <- (sum_mex _ _ _ _ _ _ Rth). f_equal. rewrite <- list_fmap_compose. apply list_fmap_ext. intros i v Hv.
    apply (mweight_vw vars Hnd). apply elem_of_list_lookup_2, elem_of_list_filter in Hv as [_ Hv%nvecs_elem]. by rewrite rows_length in Hv.
  - split.
    + apply NoDup_fmap_2_strong; [|apply NoDup_filter, nvecs_nodup]. intros u v [_ Hu%nvecs_elem]%elem_of_list_filter [_ Hv%nvecs_elem]%elem_of_list_filter.
      rewrite rows_length in Hu, Hv by done. by apply dense_vo_inj.
    + intros M. rewrite elem_of_list_fmap. split.
      * intros (v & -> & [Hc Hv%nvecs_elem]%elem_of_list_filter). rewrite rows_length in Hv by done. exists (vof vars.*1 v).
        split; [by apply vo_states|]. split; [by apply chosenb_iff|done].
      * intros (e & He & Hc & ->). exists (vec_of vars e). pose proof (vo_vec_of vars Hnd e) as Hs. pose proof (vec_of_within vars e He) as Hw.
        split; [apply dense_same; intros s Hin; symmetry; by apply Hs|]. apply elem_of_list_filter. split.
        { apply chosenb_iff. rewrite (held_magree I w H x F _ e Hm Hx); [done|by apply vo_states|done|done]. }
        apply nvecs_elem. by rewrite rows_length.
Qed.
Lemma d_table t : distr t → table_for vars t.
Proof. by intros []. Qed.
Lemma d_rows t : distr t → Forall (λ ps, ring_sum rO radd ps = rI) (rows vars t).
Proof. intros [Ht H1]. apply rows_forall; [done|]. exact H1. Qed.
Lemma e_ext F ss G ss' v : within vars.*2 v → (∀ e, states vars e → chosen ss (F e) ↔ chosen ss' (G e)) → E F ss v = E G ss' v.
Proof.
  intros Hv He. apply eq_bool_prop_intro. pose proof (He _ (vo_states vars (held_mnames I w H Hm) v Hv)) as Hi.
  rewrite !Is_true_true, !chosenb_iff. done.
Qed.

Lemma mlaw_not t x F ss y G ss' : (x, Some F) ∈ H → (y, Some G) ∈ H → distr t →
  (∀ e, states vars e → chosen ss' (G e) ↔ ¬ chosen ss (F e)) →
  ∃ p q, prob x t ss = Some p ∧ prob y t ss' = Some q ∧ radd p q = rI.
Proof.
  intros Hx Hy Hd He. eexists _, _. split; [by eapply m_ex|]. split; [by eapply m_ex|].
  etrans; [|exact (mex_neg _ _ _ _ _ _ Rth (rows vars t) (E F ss) (d_rows t Hd))]. f_equal. apply mex_ext. intros v Hv. rewrite rows_length in Hv by apply Hd.
  pose proof (He _ (vo_states vars (held_mnames I w H Hm) v Hv)) as Hi. rewrite <- !chosenb_iff in Hi.
  destruct (chosenb ss' _), (chosenb ss _); cbn; naive_solver.
Qed.
Lemma mlaw_incl t x F s1 y G s2 a A s3 o O s4 : (x, Some F) ∈ H → (y, Some G) ∈ H → (a, Some A) ∈ H → (o, Some O) ∈ H → distr t →
  (∀ e, states vars e → chosen s3 (A e) ↔ chosen s1 (F e) ∧ chosen s2 (G e)) →
  (∀ e, states vars e → chosen s4 (O e) ↔ chosen s1 (F e) ∨ chosen s2 (G e)) →
  ∃ px py pa po, prob x t s1 = Some px ∧ prob y t s2 = Some py ∧ prob a t s3 = Some pa ∧ prob o t s4 = Some po ∧ radd pa po = radd px py.
Proof.
  intros Hx Hy Ha Ho Hd HA HO. eexists _, _, _, _. do 4 (split; [by eapply m_ex|]).
  etrans; [|exact (mex_incl _ _ _ _ _ _ Rth (rows vars t) (E F s1) (E G s2))].
  rewrite (mex_ext rO rI radd rmul (rows vars t) (E A s3) (λ v, E F s1 v && E G s2 v)),
    (mex_ext rO rI radd rmul (rows vars t) (E O s4) (λ v, E F s1 v || E G s2 v)); [done|..]; intros v Hv; rewrite rows_length in Hv by apply Hd.
  - pose proof (HO _ (vo_states vars (held_mnames I w H Hm) v Hv)) as Hi. rewrite <- !chosenb_iff in Hi.
    destruct (chosenb s4 _), (chosenb s1 _), (chosenb s2 _); cbn; naive_solver.
  - pose proof (HA _ (vo_states vars (held_mnames I w H Hm) v Hv)) as Hi. rewrite <- !chosenb_iff in Hi.
    destruct (chosenb s3 _), (chosenb s1 _), (chosenb s2 _); cbn; naive_solver.
Qed.
Lemma mlaw_all t x F ss : (x, Some F) ∈ H → distr t → (∀ e, states vars e → chosen ss (F e)) → prob x t ss = Some rI.
Proof.
  intros Hx Hd He. rewrite (m_ex x F t ss Hx Hd). f_equal. etrans; [|exact (mex_true _ _ _ _ _ _ Rth (rows vars t) (d_rows t Hd))]. apply mex_ext.
  intros v Hv. rewrite rows_length in Hv by apply Hd. apply chosenb_iff, He. by apply vo_states; [eapply held_mnames|].
Qed.

Lemma rows_insert (t : gmap string (list R)) i s n r : table_for vars t → vars !! i = Some (s, n) → rows vars (<[s := r]> t) = <[i := r]> (rows vars t).
Proof.
  intros Ht Hi. pose proof (held_mnames I w H Hm) as Hnd. apply list_eq. intros j. destruct (decide (i = j)) as [<-|Hne].
  - rewrite list_lookup_insert by (unfold rows; rewrite !fmap_length; by eapply lookup_lt_Some). unfold rows.
    rewrite !list_lookup_fmap, Hi. cbn. by rewrite lookup_insert.
  - rewrite list_lookup_insert_ne by done. unfold rows. rewrite !list_lookup_fmap. destruct (vars !! j) as [[s' n']|] eqn:Hj; [|done]. cbn.
    rewrite lookup_insert_ne; [done|]. intros <-. apply Hne. eapply (NoDup_lookup vars.*1); [done|..]; rewrite list_lookup_fmap; [by rewrite Hi|by rewrite Hj].
Qed.
Lemma cert_certain n j : cert rO rI n j = certain rO rI n j.
Proof. done. Qed.
Lemma d_insert (t : gmap string (list R)) s n r : distr t → (s, n) ∈ vars → length r = n → ring_sum rO radd r = rI → distr (<[s := r]> t).
Proof.
  intros [Ht H1] Hs Hr Hr1. pose proof (held_mnames I w H Hm) as Hnd. split.
  - intros s' n' Hs'. destruct (decide (s' = s)) as [->|Hne]; [|rewrite lookup_insert_ne by done; by apply Ht]. rewrite lookup_insert. exists r. split; [done|].
    rewrite Hr. apply elem_of_list_lookup in Hs as [i Hi], Hs' as [j Hj]. assert (i = j) as <-.
    { eapply (NoDup_lookup vars.*1); [done|..]; rewrite list_lookup_fmap; [by rewrite Hi|by rewrite Hj]. }
    congruence.
  - intros s' n' ps Hs'. destruct (decide (s' = s)) as [->|Hne]; [rewrite lookup_insert; by intros [= <-]|rewrite lookup_insert_ne by done; by eapply H1].
Qed.
Lemma certain_one n j : j < n → ring_sum rO radd (certain rO rI n j) = rI.
Proof.
  intros Hj. rewrite <- cert_certain. transitivity (dot rO radd rmul (cert rO rI n j) (λ _, rI)).
  - rewrite (dot_const _ _ _ _ _ _ Rth). ring.
  - by rewrite (dot_cert _ _ _ _ _ _ Rth).
Qed.
Lemma certain_len n j : length (certain rO rI n j) = n.
Proof. unfold certain. by rewrite fmap_length, seq_length. Qed.

Lemma dot_zip ps : ∀ a, dot rO radd rmul ps a = ring_sum rO radd (zip_with rmul ps (a <$> seq 0 (length ps))).
Proof.
  induction ps as [|p ps IH]; intros a; [done|]. cbn [dot length seq]. rewrite fmap_cons. cbn [zip_with]. rewrite rsum_cons, IH, <- fmap_S_seq, <- list_fmap_compose. done.
Qed.
Lemma mlaw_pivot t x F ss s n ps : (x, Some F) ∈ H → distr t → (s, n) ∈ vars → t !! s = Some ps →
  ∃ p qs, prob x t ss = Some p ∧ length qs = n ∧ (∀ j q, qs !! j = Some q → prob x (<[s := certain rO rI n j]> t) ss = Some q) ∧
    p = ring_sum rO radd (zip_with rmul ps qs).
Proof.
  intros Hx Hd Hs Hps. pose proof Hs as [i Hi]%elem_of_list_lookup. destruct (rows_at vars t i s n (d_table t Hd) Hi) as (ps' & Hps' & Hl & Hr).
  rewrite Hps in Hps'. injection Hps' as <-.
  set (qs := (λ j, mex (<[i := certain rO rI n j]> (rows vars t)) (E F ss)) <$> seq 0 n).
  exists (mex (rows vars t) (E F ss)), qs. split; [by eapply m_ex|]. split; [unfold qs; by rewrite fmap_length, seq_length|]. split.
  - intros j q Hq. unfold qs in Hq. rewrite list_lookup_fmap in Hq. apply fmap_Some in Hq as (k & [-> Hk]%lookup_seq & ->). cbn.
    rewrite (m_ex x F _ ss Hx (d_insert t s n _ Hd Hs (certain_len n j) (certain_one n j Hk))). by rewrite (rows_insert t i s n _ (d_table t Hd) Hi).
  - rewrite (mex_pivot _ _ _ _ _ _ Rth (rows vars t) i ps _ Hr), dot_zip. unfold qs. by rewrite Hl.
Qed.

Lemma mlaw_same t x F ss s n r : (x, Some F) ∈ H → distr t → (s, n) ∈ vars → length r = n → ring_sum rO radd r = rI → ¬ mneeds vars F s →
  prob x (<[s := r]> t) ss = prob x t ss.
Proof.
  intros Hx Hd Hs Hr Hr1 Hn. pose proof Hs as [i Hi]%elem_of_list_lookup. destruct (rows_at vars t i s n (d_table t Hd) Hi) as (ps & Hps & Hl & Hrow).
  pose proof (held_mnames I w H Hm) as Hnd.
  rewrite (m_ex x F _ ss Hx (d_insert t s n r Hd Hs Hr Hr1)), (m_ex x F t ss Hx Hd). f_equal. rewrite (rows_insert t i s n r (d_table t Hd) Hi).
  apply (mex_same _ _ _ _ _ _ Rth _ i ps r _ Hrow); [congruence|rewrite Hr1; by eapply (proj2 Hd)|].
  intros v j Hv Hj. rewrite rows_length in Hv by apply Hd. rewrite Hl in Hj. f_equal.
  assert (Hv' : within vars.*2 (<[i := j]> v)).
  { unfold within in *. apply Forall2_same_length_lookup_2; [rewrite insert_length; by eapply Forall2_length|]. intros k a b Ha Hb.
    destruct (decide (i = k)) as [<-|Hne].
    - rewrite list_lookup_insert in Ha; [|apply Forall2_length in Hv; rewrite Hv, fmap_length; by eapply lookup_lt_Some]. injection Ha as <-.
      rewrite list_lookup_fmap, Hi in Hb. by injection Hb as <-.
    - rewrite list_lookup_insert_ne in Ha by done. by apply (list.Forall2_lookup_lr _ _ _ _ _ _ Hv Ha Hb). }
  assert (Hset : ∀ u, within vars.*2 u → same_on vars (menv_set (vof vars.*1 v) s (vof vars.*1 u s)) (vof vars.*1 u) → states vars (menv_set (vof vars.*1 v) s (vof vars.*1 u s))).
  { intros u Hu Hsame s' n' Hin. rewrite (Hsame s'); [by apply (vo_states vars Hnd u Hu)|]. apply elem_of_list_fmap. by exists (s', n'). }
  assert (S1 : same_on vars (menv_set (vof vars.*1 v) s (vof vars.*1 v s)) (vof vars.*1 v)) by (intros s' _; unfold menv_set; case_decide; by subst).
  assert (S2 : same_on vars (menv_set (vof vars.*1 v) s (vof vars.*1 (<[i := j]> v) s)) (vof vars.*1 (<[i := j]> v))).
  { intros s' ([s'' n'] & -> & [k Hk]%elem_of_list_lookup)%elem_of_list_fmap. unfold menv_set. cbn [fst]. case_decide as E; [by subst|].
    destruct (vo_at vars Hnd v k s'' n' Hv Hk) as (a & Ha & -> & _). destruct (vo_at vars Hnd (<[i := j]> v) k s'' n' Hv' Hk) as (b & Hb & -> & _).
    rewrite list_lookup_insert_ne in Hb by (intros ->; congruence). congruence. }
  rewrite <- (held_magree I w H x F _ _ Hm Hx (Hset _ Hv' S2) (vo_states vars Hnd _ Hv') S2).
  rewrite <- (held_magree I w H x F _ _ Hm Hx (Hset _ Hv S1) (vo_states vars Hnd _ Hv) S1).
  assert (HF : ∀ a b : mval, {a = b} + {a ≠ b}) by (repeat decide equality).
  destruct (HF (F (menv_set (vof vars.*1 v) s (vof vars.*1 (<[i:=j]> v) s))) (F (menv_set (vof vars.*1 v) s (vof vars.*1 v s)))) as [|Hne]; [done|].
  destruct Hn. eexists _, _, _. split; [exact (Hset _ Hv' S2)|]. split; [exact (Hset _ Hv S1)|done].
Qed.

(** ** inequalities *)
Context (le : R → R → Prop) (Hle : ordered rO rI radd rmul le).
Local Notation prop := (proper rO rI radd le vars).
Lemma p_rows t : prop t → Forall (λ ps, Forall (le rO) ps) (rows vars t).
Proof. intros [Hd Hp]. apply rows_forall; [apply Hd|exact Hp]. Qed.
Lemma mlaw_range t x F ss : (x, Some F) ∈ H → prop t → ∃ p, prob x t ss = Some p ∧ le rO p ∧ le p rI.
Proof.
  intros Hx Ht. eexists. split; [eapply m_ex; [done|apply Ht]|]. apply (mex_01 _ _ _ _ _ _ Rth le Hle); [by apply p_rows|apply d_rows, Ht].
Qed.
Lemma mlaw_mono t x F ss y G ss' : (x, Some F) ∈ H → (y, Some G) ∈ H → prop t → (∀ e, states vars e → chosen ss (F e) → chosen ss' (G e)) →
  ∃ p q, prob x t ss = Some p ∧ prob y t ss' = Some q ∧ le p q.
Proof.
  intros Hx Hy Ht He. eexists _, _. split; [eapply m_ex; [done|apply Ht]|]. split; [eapply m_ex; [done|apply Ht]|].
  apply (mex_mono _ _ _ _ _ _ Rth le Hle); [by apply p_rows|]. intros v Hv. rewrite rows_length in Hv by apply Ht. rewrite !chosenb_iff. apply He.
  apply vo_states; [by eapply held_mnames|done].
Qed.
Lemma mlaw_table t t' x F ss : (x, Some F) ∈ H → rising vars F ss → prop t → prop t' → better rO radd le vars t t' →
  ∃ p q, prob x t ss = Some p ∧ prob x t' ss = Some q ∧ le p q.
Proof.
  intros Hx Hr Ht Ht' Hb. pose proof (held_mnames I w H Hm) as Hnd.
  eexists _, _. split; [eapply m_ex; [done|apply Ht]|]. split; [eapply m_ex; [done|apply Ht']|].
  apply (mex_table _ _ _ _ _ _ Rth le Hle); [|by apply p_rows|by apply p_rows|apply d_rows, Ht|apply d_rows, Ht'|].
  - rewrite rows_length by apply Ht. intros u v Hu Hv Huv. rewrite !chosenb_iff. apply Hr; [by apply vo_states|by apply vo_states|by apply vo_le].
  - unfold rows. apply Forall2_fmap, Forall_Forall2_diag, Forall_forall. intros s ([s' n] & -> & Hin)%elem_of_list_fmap. cbn [fst].
    destruct (proj1 (proj1 Ht) s' n Hin) as (ps & Hps & Hl). destruct (proj1 (proj1 Ht') s' n Hin) as (qs & Hqs & Hl'). rewrite Hps, Hqs. cbn.
    split; [congruence|]. intros k. by eapply Hb.
Qed.
Lemma prop_insert t s n j : prop t → (s, n) ∈ vars → j < n → prop (<[s := certain rO rI n j]> t).
Proof.
  intros [Hd Hp] Hs Hj. split; [apply (d_insert t s n); [done|done|apply certain_len|by apply certain_one]|].
  intros s' n' ps Hs'. destruct (decide (s' = s)) as [->|Hne]; [rewrite lookup_insert; intros [= <-]|rewrite lookup_insert_ne by done; by eapply Hp].
  unfold certain. apply Forall_forall. intros p (i & -> & _)%elem_of_list_fmap. case_decide; [apply (ord_one _ _ _ _ _ Hle)|apply (ord_refl _ _ _ _ _ Hle)].
Qed.
Lemma drop_certain n : ∀ a j k, ring_sum rO radd (drop k ((λ i, if decide (i = j) then rI else rO) <$> seq a n)) = if decide (a + k ≤ j < a + n) then rI else rO.
Proof.
  induction n as [|n IH]; intros a j k; cbn [seq].
  - rewrite decide_False by lia. by destruct k.
  - rewrite fmap_cons. destruct k as [|k].
    + rewrite drop_0, rsum_cons. specialize (IH (S a) j 0). rewrite drop_0 in IH. rewrite IH. repeat case_decide; try lia; ring.
    + cbn [drop]. rewrite IH. repeat case_decide; try lia; done.
Qed.
Lemma mlaw_meas t x F ss : (x, Some F) ∈ H → rising vars F ss → prop t →
  ∃ g, g_bmeas rO rI radd rmul rsub w x t ss = Some g ∧ ∀ s n slot k v, g !! s = Some slot → (s, n) ∈ vars → slot !! k = Some v → le rO v ∧ le v rI.
Proof.
  intros Hx Hr Ht. destruct (held_meas I w H x F ss Hm Hx rO rI radd rmul rsub ropp Rth t (proj1 (proj1 Ht))) as (g & Eg & _ & Hg).
  exists g. split; [done|]. intros s n slot k v Hslot Hs Hk. destruct (Hg s n slot Hslot Hs) as [Hlen Hat].
  assert (Hkn : S k < n) by (apply lookup_lt_Some in Hk; lia). destruct (Hat k Hkn) as (p & p' & Ep & Ep' & Hv). rewrite Hk in Hv. injection Hv as ->.
  pose proof (prop_insert t s n k Ht Hs ltac:(lia)) as T1. pose proof (prop_insert t s n (S k) Ht Hs Hkn) as T2.
  destruct (mlaw_table _ _ x F ss Hx Hr T1 T2) as (q & q' & Eq & Eq' & Hq).
  { intros s' n' ps qs m Hs'. destruct (decide (s' = s)) as [->|Hne].
    - rewrite !lookup_insert. intros [= <-] [= <-]. unfold certain. rewrite !drop_certain. repeat case_decide; try lia;
        first [apply (ord_refl _ _ _ _ _ Hle)|apply (ord_one _ _ _ _ _ Hle)].
    - rewrite !lookup_insert_ne by done. intros -> [= ->]. apply (ord_refl _ _ _ _ _ Hle). }
  destruct (mlaw_range _ x F ss Hx T1) as (q0 & Eq0 & L0 & _). destruct (mlaw_range _ x F ss Hx T2) as (q1 & Eq1 & _ & L1).
  assert (q = p) as -> by congruence. assert (q0 = p) as -> by congruence. assert (q' = p') as -> by congruence. assert (q1 = p') as -> by congruence.
  split; [exact (proj1 (le_diff _ _ _ _ _ _ Rth le Hle p p') Hq)|].
  apply (ord_trans _ _ _ _ _ Hle _ p'); [|done]. apply (proj2 (le_diff _ _ _ _ _ _ Rth le Hle (rsub p' p) p')). by replace (rsub p' (rsub p' p)) with p by ring.
Qed.
End laws.
