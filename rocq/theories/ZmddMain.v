(** From the internal invariants of the ZMDD manager to the statements about reachable managers. *)
From Verif Require Import Prelude ComputeCache ComputeCacheProofs Arena Trees ArenaProofs Bdd ArenaMore Mdd MtMdd Zmdd.
From Verif Require Import SpecBdd SpecMdd SpecZmdd NaryProofs MddProofs MtProofs MmProofs MddMain ZmddTrees ZmddProofs.

Lemma zmem_zden a d id x z : repr a d id → zmember a id x z ↔ zden d x z.
Proof.
  intros Hr. split.
  - intros Hm. revert d Hr. induction Hm as [id z x Hn Hx|id h cs hd c x z Hn Hh Hc _ IH]; intros d Hr.
    + destruct d as [t|hd ds].
      * apply repr_leaf in Hr as [_ Hn']. rewrite Hn in Hn'. injection Hn' as <-. by constructor.
      * apply repr_br in Hr as [_ (h & cs & Hn' & _)]. congruence.
    + destruct d as [t|hd' ds].
      * apply repr_leaf in Hr as [_ Hn']. congruence.
      * apply repr_br in Hr as [_ (h' & cs' & Hn' & Hh' & Hf)].
        rewrite Hn in Hn'. injection Hn' as <- <-. rewrite Hh in Hh'. injection Hh' as <-.
        destruct (Forall2_lookup_r _ _ _ _ _ Hf Hc) as (d & Hd & Hrd).
        apply zden_br. exists d. split; [done|]. by apply IH.
  - intros Hd. revert id Hr. induction Hd as [z x Hx|hd ds x d z Hd _ IH]; intros id Hr.
    + apply repr_leaf in Hr as [_ Hn]. by constructor.
    + apply repr_br in Hr as [_ (h & cs & Hn & Hh & Hf)].
      destruct (Forall2_lookup_l _ _ _ _ _ Hf Hd) as (c & Hc & Hrc).
      eapply zm_node; try done. by apply IH.
Qed.
Lemma zmem_fun a id x z z' : zmember a id x z → zmember a id x z' → z = z'.
Proof.
  intros H. revert z'. induction H as [id z x Hn Hx|id h cs hd c x z Hn Hh Hc _ IH]; intros z' H'.
  - destruct H' as [? ? ? Hn'|]; congruence.
  - destruct H' as [? ? ? Hn'|? h' cs' hd' c' ? ? Hn' Hh' Hc' Hv']; [congruence|].
    rewrite Hn in Hn'. injection Hn' as <- <-. rewrite Hh in Hh'. injection Hh' as <-.
    rewrite Hc in Hc'. injection Hc' as <-. by apply IH.
Qed.
Lemma zmem_mono a a' id x z R : ext a a' → awf R a → node_valid a id → zmember a id x z ↔ zmember a' id x z.
Proof.
  intros He Hw Hv. destruct (nvalid_repr _ _ _ Hw Hv) as [d Hd].
  rewrite (zmem_zden a d id x z Hd), (zmem_zden a' d id x z); [done|]. by eapply repr_mono.
Qed.

Lemma zm_bin_l' (o : zop) m f g : zmwf m → node_valid (t_ar m) f → node_valid (t_ar m) g →
  ∃ m' r, (match o with ZInter => zm_intersect | ZDiff => zm_setdiff end) m f g = Some (m', r) ∧ zmstep m m' ∧
    node_valid (t_ar m') r ∧
    ∀ x z, zmember (t_ar m') r x z ↔ zsem o (zmember (t_ar m) f x z) (zmember (t_ar m) g x z).
Proof.
  intros Hw Vf Vg. pose proof (zmg_wf _ _ (zmw_good _ Hw)) as Hwf.
  destruct (nvalid_repr _ _ _ Hwf Vf) as [df Hf]. destruct (nvalid_repr _ _ _ Hwf Vg) as [dg Hg].
  pose proof (a_fuel_enough _ _ _ Hf). pose proof (a_fuel_enough _ _ _ Hg).
  assert (Hres : zmres o m df dg ((match o with ZInter => zm_intersect | ZDiff => zm_setdiff end) m f g)).
  { destruct o; [apply zm_intersect_spec|apply zm_setdiff_spec]; try done; lia. }
  destruct Hres as (m' & r & dr & Heq & Hst & Hr & Hk & Hp). exists m', r. sp; try done; [by eapply repr_live|].
  intros x z. rewrite (zmem_zden _ _ _ x z Hr), (zmem_zden _ _ _ x z Hf), (zmem_zden _ _ _ x z Hg). apply Hp.
Qed.
Lemma zm_base_l' m f v : zmwf m → node_valid (t_ar m) f →
  ∃ m' r, zm_set_baseline m f v = Some (m', r) ∧ zmstep m m' ∧ node_valid (t_ar m') r ∧
    ∀ x z, zmember (t_ar m') r x z ↔
      zmember (t_ar m) f x z ∨ ((∀ l, x l = 0) ∧ z = v ∧ ∀ z', ¬ zmember (t_ar m) f (λ _, 0) z').
Proof.
  intros Hw Vf. pose proof (zmg_wf _ _ (zmw_good _ Hw)) as Hwf. destruct (nvalid_repr _ _ _ Hwf Vf) as [df Hf].
  pose proof (a_fuel_enough _ _ _ Hf).
  destruct (zm_set_baseline_spec v (ar_fuel (t_ar m)) m f df) as (m' & r & dr & Heq & Hst & Hr & Hk & Hp); try done.
  exists m', r. sp; try done; [by eapply repr_live|]. intros x z. rewrite (zmem_zden _ _ _ x z Hr), (zmem_zden _ _ _ x z Hf).
  rewrite (Hp x z). split; (intros [?|(? & ? & Hn)]; [by left|right]); sp; try done; intros z' Hz; apply (Hn z');
    by apply (zmem_zden _ _ _ _ z' Hf).
Qed.
Lemma zm_node_l' m h cs : zmwf m → node_fits (t_ar m) h cs →
  ∃ hd m' r, ar_headers (t_ar m) !! h = Some hd ∧ zm_create_node m h cs = Some (m', r) ∧ zmstep m m' ∧
    node_valid (t_ar m') r ∧
    ∀ x z, zmember (t_ar m') r x z ↔
      ∃ c, cs !! x (h_level hd) = Some c ∧ zmember (t_ar m) c (with_comp x (h_level hd) 0) z.
Proof.
  intros Hw Hf. destruct (fits_header _ _ _ Hf) as [hd Hh].
  destruct (fits_kids _ _ _ _ _ (zmg_wf _ _ (zmw_good _ Hw)) Hh Hf) as [Hlen Hk].
  destruct (zmcreate_node m h hd cs _ Hw Hh Hlen Hk) as (m' & r & dr & ds & Heq & Hst & Hr & _ & Hmk & Hds & Hok & HPP).
  exists hd, m', r. sp; try done; [by eapply repr_live|]. intros x z.
  rewrite (zmem_zden _ _ _ x z Hr), (mkz_den _ _ _ _ x z Hmk Hok). split.
  - intros (d & Hd & Hm). destruct (HPP _ _ Hd) as (c & Hc & Hrc). exists c. split; [done|].
    by apply (zmem_zden _ _ _ _ z Hrc).
  - intros (c & Hc & Hm). destruct (lookup_lt_is_Some_2 ds (x (h_level hd))) as [d Hd].
    { rewrite Hds, <- Hlen. by eapply lookup_lt_Some. }
    exists d. split; [done|]. destruct (HPP _ _ Hd) as (c' & Hc' & Hrc). rewrite Hc in Hc'. injection Hc' as <-.
    by apply (zmem_zden _ _ _ _ z Hrc) in Hm.
Qed.

Lemma zm_exec_ok m c : zmwf m → zm_legal m c →
  ∃ m' r, zm_exec m c = Some (m', r) ∧ zmwf m' ∧ ((∀ roots, c ≠ ZGc roots) → ext (t_ar m) (t_ar m')).
Proof.
  intros Hw. destruct c as [l s e|z|h cs|f g|f g|f z|roots|]; cbn [zm_exec zm_legal]; intros Hl.
  - destruct (zm_create_header m l s e) as [m' h] eqn:Hh. exists m', h.
    apply zm_create_header_ok in Hh as (? & ? & _); try done.
    apply hcons_app; [apply (zmw_good _ Hw)|by apply hfits_new].
  - destruct (zm_value_ok m z Hw) as (m1 & r1 & -> & (? & ? & _) & _). by exists m1, r1.
  - destruct (zm_node_l' m h cs Hw Hl) as (hd & m1 & r1 & _ & Hn & (? & ? & _) & _). by exists m1, r1.
  - destruct Hl as [Vf Vg]. destruct (zm_bin_l' ZInter m f g Hw Vf Vg) as (m1 & r & Heq & (? & ? & _) & _). by exists m1, r.
  - destruct Hl as [Vf Vg]. destruct (zm_bin_l' ZDiff m f g Hw Vf Vg) as (m1 & r & Heq & (? & ? & _) & _). by exists m1, r.
  - destruct (zm_base_l' m f z Hw Hl) as (m1 & r & Heq & (? & ? & _) & _). by exists m1, r.
  - destruct (zm_gc_ok m roots Hw) as (m1 & n & Hn & Hw' & _).
    { intros x Hx. rewrite Forall_forall in Hl. by apply Hl. }
    exists m1, n. sp; try done. intros Hn'. by destruct (Hn' roots).
  - eexists _, _. split; [done|]. split; [by apply zm_clear_cache_ok|]. intros _. apply ext_refl.
Qed.
Lemma zm_run_ok m cs m' : zmwf m → zm_run m cs = Some m' → zmwf m'.
Proof.
  revert m. induction cs as [|c cs IH]; intros m Hw; cbn [zm_run]; [by intros [= <-]|].
  destruct (decide (zm_legal m c)) as [Hl|]; [|done].
  destruct (zm_exec_ok m c Hw Hl) as (m1 & r & -> & Hw1 & _). cbn [mbind option_bind]. by apply IH.
Qed.
Lemma zm_reachable_wf m : zm_reachable m → zmwf m.
Proof. intros [cs Hcs]. eapply zm_run_ok; [apply zm_new_ok|done]. Qed.
Lemma zm_run_app m cs c m1 m2 r : zm_run m cs = Some m1 → zm_legal m1 c → zm_exec m1 c = Some (m2, r) →
  zm_run m (cs ++ [c]) = Some m2.
Proof.
  revert m. induction cs as [|c' cs IH]; intros m; cbn [app zm_run].
  - intros [= ->] Hl He. rewrite decide_True by done. by rewrite He.
  - destruct (decide (zm_legal m c')); [|done]. destruct (zm_exec m c') as [[m' x]|]; [|done].
    cbn [mbind option_bind]. apply IH.
Qed.
Lemma zm_reachable_step m c m' r : zm_reachable m → zm_legal m c → zm_exec m c = Some (m', r) → zm_reachable m'.
Proof. intros [cs Hcs] Hl He. exists (cs ++ [c]). by eapply zm_run_app. Qed.

Lemma zm_inter_l m f g : zm_reachable m → node_valid (t_ar m) f → node_valid (t_ar m) g →
  ∃ m' r, zm_intersect m f g = Some (m', r) ∧ node_valid (t_ar m') r ∧
    ∀ x z, zmember (t_ar m') r x z ↔ zmember (t_ar m) f x z ∧ zmember (t_ar m) g x z.
Proof.
  intros Hre Vf Vg. destruct (zm_bin_l' ZInter m f g (zm_reachable_wf _ Hre) Vf Vg) as (m' & r & ? & _ & ? & ?). by exists m', r.
Qed.
Lemma zm_diff_l m f g : zm_reachable m → node_valid (t_ar m) f → node_valid (t_ar m) g →
  ∃ m' r, zm_setdiff m f g = Some (m', r) ∧ node_valid (t_ar m') r ∧
    ∀ x z, zmember (t_ar m') r x z ↔ zmember (t_ar m) f x z ∧ ¬ zmember (t_ar m) g x z.
Proof.
  intros Hre Vf Vg. destruct (zm_bin_l' ZDiff m f g (zm_reachable_wf _ Hre) Vf Vg) as (m' & r & ? & _ & ? & ?). by exists m', r.
Qed.
Lemma zm_base_l m f v : zm_reachable m → node_valid (t_ar m) f →
  ∃ m' r, zm_set_baseline m f v = Some (m', r) ∧ node_valid (t_ar m') r ∧
    ∀ x z, zmember (t_ar m') r x z ↔
      zmember (t_ar m) f x z ∨ ((∀ l, x l = 0) ∧ z = v ∧ ∀ z', ¬ zmember (t_ar m) f (λ _, 0) z').
Proof.
  intros Hre Vf. destruct (zm_base_l' m f v (zm_reachable_wf _ Hre) Vf) as (m' & r & ? & _ & ? & ?). by exists m', r.
Qed.
Lemma zm_node_l m h cs : zm_reachable m → node_fits (t_ar m) h cs →
  ∃ hd m' r, ar_headers (t_ar m) !! h = Some hd ∧ zm_create_node m h cs = Some (m', r) ∧ node_valid (t_ar m') r ∧
    ∀ x z, zmember (t_ar m') r x z ↔
      ∃ c, cs !! x (h_level hd) = Some c ∧ zmember (t_ar m) c (with_comp x (h_level hd) 0) z.
Proof.
  intros Hre Hf. destruct (zm_node_l' m h cs (zm_reachable_wf _ Hre) Hf) as (hd & m' & r & ? & ? & _ & ? & ?). by exists hd, m', r.
Qed.
Lemma zm_canon_l m f g : zm_reachable m → levels_distinct (t_ar m) → node_valid (t_ar m) f → node_valid (t_ar m) g →
  f = g ↔ (∀ x z, zmember (t_ar m) f x z ↔ zmember (t_ar m) g x z).
Proof.
  intros Hre Hd Vf Vg. pose proof (zm_reachable_wf _ Hre) as Hw. split; [by intros ->|]. intros Heq.
  pose proof (zmg_wf _ _ (zmw_good _ Hw)) as Hwf.
  destruct (nvalid_repr _ _ _ Hwf Vf) as [df Hf]. destruct (nvalid_repr _ _ _ Hwf Vg) as [dg Hg].
  assert (df = dg) as <-; [|by eapply repr_inj]. destruct (a_hdby _ Hd) as [H HH].
  eapply (zcanon (Eof (ar_headers (t_ar m)) (λ _, 0)) H); eauto using zm_red, zm_ok.
  intros x z. rewrite <- (zmem_zden _ _ _ x z Hf), <- (zmem_zden _ _ _ x z Hg). apply Heq.
Qed.
Lemma zm_frame_l m c : zm_reachable m → zm_legal m c → (∀ roots, c ≠ ZGc roots) →
  ∃ m' r, zm_exec m c = Some (m', r) ∧
    ∀ id, node_valid (t_ar m) id → node_valid (t_ar m') id ∧
      ∀ x z, zmember (t_ar m) id x z ↔ zmember (t_ar m') id x z.
Proof.
  intros Hre Hl Hng. pose proof (zm_reachable_wf _ Hre) as Hw.
  destruct (zm_exec_ok m c Hw Hl) as (m' & r & Heq & Hw' & He). specialize (He Hng).
  exists m', r. split; [done|]. intros id Hv. split; [by eapply ext_live|].
  intros x z. eapply zmem_mono; [exact He|apply (zmw_good _ Hw)|done].
Qed.
Lemma zm_gc_l m roots : zm_reachable m → Forall (node_valid (t_ar m)) roots →
  ∃ m' n, zm_gc m roots = Some (m', n) ∧
    (∀ id, node_valid (t_ar m') id ↔ id = zm_undet ∨ node_reaches (t_ar m) roots id) ∧
    (∀ id x z, node_valid (t_ar m') id → zmember (t_ar m') id x z ↔ zmember (t_ar m) id x z) ∧
    (∀ l, NoDup l → (∀ id, id ∈ l ↔ node_valid (t_ar m') id) →
       zm_live_node_count m' = length l ∧ n + length l = length (ar_nodes (t_ar m))).
Proof.
  intros Hre Hroots. pose proof (zm_reachable_wf _ Hre) as Hw. rewrite Forall_forall in Hroots.
  destruct (zm_gc_ok m roots Hw) as (m' & n & Heq & Hw' & Hhd & Hns & Hl & Hsub & Hn).
  { intros r Hr. by apply Hroots. }
  exists m', n. split; [done|]. sp.
  - intros id. rewrite nreaches_reach, <- elem_of_list_singleton. apply Hl.
  - intros id x z Hv. pose proof (zmg_wf _ _ (zmw_good _ Hw')) as Hwf'. destruct (nvalid_repr _ _ _ Hwf' Hv) as [d Hd].
    rewrite (zmem_zden _ _ _ x z Hd), (zmem_zden (t_ar m) d id x z); [done|]. by eapply repr_gc_inv.
  - intros l Hnd Hin. unfold zm_live_node_count, mt_live_node_count, ar_live_count. rewrite <- Hns.
    pose proof (a_free_count Rz (t_ar m') l (zmg_wf _ _ (zmw_good _ Hw')) Hnd Hin). lia.
Qed.
