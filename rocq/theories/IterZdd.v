(** ZddPath in progress while the manager is used, and the joint manager with both kinds of iterators. *)
From stdpp Require Import strings.
From Verif Require Import Prelude ComputeCache ComputeCacheProofs Arena Trees ArenaProofs ArenaMore Keeps Bdd BddProofs SpecBdd SpecBss BddMain
  BssAlg BssMgr SpecBssMgr BssMgrProofs BssMgrMain Zdd ZddTrees ZddProofs SpecZdd ZddMain ZddAlg ZddConv ZddMgr SpecZddMgr
  ZddMgrProofs BssJoint ZddMgrMain Iter SpecIter IterProofs IterBss.

Notation zhalted := (λ p : zpath, match zp_stack p with [] => true | _ :: _ => false end).
Lemma zcollect_drain k a ss p : zpath_collect k a ss p = drain zhalted (zpath_step a ss) k p.
Proof.
  revert p. induction k as [|k IH]; intros p; cbn [zpath_collect drain]; destruct (zp_stack p) eqn:Hp; try done.
  destruct (zpath_step a ss p) as [[p' o]|]; [|done]. cbn [mbind option_bind]. by rewrite IH.
Qed.

Definition zwithin (a0 : arena tv) (f : nat) (p : zpath) : Prop := ∀ id, ZSNode id ∈ zp_stack p → reach a0 [f] id.
Lemma zwithin_step a0 f ss p p' o : zwithin a0 f p → zpath_step a0 ss p = Some (p', o) → zwithin a0 f p'.
Proof.
  intros Hi. unfold zpath_step. destruct (zp_stack p) as [|x st] eqn:Hp; [done|].
  assert (Hst : ∀ id, ZSNode id ∈ st → reach a0 [f] id) by (intros id H; eapply Hi; rewrite Hp; by right).
  destruct x as [id|x|].
  2,3: by intros [= <- <-].
  assert (Hid : reach a0 [f] id) by (eapply Hi; rewrite Hp; by left).
  destruct (ar_nodes a0 !! id) as [nd|] eqn:Hn; [|done]. cbn [mbind option_bind].
  destruct nd as [[| |]|h cs]; [by intros [= <- _]..|].
  destruct (ar_headers a0 !! h) as [hd|]; [|done]. cbn [mbind option_bind].
  unfold edges2. destruct cs as [|lo [|hi [|]]]; try done. cbn [mbind option_bind]. intros [= <- <-] i0. cbn [zp_stack].
  rewrite !elem_of_cons. intros [H|[?|[H|[?|H]]]]; simplify_eq; try (by apply Hst);
    (eapply reach_step; [exact Hid|exact Hn|]); [by left|right; by left].
Qed.
Lemma zstep_kept a0 a f ss p : awf Rz a0 → live a0 f → keeps a0 [f] a → zwithin a0 f p →
  zpath_step a ss p = zpath_step a0 ss p.
Proof.
  intros Hw Hf Hk Hi. unfold zpath_step. destruct (zp_stack p) as [|x st] eqn:Hp; [done|]. destruct x as [id|x|]; [|done..].
  assert (Hid : reach a0 [f] id) by (eapply Hi; rewrite Hp; by left).
  rewrite (proj2 (proj2 Hk _ Hid)). destruct (ar_nodes a0 !! id) as [[t|h cs]|] eqn:Hn; [done| |done]. cbn [mbind option_bind].
  destruct (aw_nt _ _ Hw id h cs) as (hd & Hh & _); [|done|].
  - eapply reach_live; [exact Hw| |exact Hid]. by intros r ->%elem_of_list_singleton.
  - by rewrite Hh, (prefix_lookup _ _ _ _ Hh (proj1 Hk)).
Qed.

Lemma stands_keeps m m' f F : keeps (z_ar m) [f] (z_ar m') → zwf m → stands_for m f F → stands_for m' f F.
Proof.
  intros Hk Hw (Vf & Hu & Hf).
  assert (Hf0 : reach (z_ar m) [f] f) by (constructor; by left).
  assert (Hlv : ∀ id, reach (z_ar m) [f] id → live (z_ar m) id).
  { intros id Hid. eapply reach_live; [apply (zg_wf _ (zw_good _ Hw))| |exact Hid]. by intros r ->%elem_of_list_singleton. }
  assert (Hdn : ∀ t id S, named_has m t id S → reach (z_ar m) [f] id → named_has m' t id S).
  { intros t id S H. induction H as [id Hn|id h lo hi S Hn H IH|id h lo hi hd S Hn Hh H IH]; intros Hid.
    - constructor. by rewrite (proj2 (proj2 Hk _ Hid)).
    - eapply nh_low; [by rewrite (proj2 (proj2 Hk _ Hid))|]. apply IH. eapply reach_step; [exact Hid|exact Hn|by left].
    - eapply nh_high; [by rewrite (proj2 (proj2 Hk _ Hid))|by eapply prefix_lookup; [|apply Hk]|].
      apply IH. eapply reach_step; [exact Hid|exact Hn|right; by left]. }
  assert (Hup : ∀ t id S, named_has m' t id S → reach (z_ar m) [f] id → named_has m t id S).
  { intros t id S H. induction H as [id Hn|id h lo hi S Hn H IH|id h lo hi hd S Hn Hh H IH]; intros Hid;
      rewrite (proj2 (proj2 Hk _ Hid)) in Hn.
    - by constructor.
    - eapply nh_low; [done|]. apply IH. eapply reach_step; [exact Hid|exact Hn|by left].
    - destruct (aw_nt _ _ (zg_wf _ (zw_good _ Hw)) _ _ _ (Hlv _ Hid) Hn) as (hd' & Hh' & _).
      rewrite (prefix_lookup _ _ _ _ Hh' (proj1 Hk)) in Hh. injection Hh as ->.
      eapply nh_high; [done|done|]. apply IH. eapply reach_step; [exact Hid|exact Hn|right; by left]. }
  split; [by apply Hk|]. split.
  - intros S H. apply (Hu S). by apply Hup.
  - intros S. rewrite <- Hf. split; intros H; [by apply Hup|by apply Hdn].
Qed.

(** ** one iterator *)
Definition members (L : list (list string)) (F : fam) : Prop :=
  Forall NoDup L ∧ NoDup (list_to_set <$> L : list (gset string)) ∧ ∀ S, S ∈ (list_to_set <$> L : list (gset string)) ↔ F S.
Record ziok (m0 : zdd) (r : zrun) : Prop := {
  zik_wf : zwf m0;
  zik_live : live (z_ar m0) (zi_node (zr_it r));
  zik_within : zwithin (z_ar m0) (zi_node (zr_it r)) (zi_p (zr_it r));
  zik_list : ∀ F, zr_fam r = Some F → zi_ss (zr_it r) = [true] → stands_for m0 (zi_node (zr_it r)) F ∧
    ∃ L k0, members L F ∧ zr_out r `prefix_of` L ∧
    drain zhalted (zpath_step (z_ar m0) (zi_ss (zr_it r))) k0 (zi_p (zr_it r)) = Some (drop (length (zr_out r)) L);
}.
Definition zpins_of (snaps : list zdd) (its : list zrun) : base :=
  Base [] (zip (z_ar <$> snaps) ((λ r, zi_node (zr_it r)) <$> its)).
Definition ziters (w : zmgr) (H : zholds) (its : list zrun) : Prop :=
  ∃ snaps, @zok (zpins_of snaps its) w H ∧ Forall2 ziok snaps its.

Lemma zok_own hs ps f F w H : @zok (Base hs ps) w H → (f, F) ∈ H → @zok (Base hs ((z_ar (y_zdd w), f) :: ps)) (y_clone w f) H.
Proof.
  intros Hk Hf. pose proof (zk_wf _ _ Hk) as Hw. destruct (zk_facts _ _ _ _ Hk Hf) as [Vf _]. destruct Hk as [H1 H2 [l [Hr Hp]] H4 H5 H6].
  constructor; cbn [y_clone y_pin y_zdd y_roots bs_pins bs_hd]; try done.
  - exists (f :: l). split; [by rewrite Hr|]. rewrite Hp. cbn. by rewrite Permutation_middle.
  - split; [apply H6|]. intros a0 g [Hg|Hg]%elem_of_cons; [|by apply H6]. injection Hg as -> ->.
    eapply keeps_refl; [apply (zg_wf _ (zw_good _ Hw))|]. by intros r ->%elem_of_list_singleton.
Qed.
Lemma zok_disown hs ps1 a0 f ps2 w H : @zok (Base hs (ps1 ++ (a0, f) :: ps2)) w H → @zok (Base hs (ps1 ++ ps2)) (y_drop w f) H.
Proof.
  intros [H1 H2 [l [Hr Hp]] H4 H5 H6]. constructor; cbn [y_drop y_zdd y_roots bs_pins bs_hd]; try done.
  - exists (H.*1 ++ (ps1 ++ ps2).*2). split; [|done].
    rewrite Hr, (roots_perm l (f :: H.*1 ++ (ps1 ++ ps2).*2)); [apply unpin_pin|].
    rewrite Hp. cbn [bs_pins]. rewrite !fmap_app. cbn. rewrite !app_assoc. by rewrite Permutation_middle.
  - split; [apply H6|]. intros a1 g Hg. apply H6. cbn. apply elem_of_app in Hg as [Hg|Hg]; apply elem_of_app; [by left|right; by right].
Qed.

Lemma ziters_start w H its f F ss w' it : ziters w H its → (f, F) ∈ H → ziter_start w f ss = (w', it) →
  ziters w' H (ZRun it F [] :: its).
Proof.
  intros (sn & Hk & Hf) HfH [= <- <-]. pose proof (zk_wf _ _ Hk) as Hw. destruct (zk_facts _ _ _ _ Hk HfH) as [Vf HF].
  exists (y_zdd w :: sn). split.
  - unfold zpins_of. cbn [fmap list_fmap zip zip_with zr_it zi_node]. by eapply zok_own.
  - constructor; [|done]. constructor; cbn [zr_it zr_fam zr_out zi_node zi_p zi_ss]; try done.
    + intros id. cbn. rewrite elem_of_list_singleton. intros [= ->]. constructor. by left.
    + intros F' HF' ->. pose proof (HF _ HF') as Hs. split; [done|].
      destruct (zok_extract w H f F' Hk Hs) as (L & k0 & He & H1 & H2 & H3). exists L, k0. split; [done|]. split; [apply prefix_nil|].
      rewrite <- zcollect_drain. by apply He.
Qed.
Lemma zpins_lookup snaps its i m0 r : snaps !! i = Some m0 → its !! i = Some r →
  (z_ar m0, zi_node (zr_it r)) ∈ bs_pins (zpins_of snaps its).
Proof.
  intros Ha Hr. cbn. apply elem_of_list_lookup. exists i. apply lookup_zip_with_Some.
  exists (z_ar m0), (zi_node (zr_it r)). split; [done|]. by rewrite !list_lookup_fmap, Ha, Hr.
Qed.
Lemma ziters_next w H its i r k it' o : ziters w H its → its !! i = Some r → ziter_next k w (zr_it r) = Some (it', o) →
  ziters w H (<[i := ZRun it' (zr_fam r) (yield (zr_out r) o)]> its).
Proof.
  intros (sn & Hk & Hf) Hi Hn. destruct (Forall2_lookup_r _ _ _ _ _ Hf Hi) as (m0 & Ha & Hb).
  assert (Hkp : keeps (z_ar m0) [zi_node (zr_it r)] (z_ar (y_zdd w))) by (eapply (zk_base _ _ Hk); by eapply zpins_lookup).
  assert (zi_node it' = zi_node (zr_it r) ∧ ziok m0 (ZRun it' (zr_fam r) (yield (zr_out r) o))) as [Hid Hb'].
  { destruct Hb as [Hw Hl Hin HL]. unfold ziter_next in Hn.
    rewrite (next_agree zhalted _ (zpath_step (z_ar m0) (zi_ss (zr_it r))) (zwithin (z_ar m0) (zi_node (zr_it r)))) in Hn.
    - destruct (iter_next _ _ k _) as [[p o']|] eqn:Hx; [|done]. cbn [mbind option_bind] in Hn. injection Hn as <- <-. split; [done|].
      constructor; cbn [zr_it zr_fam zr_out zi_node zi_p zi_ss]; try done.
      + eapply next_keeps; [|exact Hin|exact Hx]. intros s s' x. apply zwithin_step.
      + intros F HF Hss. destruct (HL F HF Hss) as [Hs (L & k0 & HM & Hpre & Hd)]. split; [done|].
        rewrite <- (list_fmap_id L) in Hd, Hpre.
        destruct (next_split zhalted id _ _ _ _ _ _ _ _ Hd Hpre Hx) as (_ & Hpre' & k1 & Hd'). rewrite list_fmap_id in Hd', Hpre'. by exists L, k1.
    - intros s Hs _. eapply zstep_kept; [apply (zg_wf _ (zw_good _ Hw))|done..].
    - intros s s' x. apply zwithin_step.
    - done. }
  exists sn. split.
  - replace (zpins_of sn (<[i:=ZRun it' (zr_fam r) (yield (zr_out r) o)]> its)) with (zpins_of sn its); [done|].
    unfold zpins_of. do 2 f_equal. rewrite list_fmap_insert. cbn [zr_it]. rewrite list_insert_id; [done|].
    rewrite list_lookup_fmap, Hi. cbn. by rewrite Hid.
  - rewrite <- (list_insert_id sn i m0) by done. by apply Forall2_insert.
Qed.
Lemma ziters_stop w H its1 r its2 : ziters w H (its1 ++ r :: its2) → ziters (ziter_drop w (zr_it r)) H (its1 ++ its2).
Proof.
  intros (sn & Hk & Hf). apply Forall2_app_inv_r in Hf as (s1 & s' & Hf1 & Hf2 & ->). apply Forall2_cons_inv_r in Hf2 as (a0 & s2 & Hb & Hf2 & ->).
  exists (s1 ++ s2). split; [|by apply Forall2_app].
  unfold ziter_drop, zpins_of in *. rewrite !fmap_app in Hk |- *. rewrite zip_with_app in Hk |- *
    by (rewrite !fmap_length; by eapply Forall2_length). cbn in Hk. by eapply zok_disown.
Qed.
Lemma ziters_exact w H its r F : ziters w H its → r ∈ its → zr_fam r = Some F → zi_ss (zr_it r) = [true] →
  ∃ L, Forall NoDup L ∧ NoDup (list_to_set <$> L : list (gset string)) ∧
    (∀ S, S ∈ (list_to_set <$> L : list (gset string)) ↔ F S) ∧
    zr_out r `prefix_of` L ∧
    (∃ k0, ∀ k, k0 ≤ k → ∃ it', ziter_next k w (zr_it r) = Some (it', L !! length (zr_out r))) ∧
    ziter_len w (zr_it r) = Some (N.of_nat (length L)).
Proof.
  intros (sn & Hk & Hf) [i Hi]%elem_of_list_lookup HF Hss.
  destruct (Forall2_lookup_r _ _ _ _ _ Hf Hi) as (m0 & Ha & [Hw Hl Hin HL]).
  assert (Hkp : keeps (z_ar m0) [zi_node (zr_it r)] (z_ar (y_zdd w))) by (eapply (zk_base _ _ Hk); by eapply zpins_lookup).
  destruct (HL F HF Hss) as [Hs (L & k0 & (H1 & H2 & H3) & Hpre & Hd)]. exists L. sp; [done|done|done|done| |].
  - exists k0. intros k Hkk. unfold ziter_next.
    rewrite (next_agree zhalted _ (zpath_step (z_ar m0) (zi_ss (zr_it r))) (zwithin (z_ar m0) (zi_node (zr_it r)))).
    + destruct (next_drain _ _ _ _ _ Hd) as (s' & Hn & _).
      pose proof (next_mono zhalted _ k0 k _ _ Hkk Hn) as Hn'.
      rewrite <- (list_fmap_id L) in Hd, Hpre.
      destruct (next_split zhalted id _ _ _ _ _ _ _ _ Hd Hpre Hn) as (Ho & _). rewrite Hn'. cbn [mbind option_bind]. rewrite Ho, list_fmap_id. by eexists.
    + intros s Hs' _. eapply zstep_kept; [apply (zg_wf _ (zw_good _ Hw))|done..].
    + intros s s' x. apply zwithin_step.
    + done.
  - unfold ziter_len. rewrite Hss, <- (fmap_length (list_to_set : list string → gset string)).
    eapply zok_count; [exact Hk| |exact H2|exact H3]. by eapply stands_keeps.
Qed.

Lemma ziter_ok w H its : zdd_iter w H its → ziters w H its ∧ zsolo w.
Proof.
  induction 1 as [|w H its w' H' _ [(sn & Hk & Hf) Hs] Hst|w H its x w' r _ [(sn & Hk & Hf) Hs] E|w H its sets w' r _ [(sn & Hk & Hf) Hs] E
    |w H its f F ss w' it _ [IH Hs] HfH He|w H its i r k it' o _ [IH Hs] Hi Hn|w H its1 r its2 _ [IH Hs]].
  - split; [exists []; split; [apply znew_zok|constructor]|apply znew_zok].
  - destruct (y_step_ok _ _ _ _ Hk Hst) as (Hk' & Hhd & Hv). split; [by exists sn|]. by eapply zsolo_same.
  - destruct (y_singleton_ok w H x Hk Hs) as (w1 & r1 & E1 & Hk' & Hs'). rewrite E1 in E. injection E as <- <-. split; [by exists sn|done].
  - destruct (y_from_sets_ok w H sets Hk Hs) as (w1 & r1 & E1 & Hk' & Hs'). rewrite E1 in E. injection E as <- <-. split; [by exists sn|done].
  - split; [by eapply ziters_start|]. injection He as <- _. by apply (zsolo_same w).
  - split; [by eapply ziters_next|done].
  - split; [by apply ziters_stop|]. by apply (zsolo_same w).
Qed.

(** ** the joint manager *)
Definition jiters (s : bssmgr) HB HZ IB IZ : Prop :=
  biters (s_bdd s) HB IB ∧ ziters (s_zdd s) HZ IZ ∧ ∀ hd, hd ∈ zhd (y_zdd (s_zdd s)) → named (w_bdd (s_bdd s)) hd.
Lemma jiter_ok s HB HZ IB IZ : bssm_iter s HB HZ IB IZ → jiters s HB HZ IB IZ.
Proof.
  induction 1 as [|s HB HZ IB IZ w' HB' _ IH Hs|s HB HZ IB IZ y' HZ' _ IH Hs|s HB HZ IB IZ f F s' r _ IH Hf E|s HB HZ IB IZ f F s' r _ IH Hf E|s HB HZ IB IZ _ IH
    |s HB HZ IB IZ f F ss w' it _ (Hb & Hz & Hn) Hf E|s HB HZ IB IZ i r k it' o _ (Hb & Hz & Hn) Hi E|s HB HZ IB1 r IB2 IZ _ (Hb & Hz & Hn)
    |s HB HZ IB IZ f F ss y' it _ (Hb & Hz & Hn) Hf E|s HB HZ IB IZ i r k it' o _ (Hb & Hz & Hn) Hi E|s HB HZ IB IZ1 r IZ2 _ (Hb & Hz & Hn)].
  2-6: destruct IH as ((sb & Hwb & Fb) & (sz & Hwz & Fz) & Hn);
       assert (Hj : @jok (pins_of sb IB) (zpins_of sz IZ) s HB HZ) by done.
  - split; [exists []; split; [apply new_wok|constructor]|]. split; [exists []; split; [apply znew_zok|constructor]|].
    intros hd H. by apply elem_of_nil in H.
  - destruct (jok_bdd _ _ _ _ _ Hj Hs) as (A & C & D). split; [by exists sb|]. split; [by exists sz|done].
  - destruct (jok_zdd _ _ _ _ _ Hj Hs) as (A & C & D). split; [by exists sb|]. split; [by exists sz|done].
  - destruct (s_minpath_ok s HB HZ f F Hj Hf) as (s1 & r1 & E1 & _ & (A & C & D)). rewrite E1 in E. injection E as <- <-.
    split; [by exists sb|]. split; [by exists sz|done].
  - destruct (s_mincut_ok s HB HZ f F Hj Hf) as (s1 & r1 & E1 & _ & (A & C & D)). rewrite E1 in E. injection E as <- <-.
    split; [by exists sb|]. split; [by exists sz|done].
  - pose proof (jok_bdd _ _ _ _ _ Hj (st_clear _ _)) as H1. destruct (jok_zdd _ _ _ _ _ H1 (ys_clear _ _)) as (A & C & D).
    split; [by exists sb|]. split; [by exists sz|done].
  - assert (w' = w_clone (s_bdd s) f) as ->.
    { unfold biter_start in E. destruct (path_labels _); [|done]. cbn [mbind option_bind] in E.
      destruct (bpath_new _ f); [|done]. cbn [mbind option_bind] in E. by injection E as <- _. }
    split; [by eapply biters_start|]. done.
  - split; [by eapply biters_next|]. done.
  - split; [by apply biters_stop|]. done.
  - split; [done|]. split; [by eapply ziters_start|]. injection E as <- _. done.
  - split; [done|]. split; [by eapply ziters_next|]. done.
  - split; [done|]. split; [by apply ziters_stop|]. done.
Qed.
Lemma ziter_handles w H its f F : zdd_iter w H its → (f, Some F) ∈ H → stands_for (y_zdd w) f F.
Proof. intros [(sn & Hk & _) _]%ziter_ok. by apply (zk_held _ _ Hk). Qed.
