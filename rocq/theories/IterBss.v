(** BddPath in progress while the manager is used. *)
From stdpp Require Import strings.
From Verif Require Import Prelude ComputeCache ComputeCacheProofs Arena Trees ArenaProofs Keeps Bdd BddProofs SpecBdd SpecBss BddMain
  BssAlg BssCount BssGates BssMgr SpecBssMgr BssMgrProofs BssMgrMain Iter SpecIter IterProofs.

Notation bhalted := (λ p : bpath, match p_stack p with [] => true | _ :: _ => false end).
Lemma collect_drain k a labels ss p : bpath_collect k a labels ss p = drain bhalted (bpath_step a labels ss) k p.
Proof.
  revert p. induction k as [|k IH]; intros p; cbn [bpath_collect drain]; destruct (p_stack p) eqn:Hp; try done.
  destruct (bpath_step a labels ss p) as [[p' o]|]; [|done]. cbn [mbind option_bind]. by rewrite IH.
Qed.

(** ** on the diagram of the start, whatever the arena is now *)
Definition within (a0 : arena tv) (f : nat) (p : bpath) : Prop := ∀ l id, PNode l id ∈ p_stack p → reach a0 [f] id.
Lemma within_step a0 f labels ss p p' o : within a0 f p → bpath_step a0 labels ss p = Some (p', o) → within a0 f p'.
Proof.
  intros Hi. unfold bpath_step. destruct (p_stack p) as [|x st] eqn:Hp; [done|].
  assert (Hst : ∀ l id, PNode l id ∈ st → reach a0 [f] id) by (intros l id H; eapply Hi; rewrite Hp; by right).
  destruct x as [level id|x|].
  2,3: by intros [= <- <-].
  assert (Hid : reach a0 [f] id) by (eapply Hi; rewrite Hp; by left).
  destruct (ar_node_level a0 id) as [cur|]; [|done]. cbn [mbind option_bind].
  destruct (ar_nodes a0 !! id) as [nd|] eqn:Hn; [|done]. cbn [mbind option_bind].
  assert (Hfork : ∀ lo hi, reach a0 [f] lo → reach a0 [f] hi →
    (st' ← path_fork labels level lo hi st; Some (BPath st' (p_path p), None)) = Some (p', o) → within a0 f p').
  { intros lo hi Hlo Hhi. unfold path_fork. destruct level as [l|]; [|done]. cbn [mbind option_bind].
    destruct (labels !! l) as [x|]; [|done]. cbn [mbind option_bind]. intros [= <- <-] l0 i0. cbn [p_stack].
    rewrite !elem_of_cons. intros [?|[H|[?|[?|[H|[?|H]]]]]]; simplify_eq; try done. by eapply Hst. }
  assert (Hemit : ∀ b, Some (BPath st (p_path p), if in_ss ss b then Some (p_path p) else None) = Some (p', o) → within a0 f p').
  { intros b [= <- _]. done. }
  destruct nd as [[| |]|h cs].
  - destruct (decide _); [apply Hemit|by apply Hfork].
  - destruct (decide _); [apply Hemit|by apply Hfork].
  - by intros [= <- <-].
  - destruct (decide _); [|by apply Hfork]. unfold edges2. destruct cs as [|lo [|hi [|]]]; try done. cbn [mbind option_bind].
    apply Hfork; (eapply reach_step; [exact Hid|exact Hn|]); [by left|right; by left].
Qed.
Lemma step_kept a0 a f labels ss p : awf Rb a0 → live a0 f → keeps a0 [f] a → within a0 f p →
  bpath_step a labels ss p = bpath_step a0 labels ss p.
Proof.
  intros Hw Hf Hk Hi. unfold bpath_step. destruct (p_stack p) as [|x st] eqn:Hp; [done|]. destruct x as [level id|x|]; [|done..].
  assert (Hid : reach a0 [f] id) by (eapply Hi; rewrite Hp; by left).
  rewrite (keeps_level Rb a0 [f] a id Hw); [|by intros r ->%elem_of_list_singleton|done|done].
  by rewrite (proj2 (proj2 Hk _ Hid)).
Qed.

(** ** one iterator *)
Definition depth (a : arena tv) (f : nat) : nat := match ar_node_level a f with Some (Some l) => l + 1 | _ => 0 end.
Definition lists (names : list string) (n : nat) (F : nfun) (ss : list bool) (L : list (list bool)) : Prop :=
  NoDup L ∧ (∀ v, v ∈ L → length v = n) ∧ ∀ e, F e ∈ ss ↔ ∃ v, v ∈ L ∧ agrees names v e.

Record biok (a0 : arena tv) (r : brun) : Prop := {
  bk_wf : awf Rb a0;
  bk_live : live a0 (bi_node (br_it r));
  bk_within : within a0 (bi_node (br_it r)) (bi_p (br_it r));
  bk_list : ∃ L k0, lists (h_label <$> ar_headers a0) (depth a0 (bi_node (br_it r))) (br_fun r) (bi_ss (br_it r)) L ∧
    (∀ v, v ∈ L → length v ≤ length (ar_headers a0)) ∧
    br_out r `prefix_of` (render (h_label <$> ar_headers a0) <$> L) ∧
    drain bhalted (bpath_step a0 (bi_labels (br_it r)) (bi_ss (br_it r))) k0 (bi_p (br_it r)) =
      Some (drop (length (br_out r)) (render (h_label <$> ar_headers a0) <$> L)) ∧
    ∀ m, bwf m → keeps a0 [bi_node (br_it r)] (b_ar m) →
      bdd_count m (bi_ss (br_it r)) (bi_node (br_it r)) = Some (N.of_nat (length L));
}.

Lemma wok_order {B} w H : @wok B w H → bdd_order (w_bdd w) (w_names w).
Proof.
  intros Hk. unfold bdd_order, w_names. rewrite fmap_length. sp; [done| |].
  - by eapply levels_distinct.
  - intros h hd Hh. rewrite (wk_lvl _ _ Hk _ _ Hh), list_lookup_fmap, Hh. done.
Qed.
Lemma agrees_rho (a : bdd) v e l : (∀ i hd, ar_headers (b_ar a) !! i = Some hd → h_level hd = i) →
  agrees (h_label <$> ar_headers (b_ar a)) v e → l < length v → vrho v l = rho_of a e l.
Proof.
  intros Hl Ha Hlt. destruct (lookup_lt_is_Some_2 _ _ Hlt) as [b Hb]. destruct (Ha _ _ Hb) as (x & Hx & <-).
  unfold vrho, rho_of, lab. rewrite (nth_lookup_Some _ _ _ _ Hb). rewrite list_lookup_fmap in Hx. by rewrite Hx.
Qed.
Lemma depth_rank m d f : good (b_ar m) → repr (b_ar m) d f → depth (b_ar m) f = rank d.
Proof. intros Hg Hd. unfold depth. rewrite (node_level_eq _ _ _ Hg Hd). destruct d; cbn; lia. Qed.

(** the vectors of [extract_l], by name *)
Lemma sols_by_name {B} w H f F ss S : @wok B w H → denotes (w_bdd w) f F → NoDup S →
  (∀ v, v ∈ S ↔ length v = depth (b_ar (w_bdd w)) f ∧ ∃ b, b ∈ ss ∧ bdd_value (w_bdd w) (vrho v) f (tvb b)) →
  lists (w_names w) (depth (b_ar (w_bdd w)) f) F ss S.
Proof.
  intros Hk [Vf Hd] Hnd HS. pose proof (wk_wf _ _ Hk) as Hw. pose proof (bw_good _ Hw) as Hg.
  destruct (valid_repr _ _ Hw Vf) as [d Hr]. rewrite (depth_rank _ _ _ Hg Hr) in HS |- *.
  assert (Hlen : rank d ≤ length (ar_headers (b_ar (w_bdd w)))).
  { destruct d as [|hd ds]; [cbn; lia|]. apply repr_br in Hr as [_ (h & cs & _ & Hh & _)]. pose proof (wk_lvl _ _ Hk _ _ Hh) as Hl.
    apply lookup_lt_Some in Hh. cbn. lia. }
  assert (Hval : ∀ v e b, length v = rank d → agrees (w_names w) v e → bdd_value (w_bdd w) (vrho v) f (tvb b) ↔ F e = b).
  { intros v e b Hv Ha. rewrite (value_ev _ _ _ _ _ Hg Hr).
    rewrite (ev_agree _ (asg (rho_of (w_bdd w) e)) d).
    - rewrite <- (value_ev _ _ _ _ _ Hg Hr), <- value_name by apply Hk. specialize (Hd e). split.
      + intros Hb. pose proof (sv_fun _ _ _ _ _ Hd Hb) as Hx. by destruct (F e), b.
      + by intros <-.
    - by eapply good_ok.
    - intros l Hl. unfold asg. by rewrite (agrees_rho (w_bdd w) v e l (wk_lvl _ _ Hk) Ha ltac:(lia)). }
  unfold lists. sp; [done|by intros v [? _]%HS|]. intros e. split.
  - intros HF. set (v := (λ l, rho_of (w_bdd w) e l) <$> seq 0 (rank d)). exists v.
    assert (Hv : length v = rank d) by (unfold v; by rewrite fmap_length, seq_length).
    assert (Ha : agrees (w_names w) v e).
    { intros i b. unfold v. rewrite list_lookup_fmap_Some. intros (j & [-> Hj]%lookup_seq & ->).
      destruct (lookup_lt_is_Some_2 (ar_headers (b_ar (w_bdd w))) i ltac:(lia)) as [hd Hhd]. cbn. exists (h_label hd).
      unfold w_names, rho_of, lab. rewrite list_lookup_fmap, Hhd. done. }
    split; [|done]. apply HS. split; [done|]. exists (F e). split; [done|]. by apply (Hval v e).
  - intros (v & [Hv (b & Hb & Hx)]%HS & Ha). apply (Hval v e) in Hx; [|done|done]. by rewrite Hx.
Qed.

Lemma render_prefix names names' v : names `prefix_of` names' → length v ≤ length names → render names' v = render names v.
Proof.
  intros Hp Hl. unfold render. apply imap_ext. intros i b Hb. unfold lit.
  apply lookup_lt_Some in Hb. destruct (lookup_lt_is_Some_2 names i ltac:(lia)) as [x Hx].
  by rewrite Hx, (prefix_lookup _ _ _ _ Hx Hp).
Qed.
Lemma agrees_prefix names names' v e : names `prefix_of` names' → length v ≤ length names → agrees names' v e ↔ agrees names v e.
Proof.
  intros Hp Hl. split; intros Ha i b Hb; destruct (Ha _ _ Hb) as (x & Hx & He); exists x; (split; [|done]).
  - apply lookup_lt_Some in Hb. destruct (lookup_lt_is_Some_2 names i ltac:(lia)) as [y Hy].
    rewrite (prefix_lookup _ _ _ _ Hy Hp) in Hx. congruence.
  - by eapply prefix_lookup.
Qed.

(** ** the handles of iterators *)
Definition pins_of (snaps : list (arena tv)) (its : list brun) : base := Base [] (zip snaps ((λ r, bi_node (br_it r)) <$> its)).
Definition biters (w : bmgr) (H : list (nat * nfun)) (its : list brun) : Prop :=
  ∃ snaps, @wok (pins_of snaps its) w H ∧ Forall2 biok snaps its.

Lemma wok_rebase B B' w H : @wok B w H → (bs_pins B).*2 ≡ₚ (bs_pins B').*2 → kept B' (b_ar (w_bdd w)) → @wok B' w H.
Proof. intros [Hw Hl Hs Hv Hla Hnd [l [Hr Hp]] Hh Hb] He Hk. constructor; try done. exists l. split; [done|]. by rewrite <- He. Qed.
Lemma wok_own hs ps a0 f F w H : @wok (Base hs ps) w H → (f, F) ∈ H → a0 = b_ar (w_bdd w) → @wok (Base hs ((a0, f) :: ps)) (w_clone w f) H.
Proof.
  intros [Hw Hl Hs Hv Hla Hnd [l [Hr Hp]] Hh Hb] Hf ->. constructor; cbn [w_clone w_pin w_bdd w_vars w_roots bs_pins bs_hd]; try done.
  - exists (f :: l). split; [by rewrite Hr|]. rewrite Hp. cbn. rewrite !app_assoc. by rewrite Permutation_middle.
  - split; [apply Hb|]. intros a0 g [Hg|Hg]%elem_of_cons; [|by apply Hb]. injection Hg as -> ->.
    eapply keeps_refl; [apply (gd_wf _ (bw_good _ Hw))|]. intros r ->%elem_of_list_singleton. by apply Hh in Hf as [? _].
Qed.
Lemma wok_disown hs ps1 a0 f ps2 w H : @wok (Base hs (ps1 ++ (a0, f) :: ps2)) w H → @wok (Base hs (ps1 ++ ps2)) (w_drop w f) H.
Proof.
  intros [Hw Hl Hs Hv Hla Hnd [l [Hr Hp]] Hh Hb]. constructor; cbn [w_drop w_bdd w_vars w_roots bs_pins bs_hd]; try done.
  - exists (H.*1 ++ (map_to_list (w_vars w)).*2 ++ (ps1 ++ ps2).*2). split; [|done].
    rewrite Hr, (roots_perm l (f :: H.*1 ++ (map_to_list (w_vars w)).*2 ++ (ps1 ++ ps2).*2)); [apply unpin_pin|].
    rewrite Hp. cbn [bs_pins]. rewrite !fmap_app. cbn. rewrite !app_assoc. by rewrite Permutation_middle.
  - split; [apply Hb|]. intros a1 g Hg. apply Hb. cbn. apply elem_of_app in Hg as [Hg|Hg]; apply elem_of_app; [by left|right; by right].
Qed.

Lemma start_biok {B} w H f F ss w' it : @wok B w H → (f, F) ∈ H → biter_start w f ss = Some (w', it) →
  w' = w_clone w f ∧ bi_node it = f ∧ biok (b_ar (w_bdd w)) (BRun it F []).
Proof.
  intros Hk Hf. pose proof (wk_wf _ _ Hk) as Hw. destruct (wk_held _ _ Hk _ _ Hf) as [Vf Hd].
  destruct (extract_l (w_bdd w) (w_names w) ss f _ Hw Vf (wok_order _ _ Hk) eq_refl) as (S & k0 & Hnd & HS & Hex).
  unfold biter_start. destruct (path_labels _) as [labels|] eqn:Hlab; [|done]. cbn [mbind option_bind].
  destruct (bpath_new _ f) as [p|] eqn:Hp; [|done]. cbn [mbind option_bind]. intros [= <- <-]. sp; [done|done|].
  assert (Hst : p_stack p = [PNode (default None (ar_node_level (b_ar (w_bdd w)) f)) f]).
  { unfold bpath_new in Hp. destruct (ar_node_level _ f); [|done]. cbn in Hp. by injection Hp as <-. }
  constructor; cbn [br_it br_fun br_out bi_node bi_p bi_labels bi_ss].
  - apply (gd_wf _ (bw_good _ Hw)).
  - done.
  - intros l id. rewrite Hst, elem_of_list_singleton. intros [= _ ->]. constructor. by left.
  - exists S, k0. pose proof (sols_by_name w H f F ss S Hk (conj Vf Hd) Hnd HS) as HL. sp.
    + done.
    + intros v Hv. destruct (valid_repr _ _ Hw Vf) as [d Hr]. rewrite (proj1 (proj2 HL) v Hv), (depth_rank _ _ _ (bw_good _ Hw) Hr).
      destruct d as [|hd ds]; [cbn; lia|]. apply repr_br in Hr as [_ (h & cs & _ & Hh & _)]. pose proof (wk_lvl _ _ Hk _ _ Hh) as Hl.
      apply lookup_lt_Some in Hh. cbn. lia.
    + apply prefix_nil.
    + specialize (Hex k0 ltac:(lia)). unfold bdd_extract in Hex. rewrite Hlab in Hex. cbn [mbind option_bind] in Hex.
      rewrite Hp in Hex. cbn [mbind option_bind] in Hex. rewrite collect_drain in Hex. exact Hex.
    + intros m Hm Hkp.
      assert (Hlive : live (b_ar m) f) by (apply Hkp; constructor; by left).
      assert (Hlv : ar_node_level (b_ar m) f = ar_node_level (b_ar (w_bdd w)) f).
      { eapply keeps_level; [apply (gd_wf _ (bw_good _ Hw))| |exact Hkp|constructor; by left]. by intros r ->%elem_of_list_singleton. }
      eapply count_l; [done|done|reflexivity|done|]. intros v. rewrite HS, Hlv.
      assert (Hval : ∀ rho t, bdd_value m rho f t ↔ bdd_value (w_bdd w) rho f t).
      { destruct (valid_repr _ _ Hw Vf) as [d Hr]. intros rho t.
        assert (Hgo : ∀ id t, reach (b_ar (w_bdd w)) [f] id → bdd_value (w_bdd w) rho id t → bdd_value m rho id t).
        { intros id t0 Hid Hv. revert Hid. induction Hv as [id t0 Hn|id h lo hi hd t0 Hn Hh _ IH]; intros Hid.
          - constructor. by rewrite (proj2 (proj2 Hkp _ Hid)).
          - eapply bv_node; [by rewrite (proj2 (proj2 Hkp _ Hid))|by eapply prefix_lookup; [|apply Hkp]|].
            apply IH. eapply reach_step; [exact Hid|exact Hn|]. destruct (rho _); [right|]; by left. }
        assert (Hf0 : reach (b_ar (w_bdd w)) [f] f) by (constructor; by left).
        split; [|by apply Hgo]. intros Hv.
        pose proof (proj2 (value_ev _ rho _ _ _ (bw_good _ Hw) Hr) eq_refl) as Ht'. pose proof (Hgo _ _ Hf0 Ht') as Hv'.
        by rewrite (value_fun _ _ _ _ _ Hv Hv'). }
      split; intros [? (b & ? & ?%Hval)]; (split; [done|]); by exists b.
Qed.

Lemma next_biok a0 w r k it' o : biok a0 r → keeps a0 [bi_node (br_it r)] (b_ar (w_bdd w)) →
  biter_next k w (br_it r) = Some (it', o) →
  bi_node it' = bi_node (br_it r) ∧ biok a0 (BRun it' (br_fun r) (yield (br_out r) o)).
Proof.
  intros [Hw Hl Hi (L & k0 & HL & Hlen & Hpre & Hd & Hc)] Hk. unfold biter_next.
  rewrite (next_agree bhalted _ (bpath_step a0 (bi_labels (br_it r)) (bi_ss (br_it r))) (within a0 (bi_node (br_it r)))).
  - destruct (iter_next _ _ k _) as [[p o']|] eqn:Hn; [|done]. cbn [mbind option_bind]. intros [= <- <-]. split; [done|].
    constructor; cbn [br_it br_fun br_out bi_node bi_p bi_labels bi_ss]; try done.
    + eapply next_keeps; [|exact Hi|exact Hn]. intros s s' x. apply within_step.
    + destruct (next_split bhalted _ _ _ _ _ _ _ _ _ Hd Hpre Hn) as (_ & Hpre' & k1 & Hd'). exists L, k1. done.
  - intros s Hs _. by eapply step_kept.
  - intros s s' x. apply within_step.
  - done.
Qed.

Lemma zip_pins_lookup snaps its i a0 r : snaps !! i = Some a0 → its !! i = Some r →
  (a0, bi_node (br_it r)) ∈ bs_pins (pins_of snaps its).
Proof.
  intros Ha Hr. cbn. apply elem_of_list_lookup. exists i. apply lookup_zip_with_Some.
  exists a0, (bi_node (br_it r)). split; [done|]. split; [done|]. by rewrite list_lookup_fmap, Hr.
Qed.

Lemma biters_start w H its f F ss w' it : biters w H its → (f, F) ∈ H → biter_start w f ss = Some (w', it) →
  biters w' H (BRun it F [] :: its).
Proof.
  intros (sn & Hk & Hf) HfH He. destruct (start_biok _ _ _ _ _ _ _ Hk HfH He) as (-> & Hid & Hb). exists (b_ar (w_bdd w) :: sn).
  split; [|by constructor]. unfold pins_of. cbn [fmap list_fmap zip zip_with br_it]. rewrite Hid. by eapply wok_own.
Qed.
Lemma biters_next w H its i r k it' o : biters w H its → its !! i = Some r → biter_next k w (br_it r) = Some (it', o) →
  biters w H (<[i := BRun it' (br_fun r) (yield (br_out r) o)]> its).
Proof.
  intros (sn & Hk & Hf) Hi Hn. destruct (Forall2_lookup_r _ _ _ _ _ Hf Hi) as (a0 & Ha & Hb).
  assert (Hkp : keeps a0 [bi_node (br_it r)] (b_ar (w_bdd w))) by (eapply (wk_base _ _ Hk); by eapply zip_pins_lookup).
  destruct (next_biok _ _ _ _ _ _ Hb Hkp Hn) as [Hid Hb']. exists sn. split.
  - replace (pins_of sn (<[i:=BRun it' (br_fun r) (yield (br_out r) o)]> its)) with (pins_of sn its); [done|].
    unfold pins_of. do 2 f_equal. rewrite list_fmap_insert. cbn [br_it]. rewrite list_insert_id; [done|].
    rewrite list_lookup_fmap, Hi. cbn. by rewrite Hid.
  - rewrite <- (list_insert_id sn i a0) by done. by apply Forall2_insert.
Qed.
Lemma biters_stop w H its1 r its2 : biters w H (its1 ++ r :: its2) → biters (biter_drop w (br_it r)) H (its1 ++ its2).
Proof.
  intros (sn & Hk & Hf). apply Forall2_app_inv_r in Hf as (s1 & s' & Hf1 & Hf2 & ->). apply Forall2_cons_inv_r in Hf2 as (a0 & s2 & Hb & Hf2 & ->).
  exists (s1 ++ s2). split; [|by apply Forall2_app].
  unfold biter_drop, pins_of in *. rewrite fmap_app in Hk |- *. rewrite zip_with_app in Hk |- *
    by (rewrite fmap_length; by eapply Forall2_length). cbn in Hk. by eapply wok_disown.
Qed.
Lemma iter_ok w H its : bss_iter w H its → biters w H its.
Proof.
  induction 1 as [|w H its w' H' _ (sn & Hk & Hf) Hs|w H its f F ss w' it _ IH HfH He
    |w H its i r k it' o _ IH Hi Hn|w H its1 r its2 _ IH].
  - exists []. split; [apply new_wok|constructor].
  - exists sn. split; [|done]. by eapply step_wok.
  - by eapply biters_start.
  - by eapply biters_next.
  - by apply biters_stop.
Qed.

Lemma biters_exact w H its r : biters w H its → r ∈ its →
  let names := w_names w in
  ∃ L, NoDup L ∧ (∀ v, v ∈ L → length v = depth (b_ar (w_bdd w)) (bi_node (br_it r))) ∧
    (∀ e, br_fun r e ∈ bi_ss (br_it r) ↔ ∃ v, v ∈ L ∧ agrees names v e) ∧
    br_out r `prefix_of` (render names <$> L) ∧
    (∃ k0, ∀ k, k0 ≤ k → ∃ it', biter_next k w (br_it r) = Some (it', (render names <$> L) !! length (br_out r))) ∧
    biter_len w (br_it r) = Some (N.of_nat (length L)).
Proof.
  intros (sn & Hk & Hf) [i Hi]%elem_of_list_lookup names.
  destruct (Forall2_lookup_r _ _ _ _ _ Hf Hi) as (a0 & Ha & [Hw Hl Hin (L & k0 & (Hnd & Hlen & HL) & Hle & Hpre & Hd & Hc)]).
  assert (Hkp : keeps a0 [bi_node (br_it r)] (b_ar (w_bdd w))) by (eapply (wk_base _ _ Hk); by eapply zip_pins_lookup).
  assert (Hpn : (h_label <$> ar_headers a0) `prefix_of` names).
  { destruct (proj1 Hkp) as [t Ht]. exists (h_label <$> t). unfold names, w_names. by rewrite Ht, fmap_app. }
  assert (Hren : render names <$> L = render (h_label <$> ar_headers a0) <$> L).
  { apply list_fmap_ext. intros j v Hv. apply elem_of_list_lookup_2 in Hv. apply render_prefix; [done|].
    rewrite fmap_length. by apply Hle. }
  exists L. rewrite Hren. sp.
  - done.
  - intros v Hv. rewrite (Hlen v Hv). unfold depth. f_equal.
    rewrite (keeps_level Rb a0 [bi_node (br_it r)] (b_ar (w_bdd w)) _ Hw); [done| |done|constructor; by left].
    by intros ? ->%elem_of_list_singleton.
  - intros e. rewrite HL. assert (Hv : ∀ v, v ∈ L → agrees names v e ↔ agrees (h_label <$> ar_headers a0) v e).
    { intros v Hv. apply agrees_prefix; [done|]. rewrite fmap_length. by apply Hle. }
    split; intros (v & Hin' & Hag); exists v; (split; [done|]); by apply Hv.
  - done.
  - exists k0. intros k Hkk. unfold biter_next.
    rewrite (next_agree bhalted _ (bpath_step a0 (bi_labels (br_it r)) (bi_ss (br_it r))) (within a0 (bi_node (br_it r)))).
    + destruct (next_drain _ _ _ _ _ Hd) as (s' & Hn & _).
      pose proof (next_mono bhalted _ k0 k _ _ Hkk Hn) as Hn'.
      destruct (next_split bhalted _ _ _ _ _ _ _ _ _ Hd Hpre Hn) as (Ho & _). rewrite Hn'. cbn [mbind option_bind]. rewrite Ho. by eexists.
    + intros s Hs _. by eapply step_kept.
    + intros s s' x. apply within_step.
    + done.
  - apply Hc; [apply Hk|done].
Qed.

Lemma start_some {B} w H f F ss : @wok B w H → (f, F) ∈ H → is_Some (biter_start w f ss).
Proof.
  intros Hk Hf. destruct (wk_held _ _ Hk _ _ Hf) as [Vf _]. pose proof (wk_wf _ _ Hk) as Hw. unfold biter_start.
  rewrite (order_labels (w_bdd w) (w_names w) (wok_order _ _ Hk)). cbn [mbind option_bind].
  destruct (valid_repr _ _ Hw Vf) as [d Hd]. unfold bpath_new. rewrite (node_level_eq _ _ _ (bw_good _ Hw) Hd). by eexists.
Qed.

Lemma iters_exact w H its r : biters w H its → r ∈ its →
  let names := w_names w in
  ∃ L n, NoDup L ∧ n ≤ length names ∧ (∀ v, v ∈ L → length v = n) ∧
    (∀ e, br_fun r e ∈ bi_ss (br_it r) ↔ ∃ v, v ∈ L ∧ agrees names v e) ∧
    br_out r `prefix_of` (render names <$> L) ∧
    (∃ k0, ∀ k, k0 ≤ k → ∃ it', biter_next k w (br_it r) = Some (it', (render names <$> L) !! length (br_out r))) ∧
    biter_len w (br_it r) = Some (N.of_nat (length L)).
Proof.
  intros Hi Hr names. destruct (biters_exact w H its r Hi Hr) as (L & H1 & H2 & H3 & H4 & H5 & H6).
  exists L, (depth (b_ar (w_bdd w)) (bi_node (br_it r))). sp; try done.
  destruct Hi as (sn & Hk & Hf). pose proof (wk_wf _ _ Hk) as Hw. unfold depth.
  destruct (ar_node_level (b_ar (w_bdd w)) (bi_node (br_it r))) as [[l|]|] eqn:El; try lia.
  unfold names, w_names. rewrite fmap_length. unfold ar_node_level in El.
  destruct (ar_nodes (b_ar (w_bdd w)) !! bi_node (br_it r)) as [[t|h cs]|]; [done| |done]. cbn in El.
  destruct (ar_headers (b_ar (w_bdd w)) !! h) as [hd|] eqn:Eh; [|done]. cbn in El. injection El as <-.
  rewrite (wk_lvl _ _ Hk _ _ Eh). apply lookup_lt_Some in Eh. lia.
Qed.
Lemma iter_start w H its f F ss : bss_iter w H its → (f, F) ∈ H → is_Some (biter_start w f ss).
Proof. intros (sn & Hk & _)%iter_ok. by eapply start_some. Qed.
Lemma iter_handles w H its f F : bss_iter w H its → (f, F) ∈ H →
  bdd_valid (w_bdd w) f ∧ ∀ e, bss_value (w_bdd w) e f (tvb (F e)).
Proof. intros (sn & Hk & _)%iter_ok. by apply (wk_held _ _ Hk). Qed.
