(** Collections by BddMgr and ZddMgr leave exactly what is held. *)
From stdpp Require Import strings.
From Verif Require Import Prelude ComputeCache Arena ArenaProofs Bdd BssAlg BssMgr SpecBdd SpecBssMgr BddProofs BddMain BssMgrProofs BssMgrMain
  Zdd ZddAlg ZddMgr SpecZdd SpecZddMgr ZddProofs ZddMain ZddMgrProofs ZddMgrMain SpecCollect.

(** ** BddMgr *)
Lemma live_count w H : @wok base0 w H → counts_live w.
Proof.
  intros Hk l Hnd Hin. pose proof (free_count Rb (b_ar (w_bdd w)) l (gd_wf _ (bw_good _ (wk_wf _ _ Hk))) Hnd Hin).
  unfold bdd_live_node_count, ar_live_count. lia.
Qed.
Lemma live_pos m : bwf m → 0 < bdd_live_node_count m.
Proof.
  intros Hw. pose proof (bw_good _ Hw) as Hg. unfold bdd_live_node_count, ar_live_count.
  set (l := filter (live (b_ar m)) (seq 0 (length (ar_nodes (b_ar m))))).
  assert (Hin : ∀ id, id ∈ l ↔ live (b_ar m) id).
  { intros id. unfold l. rewrite elem_of_list_filter, elem_of_seq. split; [by intros [? _]|].
    intros Hl. split; [done|]. destruct Hl as [Hlt _]. lia. }
  pose proof (free_count Rb (b_ar m) l (gd_wf _ Hg) (NoDup_filter _ _ (NoDup_seq _ _)) Hin) as Hc.
  assert (bdd_zero ∈ l) as Hz.
  { apply Hin. destruct Hg as [_ [??] _ _ _]. done. }
  destruct l; [by apply elem_of_nil in Hz|]. cbn in Hc. lia.
Qed.
Lemma reach_same {T} (a a' : arena T) rs rs' id : ar_nodes a' = ar_nodes a → (∀ r, r ∈ rs ↔ r ∈ rs') →
  reach a rs id ↔ reach a' rs' id.
Proof.
  intros Hn Hr. split; induction 1 as [r Hi|? ? ? ? ? IH Hnn Hc].
  - constructor. by apply Hr.
  - eapply reach_step; [exact IH|by rewrite Hn|done].
  - constructor. by apply Hr.
  - eapply reach_step; [exact IH|by rewrite <- Hn|done].
Qed.
Lemma gc_no_garbage w H roots b n t fl : @wok base0 w H → bdd_gc (w_bdd w) roots = Some (b, n) →
  (∀ r, r ∈ roots ↔ r ∈ root_keys (w_roots w)) →
  bwf b ∧ no_garbage (BMgr b (w_roots w) t fl (w_vars w)) H.*1 ∧
  n + bdd_live_node_count b = length (ar_nodes (b_ar (w_bdd w))).
Proof.
  intros Hk E Hroots. pose proof (wk_wf _ _ Hk) as Hw.
  destruct (gc_ok (w_bdd w) roots Hw) as (b' & n' & E' & Hw' & Hhd & Hns & Hl & Hsub & Hn).
  { intros r Hr%Hroots. by eapply wok_root_valid. }
  rewrite E in E'. injection E' as <- <-. split; [done|]. split.
  - intros id. cbn [w_bdd w_vars]. rewrite reaches_reach. rewrite <- (reach_same (b_ar (w_bdd w)) (b_ar b) roots).
    + apply Hl.
    + done.
    + intros r. rewrite Hroots. destruct (wk_roots _ _ Hk) as (l & -> & Hp). rewrite root_keys_elem, Hp. cbn. by rewrite app_nil_r.
  - unfold bdd_live_node_count, ar_live_count. rewrite Hns in *. subst n.
    assert (length (ar_free (b_ar b)) ≤ length (ar_nodes (b_ar b))); [|rewrite Hns in *; lia].
    set (l := filter (live (b_ar b)) (seq 0 (length (ar_nodes (b_ar b))))).
    assert (Hin : ∀ id, id ∈ l ↔ live (b_ar b) id).
    { intros id. unfold l. rewrite elem_of_list_filter, elem_of_seq. split; [by intros [? _]|].
      intros Hl'. split; [done|]. destruct Hl' as [Hlt _]. lia. }
    pose proof (free_count Rb (b_ar b) l (gd_wf _ (bw_good _ Hw')) (NoDup_filter _ _ (NoDup_seq _ _)) Hin). lia.
Qed.

Lemma explicit_gc w H keep : bss_held w H → Forall (λ f, f ∈ H.*1) keep →
  ∃ w' n, w_gc w keep = Some (w', n) ∧ bss_held w' H ∧ no_garbage w' H.*1 ∧ counts_live w' ∧
    n + bdd_live_node_count (w_bdd w') = length (ar_nodes (b_ar (w_bdd w))).
Proof.
  intros Hh Hkeep. pose proof (held_wok _ _ Hh) as Hk. destruct (w_gc_ok w H Hk keep Hkeep) as (w' & n & E & Hk').
  exists w', n. split; [done|]. split; [by eapply sh_step; [|eapply st_gc]|].
  pose proof (live_count _ _ Hk') as Hc. unfold w_gc in E. destruct (bdd_gc _ _) as [[b n']|] eqn:Eg; [|done].
  cbn in E. injection E as <- <-.
  destruct (gc_no_garbage w H _ b n' (w_thr w) (w_floor w) Hk Eg) as (_ & Hg & Hn); [|done].
  intros r. rewrite elem_of_app. split; [|by left]. intros [?|Hr]; [done|]. rewrite Forall_forall in Hkeep. apply Hkeep in Hr.
  destruct (wk_roots _ _ Hk) as (l & -> & Hp). rewrite root_keys_elem, Hp, elem_of_app. by left.
Qed.

(** the collector inside a call *)
Lemma op_bounded w H res w' r : @wok base0 w H →
  (∀ t, ∃ w1 r1 F, w_op (BMgr (w_bdd w) (w_roots w) t (w_floor w) (w_vars w)) res = Some (w1, r1) ∧ @wok base0 w1 ((r1, F) :: H)) →
  w_op w res = Some (w', r) → bounded w w' (r :: H.*1).
Proof.
  intros Hk Hall E. unfold w_op in E. destruct res as [[b r']|]; [|done]. cbn [mbind option_bind] in E.
  destruct (Hall (Datatypes.S (bdd_live_node_count b))) as (w1 & r1 & F & E1 & Hk1).
  unfold w_op, w_wrap, maybe_gc in E1. cbn [mbind option_bind w_pin with_bdd w_bdd w_roots w_thr w_floor w_vars] in E1.
  assert (bdd_live_node_count b <? Datatypes.S (bdd_live_node_count b) = true) as Hlt by (apply Nat.ltb_lt; lia).
  rewrite Hlt in E1. cbn [mbind option_bind] in E1. injection E1 as <- <-.
  unfold w_wrap, maybe_gc in E. cbn [mbind option_bind w_pin with_bdd w_bdd w_roots w_thr w_floor w_vars] in E.
  destruct (_ <? w_thr w) eqn:Et.
  - cbn in E. injection E as <- <-. apply Nat.ltb_lt in Et. split; [done|]. by left.
  - destruct (bdd_gc b _) as [[b' n]|] eqn:Eg; [|done]. cbn [mbind option_bind] in E. injection E as <- <-.
    destruct (gc_no_garbage _ _ _ b' n ((bdd_live_node_count b' * 2) `max` w_floor w) (w_floor w) Hk1 Eg) as (Hw & Hg & _); [done|].
    pose proof (live_pos _ Hw). split; cbn [w_bdd w_thr]; [lia|]. right. split; [lia|]. exact Hg.
Qed.
Lemma wrap_op w f : w_wrap w f = w_op w (Some (w_bdd w, f)).
Proof. by destruct w. Qed.
Lemma held_list (H : list (nat * nfun)) xs : Forall (λ f, f ∈ H.*1) xs → ∃ L : list (nat * nfun), xs = L.*1 ∧ ∀ x, x ∈ L → x ∈ H.
Proof.
  induction 1 as [|f xs Hf _ (L & -> & HL)]; [by exists []; split; [|intros x ?%elem_of_nil]|].
  apply elem_of_list_fmap in Hf as ([f' F] & -> & Hf). exists ((f', F) :: L). split; [done|].
  intros x [->|Hx]%elem_of_cons; [done|by apply HL].
Qed.

Lemma call_bounded w H c w' r : bss_held w H → Forall (λ f, f ∈ H.*1) (wcall_args c) →
  wcall_run c w = Some (w', r) → bounded w w' (r :: H.*1).
Proof.
  intros Hh Ha. pose proof (held_wok _ _ Hh) as Hk.
  assert (Hp : ∀ t, @wok base0 (BMgr (w_bdd w) (w_roots w) t (w_floor w) (w_vars w)) H) by (intros t; by apply wok_params).
  destruct c as [| |f|o f g|f g h|xs|xs|k xs|f]; cbn [wcall_args wcall_run] in *.
  - unfold w_zero. rewrite wrap_op. apply (op_bounded w H); [done|]. intros t.
    destruct (w_zero_ok _ _ (Hp t)) as (w1 & r1 & E & ?). exists w1, r1, (λ _, false). split; [|done]. rewrite <- E. unfold w_zero. by rewrite wrap_op.
  - unfold w_one. rewrite wrap_op. apply (op_bounded w H); [done|]. intros t.
    destruct (w_one_ok _ _ (Hp t)) as (w1 & r1 & E & ?). exists w1, r1, (λ _, true). split; [|done]. rewrite <- E. unfold w_one. by rewrite wrap_op.
  - apply Forall_cons in Ha as [([f' F] & -> & Hf)%elem_of_list_fmap _]. apply (op_bounded w H); [done|]. intros t.
    destruct (w_not_ok _ _ (Hp t) f' F Hf) as (w1 & r1 & E & ?). eauto.
  - apply Forall_cons in Ha as [([f' F] & -> & Hf)%elem_of_list_fmap Ha].
    apply Forall_cons in Ha as [([g' G] & -> & Hg)%elem_of_list_fmap _].
    destruct o; (apply (op_bounded w H); [done|]; intros t).
    + destruct (w_bin_ok _ _ (Hp t) BAnd f' F g' G Hf Hg) as (w1 & r1 & E & ?). eauto.
    + destruct (w_bin_ok _ _ (Hp t) BOr f' F g' G Hf Hg) as (w1 & r1 & E & ?). eauto.
    + destruct (w_bin_ok _ _ (Hp t) BXor f' F g' G Hf Hg) as (w1 & r1 & E & ?). eauto.
  - apply Forall_cons in Ha as [([f' F] & -> & Hf)%elem_of_list_fmap Ha].
    apply Forall_cons in Ha as [([g' G] & -> & Hg)%elem_of_list_fmap Ha].
    apply Forall_cons in Ha as [([h' K] & -> & Hh')%elem_of_list_fmap _]. apply (op_bounded w H); [done|]. intros t.
    destruct (w_ite_ok _ _ (Hp t) f' F g' G h' K Hf Hg Hh') as (w1 & r1 & E & ?). eauto.
  - destruct (held_list _ _ Ha) as (L & -> & HL). apply (op_bounded w H); [done|]. intros t.
    destruct (w_and_list_ok _ _ (Hp t) L HL) as (w1 & r1 & E & ?). eauto.
  - destruct (held_list _ _ Ha) as (L & -> & HL). apply (op_bounded w H); [done|]. intros t.
    destruct (w_or_list_ok _ _ (Hp t) L HL) as (w1 & r1 & E & ?). eauto.
  - destruct (held_list _ _ Ha) as (L & -> & HL). apply (op_bounded w H); [done|]. intros t.
    destruct (w_kofn_ok _ _ (Hp t) k L HL) as (w1 & r1 & E & ?). eauto.
  - apply Forall_cons in Ha as [([f' F] & -> & Hf)%elem_of_list_fmap _]. apply (op_bounded w H); [done|]. intros t.
    destruct (w_dual_ok _ _ (Hp t) f' F Hf) as (w1 & r1 & E & ?). eauto.
Qed.

(** after everything is released only the constants and the variables are left *)
Lemma release w : bss_held w [] →
  ∃ w' n, w_gc w [] = Some (w', n) ∧ bdd_live_node_count (w_bdd w') = 3 + size (w_vars w).
Proof.
  intros Hh. pose proof (held_wok _ _ Hh) as Hk. destruct (explicit_gc w [] [] Hh) as (w' & n & E & Hh' & Hg & Hc & _); [done|].
  exists w', n. split; [done|]. pose proof (held_wok _ _ Hh') as Hk'.
  assert (w_vars w' = w_vars w) as Hvs.
  { unfold w_gc in E. destruct (bdd_gc _ _) as [[??]|]; [|done]. cbn in E. by injection E as <- _. }
  set (vs := (map_to_list (w_vars w')).*2) in *.
  assert (Hvar : ∀ id, id ∈ vs → ∃ x i hd, w_vars w' !! x = Some id ∧ ar_headers (b_ar (w_bdd w')) !! i = Some hd ∧ h_label hd = x ∧
    ar_nodes (b_ar (w_bdd w')) !! id = Some (NT i [bdd_zero; bdd_one])).
  { intros id ([x id'] & -> & Hx)%elem_of_list_fmap. apply elem_of_map_to_list in Hx.
    destruct (wk_var _ _ Hk' _ _ Hx) as (_ & i & hd & ? & ? & ?). by exists x, i, hd. }
  pose proof (bw_good _ (wk_wf _ _ Hk')) as Hgd.
  assert (Hterm : ∀ id, id ∈ [bdd_zero; bdd_one; bdd_undet] → ∃ t, ar_nodes (b_ar (w_bdd w')) !! id = Some (Term t)).
  { intros id. rewrite !elem_of_cons, elem_of_nil. destruct Hgd as [_ [??] [??] [??] _]. intros [->|[->|[->|[]]]]; eauto. }
  rewrite (Hc ([bdd_zero; bdd_one; bdd_undet] ++ vs)).
  - rewrite app_length. unfold vs. by rewrite fmap_length, Hvs.
  - apply NoDup_app. sp.
    + apply (bool_decide_unpack (NoDup [bdd_zero; bdd_one; bdd_undet])). by vm_compute.
    + intros id [t Ht]%Hterm Hid. destruct (Hvar _ Hid) as (? & ? & ? & _ & _ & _ & Hn). congruence.
    + unfold vs. apply NoDup_fmap_2_strong; [|apply NoDup_map_to_list].
      intros [x id] [y id'] Hx%elem_of_map_to_list Hy%elem_of_map_to_list [= <-].
      destruct (wk_var _ _ Hk' _ _ Hx) as (_ & i & hd & ? & <- & Hn). destruct (wk_var _ _ Hk' _ _ Hy) as (_ & j & hd' & ? & <- & Hn').
      rewrite Hn in Hn'. injection Hn' as <-. congruence.
  - intros id. rewrite (Hg id). fold vs. rewrite elem_of_app. cbn [fmap list_fmap app]. split.
    + intros [?|Hid]; [by left|]. right. by constructor.
    + intros [?|Hid]; [by left|]. induction Hid as [id Hid|id h cs c _ IH Hn Hcs]; [by right|]. left.
      destruct IH as [[t Ht]%Hterm|Hid]; [congruence|]. destruct (Hvar _ Hid) as (? & ? & ? & _ & _ & _ & Hn'). rewrite Hn in Hn'. injection Hn' as -> ->.
      rewrite !elem_of_cons, elem_of_nil in *. tauto.
Qed.

(** ** ZddMgr *)
Lemma z_all_live m : zwf m → ∃ l, NoDup l ∧ (∀ id, id ∈ l ↔ zdd_valid m id) ∧ zdd_live_node_count m = length l ∧
  length l + length (ar_free (z_ar m)) = length (ar_nodes (z_ar m)).
Proof.
  intros Hw. set (l := filter (live (z_ar m)) (seq 0 (length (ar_nodes (z_ar m))))).
  assert (Hin : ∀ id, id ∈ l ↔ live (z_ar m) id).
  { intros id. unfold l. rewrite elem_of_list_filter, elem_of_seq. split; [by intros [? _]|].
    intros Hl. split; [done|]. destruct Hl as [Hlt _]. lia. }
  assert (NoDup l) as Hnd by apply NoDup_filter, NoDup_seq.
  pose proof (free_count Rz (z_ar m) l (zg_wf _ (zw_good _ Hw)) Hnd Hin) as Hc.
  exists l. sp; try done. unfold zdd_live_node_count, ar_live_count. lia.
Qed.
Lemma z_live_count m : zwf m → ∀ l, NoDup l → (∀ id, id ∈ l ↔ zdd_valid m id) → zdd_live_node_count m = length l.
Proof.
  intros Hw l Hnd Hin. pose proof (free_count Rz (z_ar m) l (zg_wf _ (zw_good _ Hw)) Hnd Hin).
  unfold zdd_live_node_count, ar_live_count. lia.
Qed.
Lemma z_gc_no_garbage w H z n t fl : @zok base0 w H → zdd_gc (y_zdd w) (root_keys (y_roots w)) = Some (z, n) →
  zwf z ∧ z_no_garbage (ZMgr z (y_roots w) t fl (y_vars w)) H.*1.
Proof.
  intros Hk E. pose proof (zk_wf _ _ Hk) as Hw.
  assert (Hr : ∀ r, r ∈ root_keys (y_roots w) ↔ r ∈ H.*1).
  { intros r. destruct (zk_roots _ _ Hk) as (l & -> & Hp). rewrite root_keys_elem, Hp. cbn. by rewrite app_nil_r. }
  destruct (zgc_ok (y_zdd w) (root_keys (y_roots w)) Hw) as (z' & n' & E' & Hw' & Hhd & Hns & Hl & Hsub & Hn).
  { intros r Hf%Hr. by apply (zk_valid _ _ Hk). }
  rewrite E in E'. injection E' as <- <-. split; [done|].
  intros id. cbn [y_zdd]. rewrite zreaches_reach. rewrite <- (reach_same (z_ar (y_zdd w)) (z_ar z) (root_keys (y_roots w))); [apply Hl|done|done].
Qed.

Lemma z_wrap_bounded w w0 H r F w' : @zok base0 (y_pin w r) ((r, F) :: H) → y_wrap w r = Some w' → y_thr w = y_thr w0 → y_floor w = y_floor w0 →
  z_bounded w0 w'.1 (r :: H.*1).
Proof.
  intros Hk E Ht Hf. unfold y_wrap, y_maybe_gc in E. cbn [mbind option_bind y_pin y_zdd y_roots y_thr y_floor y_vars] in E.
  destruct (_ <? y_thr w) eqn:Et.
  - cbn in E. injection E as <-. apply Nat.ltb_lt in Et. split; [done|]. by left.
  - destruct (zdd_gc _ _) as [[z n]|] eqn:Eg; [|done]. cbn [mbind option_bind] in E. injection E as <-. cbn [fst].
    destruct (z_gc_no_garbage _ _ z n ((zdd_live_node_count z * 2) `max` y_floor w) (y_floor w) Hk Eg) as (Hw & Hg).
    destruct (z_all_live z Hw) as (l & Hnd & Hin & Hc & _).
    assert (0 < zdd_live_node_count z).
    { rewrite Hc. assert (zdd_zero ∈ l) as Hz; [|destruct l; [by apply elem_of_nil in Hz|cbn; lia]].
      apply Hin. apply (Hg zdd_zero). left. by left. }
    split; cbn [y_zdd y_thr]; [lia|]. right. split; [lia|]. exact Hg.
Qed.
(** the state in which the collector is asked: the same call with the threshold out of reach *)
Lemma z_wrapped_bounded w w0 H res w' r : y_thr w = y_thr w0 → y_floor w = y_floor w0 →
  (∀ t, ∃ w1 r1 F, y_wrapped (ZMgr (y_zdd w) (y_roots w) t (y_floor w) (y_vars w)) res = Some (w1, r1) ∧ @zok base0 w1 ((r1, F) :: H)) →
  y_wrapped w res = Some (w', r) → z_bounded w0 w' (r :: H.*1).
Proof.
  intros Ht Hf Hall E. unfold y_wrapped in E. destruct res as [[z r']|]; [|done]. cbn [mbind option_bind] in E.
  destruct (Hall (Datatypes.S (zdd_live_node_count z))) as (w1 & r1 & F & E1 & Hk1).
  unfold y_wrapped, y_wrap, y_maybe_gc in E1. cbn [mbind option_bind y_pin with_zdd y_zdd y_roots y_thr y_floor y_vars] in E1.
  assert (zdd_live_node_count z <? Datatypes.S (zdd_live_node_count z) = true) as Hlt by (apply Nat.ltb_lt; lia).
  rewrite Hlt in E1. cbn [mbind option_bind] in E1. injection E1 as <- <-.
  assert (r = r') as ->.
  { unfold y_wrap in E. destruct (y_maybe_gc _); [|done]. by injection E as _ <-. }
  eapply (z_wrap_bounded (with_zdd w z) w0 H r' F (w', r')); [|exact E|done|done].
  by apply (zok_params _ _ (y_thr w) (y_floor w) (y_vars w)) in Hk1.
Qed.
Lemma y_wrap_wrapped w f : y_wrap w f = y_wrapped w (Some (y_zdd w, f)).
Proof. by destruct w. Qed.

Lemma z_call_bounded w H c w' r : zdd_in_use w H → ((∃ x, c = YSingleton x) → zdd_held w H) → Forall (λ f, f ∈ H.*1) (ycall_args c) →
  ycall_run c w = Some (w', r) → z_bounded w w' (r :: H.*1).
Proof.
  intros Hu Hs Ha E. pose proof (in_use_ok _ _ Hu) as Hk.
  assert (Hp : ∀ t, @zok base0 (ZMgr (y_zdd w) (y_roots w) t (y_floor w) (y_vars w)) H) by (intros t; by apply zok_params).
  destruct c as [| |x|o f g]; cbn [ycall_args ycall_run] in *.
  - unfold y_empty in E. rewrite y_wrap_wrapped in E. refine (z_wrapped_bounded w w H _ w' r eq_refl eq_refl _ E). intros t.
    destruct (y_empty_ok _ _ (Hp t)) as (w1 & r1 & E1 & ? & _). exists w1, r1. eexists. split; [|done]. rewrite <- E1. unfold y_empty. by rewrite y_wrap_wrapped.
  - unfold y_base in E. rewrite y_wrap_wrapped in E. refine (z_wrapped_bounded w w H _ w' r eq_refl eq_refl _ E). intros t.
    destruct (y_base_ok _ _ (Hp t)) as (w1 & r1 & E1 & ? & _). exists w1, r1. eexists. split; [|done]. rewrite <- E1. unfold y_base. by rewrite y_wrap_wrapped.
  - destruct (zdd_held_ok w H) as [_ Hso]; [apply Hs; eauto|].
    assert (Hso' : ∀ t, zsolo (ZMgr (y_zdd w) (y_roots w) t (y_floor w) (y_vars w))) by (intros t; by apply (zsolo_same w)).
    pose proof (λ t, y_singleton_ok _ _ x (Hp t) (Hso' t)) as Hok. unfold y_singleton in E, Hok. cbn [y_vars y_zdd y_roots y_thr y_floor] in Hok.
    destruct (y_vars w !! x) as [h|] eqn:Hx.
    + refine (z_wrapped_bounded w w H _ w' r eq_refl eq_refl _ E). intros t. destruct (Hok t) as (w1 & r1 & E1 & ? & _). cbn [y_zdd] in E1. eauto.
    + destruct (zdd_create_header _ _ _) as [z h] eqn:Eh. refine (z_wrapped_bounded _ w H _ w' r _ _ _ E); [done|done|].
      intros t. destruct (Hok t) as (w1 & r1 & E1 & ? & _). cbn [y_zdd y_roots y_vars y_floor] in *. eauto.
  - apply Forall_cons in Ha as [([f' F] & -> & Hf)%elem_of_list_fmap Ha].
    apply Forall_cons in Ha as [([g' G] & -> & Hg)%elem_of_list_fmap _].
    refine (z_wrapped_bounded w w H _ w' r eq_refl eq_refl _ E). intros t.
    destruct (y_op_ok o _ _ f' F g' G None (Hp t) Hf Hg) as (w1 & r1 & E1 & ? & _); [constructor|]. eauto.
Qed.
Lemma z_counts w H : zdd_in_use w H → z_counts_live w.
Proof. intros Hu%in_use_ok. exact (z_live_count _ (zk_wf _ _ Hu)). Qed.
