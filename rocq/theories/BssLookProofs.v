(** What a handle's diagram shows of its function: variables occurring are variables the function needs. *)
From stdpp Require Import strings.
From Verif Require Import Prelude ComputeCache ComputeCacheProofs Arena Trees ArenaProofs Bdd BddProofs SpecBdd SpecBss BddMain BssAlg BssCount BssGates BssReach BssProb BssMeas BssMgr SpecBssMgr BssMgrProofs BssMgrMain BssLook SpecBssLook.

(** ** by level *)
Definition bset (rho : nat → bool) (l : nat) (b : bool) : nat → bool := λ k, if decide (k = l) then b else rho k.
Definition dep (d : dd tv) (l : nat) : Prop := ∃ rho, ev (asg (bset rho l true)) d ≠ ev (asg (bset rho l false)) d.

Lemma asg_agree d rho rho' : okdd E2 d → (∀ l, l < rank d → rho l = rho' l) → ev (asg rho) d = ev (asg rho') d.
Proof. intros O H. apply ev_agree; [done|]. intros l Hl. unfold asg. by rewrite H. Qed.
Lemma bset_eq rho l b : bset rho l b l = b.
Proof. unfold bset. by rewrite decide_True. Qed.
Lemma bset_ne rho l b k : k ≠ l → bset rho l b k = rho k.
Proof. intros. unfold bset. by rewrite decide_False. Qed.

Lemma ev_br2 rho hd d0 d1 : ev (asg rho) (Br hd [d0; d1]) = ev (asg rho) (if rho (h_level hd) then d1 else d0).
Proof.
  assert (asg rho (h_level hd) = if rho (h_level hd) then 1 else 0) as E by done.
  unfold ev. rewrite eval_br, E. by destruct (rho (h_level hd)).
Qed.

Lemma dep_rank d l : okdd E2 d → dep d l → l < rank d.
Proof.
  intros O [rho H]. destruct (decide (l < rank d)); [done|]. destruct H. apply asg_agree; [done|].
  intros k Hk. rewrite !bset_ne by lia. done.
Qed.

(** two different trees are told apart by some assignment *)
Lemma differ m d1 d2 i j : bwf m → bdd_levels_distinct m → repr (b_ar m) d1 i → repr (b_ar m) d2 j →
  d1 ≠ d2 → ∃ rho, ev (asg rho) d1 ≠ ev (asg rho) d2.
Proof.
  intros Hw Hd H1 H2 Hne. pose proof (good_ok _ _ _ (bw_good _ Hw) H1) as O1. pose proof (good_ok _ _ _ (bw_good _ Hw) H2) as O2.
  set (n := rank d1 `max` rank d2).
  destruct (decide (Exists (λ v, ev (asg (vrho v)) d1 ≠ ev (asg (vrho v)) d2) (vecs n))) as [He|Hn].
  { apply Exists_exists in He as (v & _ & Hv). by exists (vrho v). }
  destruct Hne. eapply (canon_tree m); [done..|]. intros ρ Hv.
  rewrite (ev_ext ρ (asg (λ l, ρ l =? 1)) d1), (ev_ext ρ (asg (λ l, ρ l =? 1)) d2) by (done || by apply vok_asg).
  set (rho := λ l, ρ l =? 1). set (v := rho <$> seq 0 n).
  assert (Hr : ∀ l, l < n → rho l = vrho v l).
  { intros l Hl. unfold vrho, v. symmetry. apply nth_lookup_Some. rewrite list_lookup_fmap, lookup_seq_lt by done. done. }
  rewrite (asg_agree d1 rho (vrho v)), (asg_agree d2 rho (vrho v)) by (done || (intros; apply Hr; lia)).
  destruct (decide (ev (asg (vrho v)) d1 = ev (asg (vrho v)) d2)) as [|Hx]; [done|]. destruct Hn. apply Exists_exists.
  exists v. split; [|done]. apply elem_of_vecs. unfold v. by rewrite fmap_length, seq_length.
Qed.

Lemma dep_child hd d0 d1 l (b : bool) : okdd E2 (Br hd [d0; d1]) → dep (if b then d1 else d0) l → dep (Br hd [d0; d1]) l.
Proof.
  intros O. pose proof O as [_ Hc]%okdd_br.
  assert (rank (if b then d1 else d0) ≤ h_level hd ∧ okdd E2 (if b then d1 else d0)) as [Rc Oc].
  { rewrite Forall_forall in Hc. destruct b; apply Hc; set_solver. }
  intros Hdep. pose proof (dep_rank _ _ Oc Hdep) as Hl. destruct Hdep as [rho H].
  exists (bset rho (h_level hd) b). rewrite !ev_br2.
  assert (∀ c, bset (bset rho (h_level hd) b) l c (h_level hd) = b) as ->.
  { intros c. rewrite bset_ne by lia. apply bset_eq. }
  assert (∀ c, bset (bset rho (h_level hd) b) l c (h_level hd) = b) as ->.
  { intros c. rewrite bset_ne by lia. apply bset_eq. }
  intros He. apply H. etrans; [|etrans; [exact He|]]; apply asg_agree; try done; intros k Hk; unfold bset;
    repeat case_decide; try done; lia.
Qed.

Lemma dep_top m hd d0 d1 id : bwf m → bdd_levels_distinct m → repr (b_ar m) (Br hd [d0; d1]) id → dep (Br hd [d0; d1]) (h_level hd).
Proof.
  intros Hw Hd Hr. pose proof (good_ok _ _ _ (bw_good _ Hw) Hr) as O.
  destruct (repr_node2 _ _ _ _ (bw_good _ Hw) Hr) as (h & lo & hi & dlo & dhi & [= <- <-] & Hn & Hh & Hlo & Hhi & Rlo & Rhi).
  destruct (differ m d0 d1 lo hi) as [rho Hrho]; try done.
  { intros ->. pose proof (repr_inj _ _ _ _ _ (gd_wf _ (bw_good _ Hw)) Hlo Hhi) as ->.
    destruct (aw_nt _ _ (gd_wf _ (bw_good _ Hw)) _ _ _ (repr_live _ _ _ Hr) Hn) as (_ & _ & _ & HR & _).
    apply HR. exists hi. by repeat constructor. }
  pose proof O as [_ Hc]%okdd_br. rewrite Forall_forall in Hc.
  destruct (Hc d0) as [_ O0]; [set_solver|]. destruct (Hc d1) as [_ O1]; [set_solver|].
  exists rho. rewrite !ev_br2, !bset_eq. intros He. apply Hrho.
  rewrite <- (asg_agree d0 (bset rho (h_level hd) false) rho), <- (asg_agree d1 (bset rho (h_level hd) true) rho); try done;
    intros l Hl; apply bset_ne; lia.
Qed.

Lemma reach_cons {T} (a : arena T) id h cs c y : ar_nodes a !! id = Some (NT h cs) → c ∈ cs → reach a [c] y → reach a [id] y.
Proof.
  intros Hn Hc. induction 1 as [r Hr|x h' cs' c' _ IH Hx Hc'].
  - apply elem_of_list_singleton in Hr as ->. eapply reach_step; [constructor; by left|done|done].
  - eapply reach_step; [exact IH|done|done].
Qed.

(** a level the value depends on is the level of some node of the diagram *)
Lemma dep_occurs m d : bwf m → ∀ id l, repr (b_ar m) d id → dep d l →
  ∃ y h cs hd, reach (b_ar m) [id] y ∧ ar_nodes (b_ar m) !! y = Some (NT h cs) ∧ ar_headers (b_ar m) !! h = Some hd ∧ h_level hd = l.
Proof.
  intros Hw. induction d as [t|hd ds IH] using dd_ind'; intros id l Hr Hdep.
  { destruct Hdep as [rho H]. by destruct H. }
  destruct (repr_node2 _ _ _ _ (bw_good _ Hw) Hr) as (h & lo & hi & dlo & dhi & -> & Hn & Hh & Hlo & Hhi & Rlo & Rhi).
  destruct (decide (h_level hd = l)) as [El|Nl].
  { exists id, h, [lo; hi], hd. sp; try done. constructor. by left. }
  destruct Hdep as [rho H]. rewrite !ev_br2, !bset_ne in H by done.
  rewrite Forall_forall in IH. destruct (rho (h_level hd)) eqn:E.
  - destruct (IH dhi) with (id := hi) (l := l) as (y & h' & cs' & hd' & Hy & Hny & ?); [set_solver|done|by exists rho|].
    exists y, h', cs', hd'. split; [|done]. eapply reach_cons; [exact Hn| |exact Hy]; set_solver.
  - destruct (IH dlo) with (id := lo) (l := l) as (y & h' & cs' & hd' & Hy & Hny & ?); [set_solver|done|by exists rho|].
    exists y, h', cs', hd'. split; [|done]. eapply reach_cons; [exact Hn| |exact Hy]; set_solver.
Qed.

(** ... and conversely *)
Lemma occurs_dep m d id y h cs hd : bwf m → bdd_levels_distinct m → repr (b_ar m) d id → reach (b_ar m) [id] y →
  ar_nodes (b_ar m) !! y = Some (NT h cs) → ar_headers (b_ar m) !! h = Some hd → dep d (h_level hd).
Proof.
  intros Hw Hd Hr Hy Hn Hh. pose proof (bw_good _ Hw) as Hg.
  assert (Hup : ∃ dy, repr (b_ar m) dy y ∧ ∀ l, dep dy l → dep d l).
  { clear Hn Hh. induction Hy as [r Hin|x h' cs' c _ IH Hx Hc].
    - apply elem_of_list_singleton in Hin as ->. by exists d.
    - destruct IH as (dx & Hdx & Hup). destruct dx as [t|hdx ds].
      { apply repr_leaf in Hdx as [_ Hx']. congruence. }
      destruct (repr_node2 _ _ _ _ Hg Hdx) as (h2 & lo & hi & dlo & dhi & -> & Hnx & _ & Hlo & Hhi & _).
      rewrite Hx in Hnx. injection Hnx as -> ->. pose proof (good_ok _ _ _ Hg Hdx) as O.
      apply elem_of_cons in Hc as [->|Hc].
      + exists dlo. split; [done|]. intros l Hl. apply Hup. by apply (dep_child hdx dlo dhi l false).
      + apply elem_of_list_singleton in Hc as ->.
        exists dhi. split; [done|]. intros l Hl. apply Hup. by apply (dep_child hdx dlo dhi l true). }
  destruct Hup as (dy & Hdy & Hup). apply Hup. destruct dy as [t|hdy ds].
  { apply repr_leaf in Hdy as [_ Hx']. congruence. }
  destruct (repr_node2 _ _ _ _ Hg Hdy) as (h2 & lo & hi & dlo & dhi & -> & Hny & Hh2 & _).
  rewrite Hn in Hny. injection Hny as -> ->. rewrite Hh in Hh2. injection Hh2 as <-. by eapply dep_top.
Qed.

(** ** by name *)
Section named.
Context {B : base}.
Local Notation wok := (@wok B).
Context (w : bmgr) (H : list (nat * nfun)) (Hk : wok w H).
Local Notation hs := (ar_headers (b_ar (w_bdd w))).

Lemma lab_inj l l' x : h_label <$> hs !! l = Some x → h_label <$> hs !! l' = Some x → l = l'.
Proof.
  intros H1 H2. eapply NoDup_lookup; [apply (wk_nodup _ _ Hk)|rewrite list_lookup_fmap; exact H1|by rewrite list_lookup_fmap].
Qed.
Lemma rho_set e x b l : l < length hs →
  rho_of (w_bdd w) (env_set e x b) l = if decide (h_label <$> hs !! l = Some x) then b else rho_of (w_bdd w) e l.
Proof.
  intros Hl. unfold rho_of, lab, env_set. destruct (lookup_lt_is_Some_2 hs l Hl) as [hd Hh]. rewrite Hh. cbn.
  repeat case_decide; try done; congruence.
Qed.
Lemma wok_rank d f : repr (b_ar (w_bdd w)) d f → rank d ≤ length hs.
Proof.
  intros Hd. destruct d as [|hd ds]; cbn; [lia|]. apply repr_br in Hd as [_ (h & cs & _ & Hh & _)].
  rewrite (wk_lvl _ _ Hk _ _ Hh). by apply lookup_lt_Some in Hh.
Qed.
Lemma denotes_ev f F d e : denotes (w_bdd w) f F → repr (b_ar (w_bdd w)) d f → ev (asg (rho_of (w_bdd w) e)) d = tvb (F e).
Proof.
  intros Hf Hd. eapply val_ev; [apply Hk|done|]. by apply (denotes_value w H f F e Hk).
Qed.

Lemma needs_dep f F d x : denotes (w_bdd w) f F → repr (b_ar (w_bdd w)) d f →
  needs F x ↔ ∃ l, h_label <$> hs !! l = Some x ∧ dep d l.
Proof.
  intros Hf Hd. pose proof (good_ok _ _ _ (bw_good _ (wk_wf _ _ Hk)) Hd) as O. pose proof (wok_rank d f Hd) as Hrk.
  assert (Hev : ∀ e rho, (∀ l, l < length hs → rho_of (w_bdd w) e l = rho l) → tvb (F e) = ev (asg rho) d).
  { intros e rho Hr. rewrite <- (denotes_ev f F d e Hf Hd). apply asg_agree; [done|]. intros l Hl. apply Hr. lia. }
  split.
  - intros [e He].
    destruct (decide (x ∈ h_label <$> hs)) as [Hx|Hx].
    + apply elem_of_list_lookup in Hx as [l Hl]. rewrite list_lookup_fmap in Hl. exists l. split; [done|].
      exists (rho_of (w_bdd w) e). intros Heq. apply He.
      assert (Hb : ∀ b k, k < length hs → rho_of (w_bdd w) (env_set e x b) k = bset (rho_of (w_bdd w) e) l b k).
      { intros b k Hk'. rewrite rho_set by done. unfold bset. case_decide as H1; case_decide as H2; try done.
        - destruct H2. by eapply lab_inj.
        - destruct H1. by rewrite H2. }
      pose proof (Hev _ _ (Hb true)) as H1. pose proof (Hev _ _ (Hb false)) as H2. rewrite Heq, <- H2 in H1.
      by destruct (F (env_set e x true)), (F (env_set e x false)).
    + destruct He.
      assert (Hb : ∀ b k, k < length hs → rho_of (w_bdd w) (env_set e x b) k = rho_of (w_bdd w) e k).
      { intros b k Hk'. rewrite rho_set by done. rewrite decide_False; [done|]. intros Hl. apply Hx.
        rewrite <- list_lookup_fmap in Hl. by eapply elem_of_list_lookup_2. }
      pose proof (Hev _ _ (Hb true)) as H1. pose proof (Hev _ _ (Hb false)) as H2. rewrite <- H2 in H1.
      by destruct (F (env_set e x true)), (F (env_set e x false)).
  - intros (l & Hl & rho & Hrho). destruct (env_of_rho w H rho Hk) as [e He]. exists e. intros Heq. apply Hrho.
    assert (Hb : ∀ b k, k < length hs → rho_of (w_bdd w) (env_set e x b) k = bset rho l b k).
    { intros b k Hk'. rewrite rho_set by done. unfold bset. rewrite He by done. case_decide as H1; case_decide as H2; try done.
      - destruct H2. by eapply lab_inj.
      - destruct H1. by rewrite H2. }
    rewrite <- (Hev _ _ (Hb true)), <- (Hev _ _ (Hb false)). by rewrite Heq.
Qed.

Lemma needs_occurs f F x : denotes (w_bdd w) f F → bdd_occurs (w_bdd w) f x ↔ needs F x.
Proof.
  intros Hf. pose proof (wk_wf _ _ Hk) as Hw. destruct (valid_repr _ _ Hw (proj1 Hf)) as [d Hd].
  rewrite (needs_dep f F d x Hf Hd). split.
  - intros (id & h & cs & hd & Hr & Hn & Hh & <-). exists h. rewrite Hh. split; [done|].
    rewrite <- (wk_lvl _ _ Hk _ _ Hh). eapply occurs_dep; [done|by eapply levels_distinct|done| |done|done].
    by apply reaches_reach.
  - intros (l & Hl & Hdep). destruct (dep_occurs _ _ Hw _ _ Hd Hdep) as (y & h & cs & hd & Hy & Hn & Hh & He).
    exists y, h, cs, hd. sp; [by apply reaches_reach|done|done|].
    rewrite (wk_lvl _ _ Hk _ _ Hh) in He. subst h. rewrite Hh in Hl. by injection Hl.
Qed.
End named.

(** ** Answers of the inspecting methods *)
Lemma held_names w H names : bss_held w H → w_varorder w = Some names →
  names = h_label <$> ar_headers (b_ar (w_bdd w)) ∧ bdd_order (w_bdd w) names ∧ NoDup names.
Proof.
  intros Hh Hn. destruct (held_order w H Hh) as (names' & Hn' & Ho & Hnd). rewrite Hn in Hn'. injection Hn' as <-.
  sp; try done. apply held_wok in Hh. rewrite (varorder_ok w H Hh) in Hn. by injection Hn.
Qed.

Lemma held_constants w H f F : bss_held w H → (f, F) ∈ H →
  ∃ z o, w_is_zero w f = Some z ∧ w_is_one w f = Some o ∧ w_is_undet w f = Some false ∧
    (z = true ↔ ∀ e, F e = false) ∧ (o = true ↔ ∀ e, F e = true).
Proof.
  intros Hk%held_wok Hf. pose proof (wk_wf _ _ Hk) as Hw. pose proof (wk_held _ _ Hk _ _ Hf) as Hd.
  destruct (valid_repr _ _ Hw (proj1 Hd)) as [d Hr].
  pose proof (λ e, denotes_ev w H Hk f F d e Hd Hr) as Hev.
  unfold w_is_zero, w_is_one, w_is_undet, w_is.
  destruct d as [t|hd ds].
  - pose proof (proj1 (repr_leaf _ _ _) Hr) as [_ Hn]. rewrite Hn. cbn [mbind option_bind].
    assert (Ht : ∀ e, t = tvb (F e)) by exact Hev.
    eexists _, _. sp; [done|done|f_equal; by rewrite (Ht (λ _, false)); destruct (F _)|..].
    + rewrite bool_decide_eq_true. split; [|intros He; by rewrite (Ht (λ _, false)), He].
      intros -> e. specialize (Ht e). by destruct (F e).
    + rewrite bool_decide_eq_true. split; [|intros He; by rewrite (Ht (λ _, false)), He].
      intros -> e. specialize (Ht e). by destruct (F e).
  - destruct (repr_node2 _ _ _ _ (bw_good _ Hw) Hr) as (h & lo & hi & dlo & dhi & -> & Hn & Hh & _).
    rewrite Hn. cbn [mbind option_bind]. exists false, false.
    assert (Hne : ∃ e e', F e ≠ F e').
    { destruct (proj2 (needs_dep w H Hk f F _ (h_label hd) Hd Hr)) as [e He]; [|by eexists _, _].
      exists h. rewrite Hh. split; [done|]. rewrite <- (wk_lvl _ _ Hk _ _ Hh).
      eapply dep_top; [done|by eapply levels_distinct|done]. }
    destruct Hne as (e & e' & Hne). sp; try done; (split; [done|]); intros He; destruct Hne; by rewrite !He.
Qed.

Lemma held_needs w H f F names x : bss_held w H → (f, F) ∈ H → w_varorder w = Some names → needs F x → x ∈ names.
Proof.
  intros Hh Hf Hn Hx. destruct (held_names w H names Hh Hn) as (-> & _). apply held_wok in Hh as Hk.
  pose proof (wk_held _ _ Hk _ _ Hf) as Hd. destruct (valid_repr _ _ (wk_wf _ _ Hk) (proj1 Hd)) as [d Hr].
  apply (needs_dep w H Hk f F d x Hd Hr) in Hx as (l & Hl & _). rewrite <- list_lookup_fmap in Hl. by eapply elem_of_list_lookup_2.
Qed.

Lemma held_top w H f F names : bss_held w H → (f, F) ∈ H → w_varorder w = Some names →
  (∀ l, w_level w f = Some l ↔ ∃ x, top_var names F l x) ∧
  (∀ x, w_label w f = Some x ↔ ∃ l, top_var names F l x) ∧
  (w_level w f = None ↔ constant F) ∧ (w_label w f = None ↔ constant F) ∧ w_header w f = w_level w f.
Proof.
  intros Hheld Hf Hnames. destruct (held_names w H names Hheld Hnames) as (Enames & _ & Hnd). apply held_wok in Hheld as Hk.
  pose proof (wk_wf _ _ Hk) as Hw. pose proof (wk_held _ _ Hk _ _ Hf) as Hd.
  destruct (valid_repr _ _ Hw (proj1 Hd)) as [d Hr]. pose proof (good_ok _ _ _ (bw_good _ Hw) Hr) as O.
  pose proof (λ x, needs_dep w H Hk f F d x Hd Hr) as Hneed.
  assert (Hnm : ∀ l, names !! l = h_label <$> ar_headers (b_ar (w_bdd w)) !! l) by (intros l; by rewrite Enames, list_lookup_fmap).
  assert (Htop : ∀ l x l' x', top_var names F l x → top_var names F l' x' → l = l' ∧ x = x').
  { intros l x l' x' (N1 & D1 & M1) (N2 & D2 & M2). assert (l = l') as <- by (apply Nat.le_antisymm; eauto).
    split; [done|congruence]. }
  unfold w_level, w_label, w_header. destruct d as [t|hd ds].
  - pose proof (proj1 (repr_leaf _ _ _) Hr) as [_ Hn]. rewrite Hn. cbn [mbind option_bind].
    assert (Hc : constant F).
    { intros e e'. pose proof (denotes_ev w H Hk f F _ e Hd Hr) as H1. pose proof (denotes_ev w H Hk f F _ e' Hd Hr) as H2.
      cbn in H1, H2. rewrite H1 in H2. by destruct (F e), (F e'). }
    assert (Hno : ∀ l x, ¬ top_var names F l x) by (intros l x (_ & [e He] & _); apply He, Hc).
    sp; try done.
    + intros l. split; [done|]. intros [x []%Hno].
    + intros x. split; [done|]. intros [l []%Hno].
  - destruct (repr_node2 _ _ _ _ (bw_good _ Hw) Hr) as (h & lo & hi & dlo & dhi & -> & Hn & Hh & _).
    rewrite Hn. cbn [mbind option_bind]. rewrite Hh. cbn [mbind option_bind]. pose proof (wk_lvl _ _ Hk _ _ Hh) as El. rewrite El.
    assert (Hdt : dep (Br hd [dlo; dhi]) h) by (rewrite <- El; eapply dep_top; [done|by eapply levels_distinct|done]).
    assert (Hx : needs F (h_label hd)) by (apply Hneed; exists h; by rewrite Hh).
    assert (Ht : top_var names F h (h_label hd)).
    { unfold top_var. sp; [by rewrite Hnm, Hh|done|]. intros l' y Hl' Hy. apply Hneed in Hy as (l & Hl & Hdl). rewrite <- Hnm in Hl.
      assert (l = l') as -> by by eapply NoDup_lookup. apply dep_rank in Hdl; [|done]. cbn in Hdl. lia. }
    assert (Hnc : ¬ constant F) by (intros Hc; destruct Hx as [e He]; apply He, Hc).
    sp; try done.
    + intros l. split; [intros [= <-]; by eexists|]. intros [x Hl]. f_equal. by eapply Htop.
    + intros x. split; [intros [= <-]; by eexists|]. intros [l Hl]. f_equal. by eapply Htop.
Qed.

Lemma rank_bdd_below m id d l : bwf m → repr (b_ar m) d id → rank d ≤ l → bdd_below m id l.
Proof.
  intros Hw Hr Hl. unfold bdd_below. rewrite (node_level_eq _ _ _ (bw_good _ Hw) Hr). destruct d; cbn in *; [done|lia].
Qed.
Lemma held_children w H f F : bss_held w H → (f, F) ∈ H →
  (constant F → w_children w f = Some (w, None)) ∧
  ∀ x, w_label w f = Some x → ∃ w' f0 f1, w_children w f = Some (w', Some (f0, f1)) ∧ f0 ≠ f1 ∧
    bss_held w' ((f0, λ e, F (env_set e x false)) :: (f1, λ e, F (env_set e x true)) :: H) ∧
    ∃ h w'', w_header w f = Some h ∧ w_create_node w' h f0 f1 = Some (w'', f).
Proof.
  intros Hheld Hf. destruct (held_order w H Hheld) as (names & Hnames & _). destruct (held_top w H f F names Hheld Hf Hnames) as (_ & Hlab & _ & Hnone & _).
  apply held_wok in Hheld as Hk.
  destruct (w_children_ok w H f F Hk Hf) as [[Hc Hl]|(w' & f0 & f1 & x & Hc & Hl & Hk')].
  { split; [done|]. intros x. by rewrite Hl. }
  split; [intros Hcst%Hnone; congruence|]. intros x' Hl'. rewrite Hl in Hl'. injection Hl' as <-.
  assert (Hheld' : bss_held w' ((f0, λ e, F (env_set e x false)) :: (f1, λ e, F (env_set e x true)) :: H))
    by (eapply sh_step; [done|by eapply st_children]).
  exists w', f0, f1. sp; [done| |done|].
  { intros ->. destruct (proj1 (Hlab x) Hl) as (l & _ & [e He] & _). apply He.
    symmetry. by apply (held_eq w' _ f1 _ f1 _ Hheld' ltac:(by left) ltac:(right; by left)). }
  pose proof (wk_wf _ _ Hk) as Hw. pose proof (wk_held _ _ Hk _ _ Hf) as Hd.
  destruct (valid_repr _ _ Hw (proj1 Hd)) as [d Hr].
  unfold w_children in Hc. unfold w_label in Hl. unfold w_header. destruct d as [t|hd ds].
  { apply repr_leaf in Hr as [_ Hn]. rewrite Hn in Hl. done. }
  destruct (repr_node2 _ _ _ _ (bw_good _ Hw) Hr) as (h & lo & hi & dlo & dhi & -> & Hn & Hh & Hlo & Hhi & Rlo & Rhi).
  rewrite Hn in *. cbn [mbind option_bind edges2] in *. rewrite Hh in Hl. cbn [mbind option_bind] in Hl. injection Hl as Hl.
  injection Hc as <- <- <-. exists h.
  destruct (w_node_ok _ _ Hk' h hd lo (λ e, F (env_set e x false)) hi (λ e, F (env_set e x true))) as (w'' & r & Hr' & _).
  { by left. } { right. by left. } { done. }
  { by eapply (rank_bdd_below (w_bdd w)). } { by eapply (rank_bdd_below (w_bdd w)). }
  exists w''. split; [done|]. rewrite Hr'. do 2 f_equal.
  eapply (st_node _ _ h hd lo (λ e, F (env_set e x false)) hi (λ e, F (env_set e x true))), (sh_step _ _ _ _ Hheld') in Hr';
    [|by left|right; by left|done|by eapply (rank_bdd_below (w_bdd w))|by eapply (rank_bdd_below (w_bdd w))].
  eapply (held_eq w'' _ r _ f F Hr'); [by left|do 3 right; done|]. intros e. cbn. rewrite Hl.
  pose proof (wk_held _ _ Hk _ _ Hf) as Hden.
  assert (Hext : F (env_set e x (e x)) = F e).
  { pose proof (proj2 Hden (env_set e x (e x))) as H1. pose proof (proj2 Hden e) as H2.
    assert (∀ id t, bss_value (w_bdd w) (env_set e x (e x)) id t → bss_value (w_bdd w) e id t) as Hs.
    { clear. induction 1 as [id t Hn|id h lo hi hd t Hn Hh _ IH]; [by constructor|]. eapply sv_node; [done..|].
      unfold env_set in IH. case_decide as E; [by rewrite E|done]. }
    apply Hs in H1. pose proof (sv_fun _ _ _ _ _ H1 H2) as He. by destruct (F _), (F _). }
  destruct (e x); done.
Qed.
