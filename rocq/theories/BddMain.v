(** From the internal invariants to the statements about reachable managers. *)
From Verif Require Import Prelude ComputeCache ComputeCacheProofs Arena Trees ArenaProofs Bdd BddProofs SpecBdd.

Definition asg (rho : nat → bool) : nat → nat := λ l, if rho l then 1 else 0.
Lemma asg_ok rho : vok E2 (asg rho).
Proof. intros l. unfold asg, E2. destruct (rho l); lia. Qed.
Lemma vok_asg ρ : vok E2 ρ → ∀ l, ρ l = asg (λ l, ρ l =? 1) l.
Proof. intros H l. unfold asg. destruct (vok_2 ρ l H) as [-> | ->]; done. Qed.

Lemma ev_ext ρ ρ' d : okdd E2 d → (∀ l, ρ l = ρ' l) → ev ρ d = ev ρ' d.
Proof. intros Ho H. unfold ev. by rewrite (eval_agree E2 ρ ρ' d). Qed.

Lemma value_ev m rho d id t : good (b_ar m) → repr (b_ar m) d id →
  bdd_value m rho id t ↔ ev (asg rho) d = t.
Proof.
  intros Hg Hr. split.
  - intros Hv. revert d Hr. induction Hv as [id t Hn|id h lo hi hd t Hn Hh Hv IH]; intros d Hr.
    + destruct d as [t'|hd ds].
      * apply repr_leaf in Hr as [_ Hn']. unfold ev. cbn. congruence.
      * apply repr_br in Hr as [_ (h & cs & Hn' & _)]. congruence.
    + destruct d as [t'|hd' ds].
      * apply repr_leaf in Hr as [_ Hn']. congruence.
      * destruct (repr_node2 _ _ _ _ Hg Hr) as (h' & lo' & hi' & dlo & dhi & -> & Hn' & Hh' & Hlo & Hhi & _).
        rewrite Hn in Hn'. injection Hn' as <- <- <-. rewrite Hh in Hh'. injection Hh' as <-.
        rewrite ev_br2 by apply asg_ok. unfold asg at 2. destruct (rho (h_level hd)); cbn; by apply IH.
  - revert id t Hr. induction d as [t'|hd ds IH] using dd_ind'; intros id t Hr Hev.
    + apply repr_leaf in Hr as [_ Hn]. constructor. unfold ev in Hev. cbn in Hev. congruence.
    + destruct (repr_node2 _ _ _ _ Hg Hr) as (h & lo & hi & dlo & dhi & -> & Hn & Hh & Hlo & Hhi & _).
      rewrite ev_br2 in Hev by apply asg_ok. rewrite !Forall_cons in IH. destruct IH as (IH0 & IH1 & _).
      eapply bv_node; [done..|]. unfold asg at 2 in Hev. destruct (rho (h_level hd)); cbn [Nat.eqb] in Hev; eauto.
Qed.

Lemma ev_val m rho d id t : good (b_ar m) → repr (b_ar m) d id → ev (asg rho) d = t → bdd_value m rho id t.
Proof. intros Hg Hr. apply (value_ev m rho d id t Hg Hr). Qed.
Lemma val_ev m rho d id t : good (b_ar m) → repr (b_ar m) d id → bdd_value m rho id t → ev (asg rho) d = t.
Proof. intros Hg Hr. apply (value_ev m rho d id t Hg Hr). Qed.

Lemma valid_live m id : bdd_valid m id ↔ live (b_ar m) id.
Proof. done. Qed.

Lemma valid_repr m id : bwf m → bdd_valid m id → ∃ d, repr (b_ar m) d id.
Proof. intros Hw Hv. eapply repr_exists; [apply (gd_wf _ (bw_good _ Hw))|done]. Qed.

Lemma below_rank m id d l : bwf m → repr (b_ar m) d id → bdd_below m id l → rank d ≤ l.
Proof.
  intros Hw Hr Hb. unfold bdd_below in Hb. rewrite (node_level_eq _ _ _ (bw_good _ Hw) Hr) in Hb.
  destruct d; cbn in *; lia.
Qed.

Lemma value_mono m m' rho id t : good (b_ar m) → good (b_ar m') → ext (b_ar m) (b_ar m') →
  bdd_valid m id → bdd_value m rho id t → bdd_value m' rho id t.
Proof.
  intros Hg Hg' He Hv Hval. destruct (repr_exists _ _ _ (gd_wf _ Hg) Hv) as [d Hd].
  eapply ev_val; [done|by eapply repr_mono|]. by eapply (val_ev m).
Qed.

(** ** every operation at the level of trees *)
Lemma not_tree m f df : bwf m → repr (b_ar m) df f →
  ∃ m' r dr, bdd_not m f = Some (m', r) ∧ step m m' ∧ repr (b_ar m') dr r ∧ rank dr ≤ rank df ∧
    ∀ ρ, vok E2 ρ → ev ρ dr = knot (ev ρ df).
Proof.
  intros Hw Hf. destruct (bdd_not_ok m f df Hw Hf) as (m' & r & dr & Heq & Hst & Hr & Hk & Hp).
  exists m', r, dr. sp; try done. cbn in Hk. lia.
Qed.

(** the exact behaviour of each connective, including Undet *)
Definition conn_rel (c : conn) (a b r : tv) : Prop :=
  match c with
  | And => Rand a b r
  | Or => Ror a b r
  | Xor => Rxor a b r
  | Imp => Ror (knot a) b r
  | Nand => Rand a b (knot r)
  | Nor => Ror a b (knot r)
  | Xnor => Rxor a b (knot r)
  end.

Lemma knot_knot a : knot (knot a) = a.
Proof. by destruct a. Qed.

Lemma conn_tree c m f g df dg : bwf m → repr (b_ar m) df f → repr (b_ar m) dg g →
  ∃ m' r dr, bdd_conn c m f g = Some (m', r) ∧ step m m' ∧ repr (b_ar m') dr r ∧
    rank dr ≤ rank df `max` rank dg ∧ P2 (conn_rel c) df dg dr.
Proof.
  intros Hw Hf Hg.
  assert (Hneg : ∀ Rel (o : option (bdd * nat)), opres Rel m df dg o →
    ∃ m' r dr, ('(m, tmp) ← o; bdd_not m tmp) = Some (m', r) ∧ step m m' ∧ repr (b_ar m') dr r ∧
    rank dr ≤ rank df `max` rank dg ∧ P2 (λ a b r, Rel a b (knot r)) df dg dr).
  { intros Rel o (m1 & t & dt & -> & Hst1 & Ht & Hk1 & P1). cbn [mbind option_bind].
    destruct (not_tree m1 t dt) as (m2 & r & dr & Heq & Hst2 & Hr & Hk2 & Hev); [apply Hst1|done|].
    exists m2, r, dr. sp; try done; [by eapply step_trans|lia|].
    intros ρ Hv. rewrite Hev, knot_knot by done. by apply P1. }
  destruct c; cbn [bdd_conn].
  - destruct (bdd_and_ok m f g df dg Hw Hf Hg) as (m' & r & dr & ?). by exists m', r, dr.
  - destruct (bdd_or_ok m f g df dg Hw Hf Hg) as (m' & r & dr & ?). by exists m', r, dr.
  - destruct (bdd_xor_ok m f g df dg Hw Hf Hg) as (m' & r & dr & ?). by exists m', r, dr.
  - unfold bdd_imp. destruct (not_tree m f df Hw Hf) as (m1 & t & dt & -> & Hst1 & Ht & Hk1 & Hev).
    cbn [mbind option_bind]. destruct (bdd_or_ok m1 t g dt dg) as (m' & r & dr & Heq & Hst & Hr & Hk & Hp);
      [apply Hst1|done|eapply repr_mono; [apply Hst1|done]|].
    exists m', r, dr. sp; try done; [by eapply step_trans|lia|].
    intros ρ Hv. cbn. rewrite <- Hev by done. by apply Hp.
  - apply Hneg. by apply bdd_and_ok.
  - apply Hneg. by apply bdd_or_ok.
  - apply Hneg. by apply bdd_xor_ok.
Qed.

Lemma conn_rel_det c x y r : conn_rel c (tvb x) (tvb y) r → r = tvb (conn_bool c x y).
Proof.
  destruct c, x, y, r; cbn; unfold Rand, Ror, Rxor; cbn; intuition congruence.
Qed.

(** ** the invariant holds in every reachable manager *)
Lemma exec_ok m c : bwf m → bdd_legal m c → ∃ m' r, bdd_exec m c = Some (m', r) ∧ bwf m'.
Proof.
  intros Hw. destruct c as [l s|h lo hi|f|c f g|f g h|roots|]; cbn [bdd_exec bdd_legal]; intros Hl.
  - destruct (bdd_create_header m l s) as [m' h] eqn:Hh. exists m', h. split; [done|].
    by eapply create_header_ok.
  - destruct (ar_headers (b_ar m) !! h) as [hd|] eqn:Hh; [|done].
    destruct Hl as [[Vlo Blo] [Vhi Bhi]].
    destruct (valid_repr _ _ Hw Vlo) as [dlo Hlo]. destruct (valid_repr _ _ Hw Vhi) as [dhi Hhi].
    destruct (create_node_spec m h hd lo hi dlo dhi) as (m' & r & dr & Heq & Hst & _); try done.
    { by eapply below_rank. } { by eapply below_rank. }
    exists m', r. split; [by f_equal|apply Hst].
  - destruct (valid_repr _ _ Hw Hl) as [d Hd].
    destruct (not_tree m f d Hw Hd) as (m' & r & dr & Heq & Hst & _). exists m', r. split; [done|apply Hst].
  - destruct Hl as [Vf Vg]. destruct (valid_repr _ _ Hw Vf) as [df Hf]. destruct (valid_repr _ _ Hw Vg) as [dg Hg].
    destruct (conn_tree c m f g df dg Hw Hf Hg) as (m' & r & dr & Heq & Hst & _).
    exists m', r. split; [done|apply Hst].
  - destruct Hl as (Vf & Vg & Vh). destruct (valid_repr _ _ Hw Vf) as [df Hf].
    destruct (valid_repr _ _ Hw Vg) as [dg Hg]. destruct (valid_repr _ _ Hw Vh) as [dh Hh].
    destruct (bdd_ite_ok m f g h df dg dh Hw Hf Hg Hh) as (m' & r & dr & Heq & Hst & _).
    exists m', r. split; [done|apply Hst].
  - destruct (gc_ok m roots Hw) as (m' & n & Heq & Hw' & _).
    { intros r Hr. rewrite Forall_forall in Hl. by apply Hl. }
    by exists m', n.
  - eexists _, _. split; [done|]. by apply clear_cache_ok.
Qed.

Lemma run_ok m cs m' : bwf m → bdd_run m cs = Some m' → bwf m'.
Proof.
  revert m. induction cs as [|c cs IH]; intros m Hw; cbn [bdd_run]; [by intros [= <-]|].
  destruct (decide (bdd_legal m c)) as [Hl|]; [|done].
  destruct (exec_ok m c Hw Hl) as (m1 & r & -> & Hw1). cbn [mbind option_bind]. by apply IH.
Qed.

Lemma reachable_wf m : bdd_reachable m → bwf m.
Proof. intros [cs Hcs]. eapply run_ok; [apply new_ok|done]. Qed.

Lemma run_app m cs c m1 m2 r : bdd_run m cs = Some m1 → bdd_legal m1 c → bdd_exec m1 c = Some (m2, r) →
  bdd_run m (cs ++ [c]) = Some m2.
Proof.
  revert m. induction cs as [|c' cs IH]; intros m; cbn [app bdd_run].
  - intros [= ->] Hl He. rewrite decide_True by done. by rewrite He.
  - destruct (decide (bdd_legal m c')); [|done]. destruct (bdd_exec m c') as [[m' x]|]; [|done].
    cbn [mbind option_bind]. apply IH.
Qed.

Lemma reachable_step m c m' r : bdd_reachable m → bdd_legal m c → bdd_exec m c = Some (m', r) →
  bdd_reachable m'.
Proof. intros [cs Hcs] Hl He. exists (cs ++ [c]). by eapply run_app. Qed.

(** ** Property lemmas *)
Lemma value_total m rho id : bdd_reachable m → bdd_valid m id → ∃ t, bdd_value m rho id t.
Proof.
  intros Hre Hv. pose proof (reachable_wf _ Hre) as Hw. destruct (valid_repr _ _ Hw Hv) as [d Hd].
  exists (ev (asg rho) d). eapply ev_val; [apply Hw|done|done].
Qed.
Lemma value_fun m rho id t t' : bdd_value m rho id t → bdd_value m rho id t' → t = t'.
Proof.
  intros H. revert t'. induction H as [id t Hn|id h lo hi hd t Hn Hh Hv IH]; intros t' H'.
  - destruct H' as [? ? Hn'|]; congruence.
  - destruct H' as [? ? Hn'|? h' lo' hi' hd' ? Hn' Hh' Hv']; [congruence|].
    assert (lo' = lo ∧ hi' = hi ∧ hd' = hd) as (-> & -> & ->) by (rewrite Hn in Hn'; simplify_eq; done).
    by apply IH.
Qed.

Lemma conn_correct_l m c f g : bdd_reachable m → bdd_valid m f → bdd_valid m g →
  ∃ m' r, bdd_conn c m f g = Some (m', r) ∧ bdd_valid m' r ∧
    ∀ rho x y, bdd_value m rho f (tvb x) → bdd_value m rho g (tvb y) →
      bdd_value m' rho r (tvb (conn_bool c x y)).
Proof.
  intros Hre Vf Vg. pose proof (reachable_wf _ Hre) as Hw.
  destruct (valid_repr _ _ Hw Vf) as [df Hf]. destruct (valid_repr _ _ Hw Vg) as [dg Hg].
  destruct (conn_tree c m f g df dg Hw Hf Hg) as (m' & r & dr & Heq & Hst & Hr & _ & Hp).
  exists m', r. split; [done|]. split; [by eapply repr_live|]. intros rho x y Hx Hy.
  eapply val_ev in Hx; [|apply Hw|done]. eapply val_ev in Hy; [|apply Hw|done].
  eapply ev_val; [apply Hst|done|]. eapply conn_rel_det. rewrite <- Hx, <- Hy.
  apply Hp, asg_ok.
Qed.

Lemma and_or_undet_l m f g : bdd_reachable m → bdd_valid m f → bdd_valid m g →
  (∃ m' r, bdd_and m f g = Some (m', r) ∧ ∀ rho a b, bdd_value m rho f a → bdd_value m rho g b →
     bdd_value m' rho r (kand a b) ∨ ((a = TUndet ∨ b = TUndet) ∧ bdd_value m' rho r TUndet)) ∧
  (∃ m' r, bdd_or m f g = Some (m', r) ∧ ∀ rho a b, bdd_value m rho f a → bdd_value m rho g b →
     bdd_value m' rho r (kor a b) ∨ ((a = TUndet ∨ b = TUndet) ∧ bdd_value m' rho r TUndet)).
Proof.
  intros Hre Vf Vg. pose proof (reachable_wf _ Hre) as Hw.
  destruct (valid_repr _ _ Hw Vf) as [df Hf]. destruct (valid_repr _ _ Hw Vg) as [dg Hg].
  split.
  - destruct (bdd_and_ok m f g df dg Hw Hf Hg) as (m' & r & dr & Heq & Hst & Hr & _ & Hp).
    exists m', r. split; [done|]. intros rho a b Ha Hb.
    eapply val_ev in Ha; [|apply Hw|done]. eapply val_ev in Hb; [|apply Hw|done].
    destruct (Hp _ (asg_ok rho)) as [He|[He Hu]]; rewrite Ha, Hb in *.
    + left. by eapply ev_val; [apply Hst|done|].
    + right. split; [done|]. by eapply ev_val; [apply Hst|done|].
  - destruct (bdd_or_ok m f g df dg Hw Hf Hg) as (m' & r & dr & Heq & Hst & Hr & _ & Hp).
    exists m', r. split; [done|]. intros rho a b Ha Hb.
    eapply val_ev in Ha; [|apply Hw|done]. eapply val_ev in Hb; [|apply Hw|done].
    destruct (Hp _ (asg_ok rho)) as [He|[He Hu]]; rewrite Ha, Hb in *.
    + left. by eapply ev_val; [apply Hst|done|].
    + right. split; [done|]. by eapply ev_val; [apply Hst|done|].
Qed.

Lemma not_correct_l m f : bdd_reachable m → bdd_valid m f →
  ∃ m' r, bdd_not m f = Some (m', r) ∧ bdd_valid m' r ∧
    ∀ rho a, bdd_value m rho f a → bdd_value m' rho r (knot a).
Proof.
  intros Hre Vf. pose proof (reachable_wf _ Hre) as Hw.
  destruct (valid_repr _ _ Hw Vf) as [df Hf].
  destruct (not_tree m f df Hw Hf) as (m' & r & dr & Heq & Hst & Hr & _ & Hp).
  exists m', r. split; [done|]. split; [by eapply repr_live|]. intros rho a Ha.
  eapply val_ev in Ha; [|apply Hw|done]. eapply ev_val; [apply Hst|done|].
  rewrite Hp by apply asg_ok. by rewrite Ha.
Qed.

Lemma ite_correct_l m f g h : bdd_reachable m → bdd_valid m f → bdd_valid m g → bdd_valid m h →
  ∃ m' r, bdd_ite m f g h = Some (m', r) ∧ bdd_valid m' r ∧
    ∀ rho a b c, bdd_value m rho f a → bdd_value m rho g b → bdd_value m rho h c →
      match a with
      | TOne => bdd_value m' rho r b
      | TZero => bdd_value m' rho r c
      | TUndet => bdd_value m' rho r TUndet ∨ (b = c ∧ bdd_value m' rho r b)
      end.
Proof.
  intros Hre Vf Vg Vh. pose proof (reachable_wf _ Hre) as Hw.
  destruct (valid_repr _ _ Hw Vf) as [df Hf]. destruct (valid_repr _ _ Hw Vg) as [dg Hg].
  destruct (valid_repr _ _ Hw Vh) as [dh Hh].
  destruct (bdd_ite_ok m f g h df dg dh Hw Hf Hg Hh) as (m' & r & dr & Heq & Hst & Hr & _ & Hp).
  exists m', r. split; [done|]. split; [by eapply repr_live|]. intros rho a b c Ha Hb Hc.
  eapply val_ev in Ha; [|apply Hw|done]. eapply val_ev in Hb; [|apply Hw|done].
  eapply val_ev in Hc; [|apply Hw|done].
  pose proof (Hp _ (asg_ok rho)) as HP. rewrite Ha, Hb, Hc in HP.
  assert (Hval : ∀ t, ev (asg rho) dr = t → bdd_value m' rho r t).
  { intros t Ht. by eapply ev_val; [apply Hst|done|]. }
  destruct a; cbn in HP; auto. destruct HP as [?|[? ?]]; auto.
Qed.

(** canonicity *)
Lemma hdby_exists (a : arena tv) : awf Rb a → NoDup (h_level <$> ar_headers a) →
  ∃ H, ∀ d id, repr a d id → hdby H d.
Proof.
  intros Hwf Hnd.
  exists (λ l, default (Header 0 0 String.EmptyString 0) (list_find (λ hd, h_level hd = l) (ar_headers a) ≫= λ p, Some p.2)).
  induction d as [t|hd ds IH] using dd_ind'; intros id Hr; [done|].
  apply repr_br in Hr as [_ (h & cs & _ & Hh & Hf)]. apply hdby_br. split.
  - destruct (list_find _ _) as [[i hd']|] eqn:Hfd.
    + apply list_find_Some in Hfd as (Hi & Hl & _). cbn.
      assert (i = h) as ->; [|congruence].
      eapply NoDup_lookup; [exact Hnd| |].
      * rewrite list_lookup_fmap, Hi. cbn. by rewrite Hl.
      * rewrite list_lookup_fmap, Hh. done.
    + exfalso. apply list_find_None in Hfd. rewrite Forall_lookup in Hfd. by apply (Hfd _ _ Hh).
  - rewrite Forall_forall in IH. apply Forall_lookup. intros i d Hd.
    destruct (Forall2_lookup_l _ _ _ _ _ Hf Hd) as (c & Hc & Hrc).
    eapply IH; [by eapply elem_of_list_lookup_2|done].
Qed.

Lemma repr_redd a d id : good a → repr a d id → redd d.
Proof.
  intros Hg. pose proof (gd_wf _ Hg) as Hwf. revert id.
  induction d as [t|hd ds IH] using dd_ind'; intros id Hr; [done|].
  pose proof Hr as [Hl (h & cs & Hn & Hh & Hf)]%repr_br. apply redd_br. split.
  - intros [c Hc]. destruct (aw_nt _ _ Hwf _ _ _ Hl Hn) as (hd' & _ & _ & HR & _). apply HR.
    destruct ds as [|d0 ds].
    { inversion Hf; subst. by exists 0. }
    inversion Hf as [|? c0 ? cs' Hc0 Hf']; subst. exists c0. apply Forall_lookup. intros i c' Hc'.
    destruct (Forall2_lookup_r _ _ _ _ _ Hf Hc') as (d' & Hd' & Hr').
    rewrite Forall_lookup in Hc. rewrite <- (Hc _ _ Hd') in Hr'.
    assert (c = d0) as -> by by apply (Hc 0). by eapply repr_inj.
  - rewrite Forall_forall in IH. apply Forall_lookup. intros i d Hd.
    destruct (Forall2_lookup_l _ _ _ _ _ Hf Hd) as (c & Hc & Hrc).
    eapply IH; [by eapply elem_of_list_lookup_2|done].
Qed.

Lemma canon_tree m d1 d2 i j : bwf m → bdd_levels_distinct m →
  repr (b_ar m) d1 i → repr (b_ar m) d2 j →
  (∀ ρ, vok E2 ρ → ev ρ d1 = ev ρ d2) → d1 = d2.
Proof.
  intros Hw Hd H1 H2 Heq. pose proof (bw_good _ Hw) as Hg.
  destruct (hdby_exists (b_ar m) (gd_wf _ Hg) Hd) as [H Hhd].
  pose proof (good_ok _ _ _ Hg H1) as O1. pose proof (good_ok _ _ _ Hg H2) as O2.
  eapply (canon E2 H); eauto using repr_redd.
  - unfold E2. lia.
  - intros ρ Hv. specialize (Heq ρ Hv). unfold ev in Heq.
    destruct (eval_total E2 ρ d1 O1 Hv) as [t1 Ht1]. destruct (eval_total E2 ρ d2 O2 Hv) as [t2 Ht2].
    rewrite Ht1, Ht2 in *. cbn in Heq. congruence.
Qed.

Lemma canonical_wf m f g : bwf m → bdd_levels_distinct m → bdd_valid m f → bdd_valid m g →
  (∀ rho t, bdd_value m rho f t → bdd_value m rho g t) → f = g.
Proof.
  intros Hw Hd Vf Vg Heq.
  destruct (valid_repr _ _ Hw Vf) as [df Hf]. destruct (valid_repr _ _ Hw Vg) as [dg Hg].
  assert (df = dg) as <-.
  { eapply canon_tree; try done. intros ρ Hv.
    rewrite (ev_ext ρ (asg (λ l, ρ l =? 1)) df), (ev_ext ρ (asg (λ l, ρ l =? 1)) dg)
      by (try (by eapply good_ok; [apply Hw|]); by apply vok_asg).
    symmetry. eapply val_ev; [apply Hw|done|]. apply Heq. by eapply ev_val; [apply Hw|done|]. }
  eapply repr_inj; [apply (gd_wf _ (bw_good _ Hw))|done|done].
Qed.

Lemma canonical_l m f g : bdd_reachable m → bdd_levels_distinct m → bdd_valid m f → bdd_valid m g →
  (f = g ↔ ∀ rho t, bdd_value m rho f t ↔ bdd_value m rho g t).
Proof.
  intros Hre Hd Vf Vg. split; [by intros ->|]. intros H. eapply canonical_wf; eauto using reachable_wf.
  intros rho t. apply H.
Qed.

(** totality and frame *)
Lemma exec_frame m c : bwf m → bdd_legal m c → (∀ roots, c ≠ CGc roots) →
  ∃ m' r, bdd_exec m c = Some (m', r) ∧ bwf m' ∧ ext (b_ar m) (b_ar m').
Proof.
  intros Hw Hl Hng. destruct c as [l s|h lo hi|f|c f g|f g h|roots|]; cbn [bdd_exec bdd_legal] in *.
  - destruct (bdd_create_header m l s) as [m' h] eqn:Hh. exists m', h.
    destruct (create_header_ok _ _ _ _ _ Hw Hh) as (? & ? & _). done.
  - destruct (ar_headers (b_ar m) !! h) as [hd|] eqn:Hh; [|done].
    destruct Hl as [[Vlo Blo] [Vhi Bhi]].
    destruct (valid_repr _ _ Hw Vlo) as [dlo Hlo]. destruct (valid_repr _ _ Hw Vhi) as [dhi Hhi].
    destruct (create_node_spec m h hd lo hi dlo dhi) as (m' & r & dr & Heq & (? & ? & _) & _); try done.
    { by eapply below_rank. } { by eapply below_rank. }
    exists m', r. rewrite Heq. done.
  - destruct (valid_repr _ _ Hw Hl) as [d Hd].
    destruct (not_tree m f d Hw Hd) as (m' & r & dr & Heq & (? & ? & _) & _). by exists m', r.
  - destruct Hl as [Vf Vg]. destruct (valid_repr _ _ Hw Vf) as [df Hf]. destruct (valid_repr _ _ Hw Vg) as [dg Hg].
    destruct (conn_tree c m f g df dg Hw Hf Hg) as (m' & r & dr & Heq & (? & ? & _) & _).
    by exists m', r.
  - destruct Hl as (Vf & Vg & Vh). destruct (valid_repr _ _ Hw Vf) as [df Hf].
    destruct (valid_repr _ _ Hw Vg) as [dg Hg]. destruct (valid_repr _ _ Hw Vh) as [dh Hh].
    destruct (bdd_ite_ok m f g h df dg dh Hw Hf Hg Hh) as (m' & r & dr & Heq & (? & ? & _) & _).
    by exists m', r.
  - by destruct (Hng roots).
  - eexists _, _. split; [done|]. split; [by apply clear_cache_ok|apply ext_refl].
Qed.

Lemma frame_l m c : bdd_reachable m → bdd_legal m c → (∀ roots, c ≠ CGc roots) →
  ∃ m' r, bdd_exec m c = Some (m', r) ∧
    (∀ id, bdd_valid m id → bdd_valid m' id ∧
       ∀ rho t, bdd_value m rho id t ↔ bdd_value m' rho id t).
Proof.
  intros Hre Hl Hng. pose proof (reachable_wf _ Hre) as Hw.
  destruct (exec_frame m c Hw Hl Hng) as (m' & r & Heq & Hw' & He).
  exists m', r. split; [done|]. intros id Hv. split; [by eapply ext_live|].
  destruct (valid_repr _ _ Hw Hv) as [d Hd]. intros rho t.
  rewrite (value_ev m rho d id t (bw_good _ Hw) Hd).
  rewrite (value_ev m' rho d id t (bw_good _ Hw')); [done|]. by eapply repr_mono.
Qed.

(** gc *)
Lemma reaches_reach m roots id : bdd_reaches m roots id ↔ reach (b_ar m) roots id.
Proof. split; induction 1; [by constructor|by econstructor|by constructor|by econstructor]. Qed.

Lemma free_count {T} R (a : arena T) l : awf R a → NoDup l → (∀ id, id ∈ l ↔ live a id) →
  length l + length (ar_free a) = length (ar_nodes a).
Proof.
  intros Hwf Hnd Hl. rewrite <- app_length. rewrite <- (seq_length (length (ar_nodes a)) 0).
  apply Permutation_length, NoDup_Permutation.
  - apply NoDup_app. split; [done|]. split; [|apply Hwf]. intros x Hx. by apply Hl in Hx as [_ ?].
  - apply NoDup_seq.
  - intros x. rewrite elem_of_app, elem_of_seq, Hl. cbn. split.
    + intros [[? _]|Hin]; [lia|]. apply (aw_free_lt _ _ Hwf) in Hin. lia.
    + intros [_ Hx]. destruct (decide (x ∈ ar_free a)); [by right|left]. by split.
Qed.

Lemma gc_exact_l m roots : bdd_reachable m → Forall (bdd_valid m) roots →
  ∃ m' n, bdd_gc m roots = Some (m', n) ∧
    (∀ id, bdd_valid m' id ↔ id ∈ [bdd_zero; bdd_one; bdd_undet] ∨ bdd_reaches m roots id) ∧
    (∀ id rho t, bdd_valid m' id → bdd_value m' rho id t ↔ bdd_value m rho id t) ∧
    (∀ l, NoDup l → (∀ id, id ∈ l ↔ bdd_valid m' id) →
       bdd_live_node_count m' = length l ∧ n + length l = length (ar_nodes (b_ar m))).
Proof.
  intros Hre Hroots. pose proof (reachable_wf _ Hre) as Hw. rewrite Forall_forall in Hroots.
  destruct (gc_ok m roots Hw) as (m' & n & Heq & Hw' & Hhd & Hns & Hl & Hsub & Hn).
  { intros r Hr. by apply Hroots. }
  exists m', n. split; [done|]. sp.
  - intros id. rewrite reaches_reach. apply Hl.
  - intros id rho t Hv. destruct (valid_repr _ _ Hw' Hv) as [d Hd].
    rewrite (value_ev m' rho d id t (bw_good _ Hw') Hd).
    rewrite (value_ev m rho d id t (bw_good _ Hw)); [done|].
    eapply repr_gc_inv; [done..|exact Hd].
  - intros l Hnd Hin. unfold bdd_live_node_count, ar_live_count. rewrite <- Hns.
    pose proof (free_count Rb (b_ar m') l (gd_wf _ (bw_good _ Hw')) Hnd Hin). lia.
Qed.

(** held handles *)
Lemma held_ok m H : bdd_held m H →
  bwf m ∧ ∀ f F, (f, F) ∈ H → bdd_valid m f ∧ ∀ rho, bdd_value m rho f (tvb (F rho)).
Proof.
  assert (Hext : ∀ m m' (H : list (nat * bfun)), bwf m → bwf m' → ext (b_ar m) (b_ar m') →
    (∀ f F, (f, F) ∈ H → bdd_valid m f ∧ ∀ rho, bdd_value m rho f (tvb (F rho))) →
    ∀ f F, (f, F) ∈ H → bdd_valid m' f ∧ ∀ rho, bdd_value m' rho f (tvb (F rho))).
  { intros m1 m2 H1 Hw1 Hw2 He Hold f F Hin. destruct (Hold _ _ Hin) as [Hv Hval].
    split; [by eapply ext_live|]. intros rho. eapply value_mono; [apply Hw1|apply Hw2|done..]. }
  assert (Hcons : ∀ m r F (H : list (nat * bfun)), bdd_valid m r → (∀ rho, bdd_value m rho r (tvb (F rho))) →
    (∀ f F, (f, F) ∈ H → bdd_valid m f ∧ ∀ rho, bdd_value m rho f (tvb (F rho))) →
    ∀ f F', (f, F') ∈ (r, F) :: H → bdd_valid m f ∧ ∀ rho, bdd_value m rho f (tvb (F' rho))).
  { intros m1 r F H1 Hv Hval Hold f F' [[= -> ->]|Hin]%elem_of_cons; auto. }
  induction 1 as [|m H _ [Hw IH]|m H _ [Hw IH]|m H l s m' h _ [Hw IH] Heq
    |m H h hd f g F G m' r _ [Hw IH] Hf Hg Hh Bf Bg Heq|m H f F m' r _ [Hw IH] Hf Heq
    |c m H f g F G m' r _ [Hw IH] Hf Hg Heq|m H f g h F G K m' r _ [Hw IH] Hf Hg Hh Heq
    |m H _ [Hw IH]|m H roots H' m' n _ [Hw IH] Hroots Heq Hsub].
  - split; [apply new_ok|]. intros f F Hin. by apply elem_of_nil in Hin.
  - split; [done|]. apply Hcons; [|intros rho; constructor|done]; apply (gd_zero _ (bw_good _ Hw)).
  - split; [done|]. apply Hcons; [|intros rho; constructor|done]; apply (gd_one _ (bw_good _ Hw)).
  - destruct (create_header_ok _ _ _ _ _ Hw Heq) as (Hw' & He & _). split; [done|]. by eapply (Hext m).
  - destruct (IH _ _ Hf) as [Vf Ff]. destruct (IH _ _ Hg) as [Vg Fg].
    destruct (valid_repr _ _ Hw Vf) as [df Df]. destruct (valid_repr _ _ Hw Vg) as [dg Dg].
    destruct (create_node_sem m h hd f g df dg) as (m2 & r2 & dr & Heq2 & (Hw' & He & _) & Hr & _ & Hev);
      try done; [by eapply below_rank|by eapply below_rank|].
    rewrite Heq in Heq2. injection Heq2 as <- <-. split; [done|].
    apply Hcons; [by eapply repr_live| |by eapply (Hext m)].
    intros rho. eapply ev_val; [apply Hw'|done|]. rewrite Hev by apply asg_ok.
    unfold asg at 2. destruct (rho (h_level hd)); cbn; (eapply val_ev; [apply Hw|done|]); auto.
  - destruct (IH _ _ Hf) as [Vf Ff]. destruct (valid_repr _ _ Hw Vf) as [df Df].
    destruct (not_tree m f df Hw Df) as (m2 & r2 & dr & Heq2 & (Hw' & He & _) & Hr & _ & Hev).
    rewrite Heq in Heq2. injection Heq2 as <- <-. split; [done|].
    apply Hcons; [by eapply repr_live| |by eapply (Hext m)].
    intros rho. eapply ev_val; [apply Hw'|done|]. rewrite Hev by apply asg_ok.
    specialize (Ff rho). eapply val_ev in Ff; [|apply Hw|done]. rewrite Ff. by destruct (F rho).
  - destruct (IH _ _ Hf) as [Vf Ff]. destruct (IH _ _ Hg) as [Vg Fg].
    destruct (valid_repr _ _ Hw Vf) as [df Df]. destruct (valid_repr _ _ Hw Vg) as [dg Dg].
    destruct (conn_tree c m f g df dg Hw Df Dg) as (m2 & r2 & dr & Heq2 & (Hw' & He & _) & Hr & _ & Hp).
    rewrite Heq in Heq2. injection Heq2 as <- <-. split; [done|].
    apply Hcons; [by eapply repr_live| |by eapply (Hext m)].
    intros rho. eapply ev_val; [apply Hw'|done|]. apply conn_rel_det.
    specialize (Ff rho). eapply val_ev in Ff; [|apply Hw|done].
    specialize (Fg rho). eapply val_ev in Fg; [|apply Hw|done].
    rewrite <- Ff, <- Fg. apply Hp, asg_ok.
  - destruct (IH _ _ Hf) as [Vf Ff]. destruct (IH _ _ Hg) as [Vg Fg]. destruct (IH _ _ Hh) as [Vh Fh].
    destruct (valid_repr _ _ Hw Vf) as [df Df]. destruct (valid_repr _ _ Hw Vg) as [dg Dg].
    destruct (valid_repr _ _ Hw Vh) as [dh Dh].
    destruct (bdd_ite_ok m f g h df dg dh Hw Df Dg Dh) as (m2 & r2 & dr & Heq2 & (Hw' & He & _) & Hr & _ & Hp).
    rewrite Heq in Heq2. injection Heq2 as <- <-. split; [done|].
    apply Hcons; [by eapply repr_live| |by eapply (Hext m)].
    intros rho. eapply ev_val; [apply Hw'|done|].
    specialize (Ff rho). eapply val_ev in Ff; [|apply Hw|done].
    specialize (Fg rho). eapply val_ev in Fg; [|apply Hw|done].
    specialize (Fh rho). eapply val_ev in Fh; [|apply Hw|done].
    pose proof (Hp _ (asg_ok rho)) as HP. rewrite Ff, Fg, Fh in HP.
    unfold Rite in HP. destruct (F rho); done.
  - split; [by apply clear_cache_ok|]. eapply (Hext m); [done|by apply clear_cache_ok|apply ext_refl|done].
  - rewrite Forall_forall in Hroots.
    destruct (gc_ok m roots Hw) as (m2 & n2 & Heq2 & Hw' & Hhd & Hns & Hl & Hsb & _).
    { intros r Hr. by apply Hroots. }
    rewrite Heq in Heq2. injection Heq2 as <- <-. split; [done|]. intros f F Hin.
    destruct (Hsub _ Hin) as [Hold Hre]. destruct (IH _ _ Hold) as [Vf Ff].
    assert (live (b_ar m') f) as Hlf. { apply Hl. right. by apply reaches_reach. }
    split; [done|]. intros rho. destruct (valid_repr _ _ Hw Vf) as [df Df].
    eapply ev_val; [apply Hw'| |eapply val_ev; [apply Hw|exact Df|apply Ff]].
    eapply repr_gc; [apply (gd_wf _ (bw_good _ Hw'))|done..].
Qed.

Lemma held_canonical m H : bdd_held m H → bdd_levels_distinct m →
  ∀ f F g G, (f, F) ∈ H → (g, G) ∈ H → (∀ rho, F rho = G rho) → f = g.
Proof.
  intros Hh Hd f F g G Hf Hg Heq. destruct (held_ok _ _ Hh) as [Hw IH].
  destruct (IH _ _ Hf) as [Vf Ff]. destruct (IH _ _ Hg) as [Vg Fg].
  eapply canonical_wf; try done. intros rho t Ht.
  rewrite (value_fun _ _ _ _ _ Ht (Ff rho)), Heq. apply Fg.
Qed.

Lemma reach_nodes {T} (a a' : arena T) roots id : ar_nodes a = ar_nodes a' → reach a roots id → reach a' roots id.
Proof.
  intros He. induction 1 as [r Hr|id h cs c _ IH Hn Hc]; [by constructor|].
  eapply reach_step; [exact IH| |exact Hc]. rewrite <- He. exact Hn.
Qed.

Lemma gc_again_l m roots m' n : bdd_reachable m → Forall (bdd_valid m) roots →
  bdd_gc m roots = Some (m', n) →
  ∃ m'', bdd_gc m' roots = Some (m'', n) ∧ ∀ id, bdd_valid m'' id ↔ bdd_valid m' id.
Proof.
  intros Hre Hroots Heq. pose proof (reachable_wf _ Hre) as Hw.
  assert (Hr : ∀ r, r ∈ roots → live (b_ar m) r) by by apply Forall_forall.
  destruct (gc_ok m roots Hw Hr) as (m1 & n1 & Heq1 & Hw' & Hhd & Hns & Hl & Hsub & Hn).
  rewrite Heq in Heq1. injection Heq1 as <- <-.
  assert (Hr' : ∀ r, r ∈ roots → live (b_ar m') r). { intros r Hin. apply Hl. right. by constructor. }
  destruct (gc_ok m' roots Hw' Hr') as (m2 & n2 & Heq2 & Hw2 & Hhd2 & Hns2 & Hl2 & Hsub2 & Hn2).
  assert (Hrr : ∀ id, reach (b_ar m') roots id ↔ reach (b_ar m) roots id).
  { intros id. split; by apply reach_nodes. }
  assert (Hll : ∀ id, live (b_ar m2) id ↔ live (b_ar m') id).
  { intros id. rewrite Hl2, Hl. by rewrite Hrr. }
  exists m2. split; [|done]. rewrite Heq2. f_equal. f_equal.
  set (l := filter (λ id, bdd_valid m' id) (seq 0 (length (ar_nodes (b_ar m'))))).
  assert (Hnd : NoDup l) by apply NoDup_filter, NoDup_seq.
  assert (Hin : ∀ id, id ∈ l ↔ live (b_ar m') id).
  { intros id. unfold l. rewrite elem_of_list_filter, elem_of_seq. unfold bdd_valid, live. split; [by intros [? _]|]. intros [? ?]. split; [done|lia]. }
  pose proof (free_count Rb (b_ar m') l (gd_wf _ (bw_good _ Hw')) Hnd Hin).
  pose proof (free_count Rb (b_ar m2) l (gd_wf _ (bw_good _ Hw2)) Hnd).
  assert (∀ id, id ∈ l ↔ live (b_ar m2) id) as Hin2 by (intros id; by rewrite Hin, Hll).
  specialize (H0 Hin2). rewrite Hns2 in H0. lia.
Qed.
