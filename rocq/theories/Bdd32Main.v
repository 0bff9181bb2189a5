(** Whole histories of the narrowed manager. *)
From Verif Require Import Prelude ComputeCache ComputeCacheProofs Arena ArenaProofs Bdd SpecBdd BddProofs BddMain Bdd32 SpecBdd32 Bdd32Proofs.

Notation btwo w := (two blen bhd bfit (cap w)).
Notation bmo := (mo blen bhd).

(** all slots, including free ones, hold ids in range *)
Definition slots_fit (m : bdd) : Prop := ∀ id h cs, ar_nodes (b_ar m) !! id = Some (NT h cs) →
  h < length (ar_headers (b_ar m)) ∧ Forall (λ c, c < length (ar_nodes (b_ar m))) cs.
Lemma fit_of m : bwf m → slots_fit m → bfit m.
Proof.
  intros [Hg Hc Hi Hco Hio] Hs. unfold bfit, afit, cfit. sp; try done.
  - intros [h cs] id Hu. apply (aw_ut _ _ (gd_wf _ Hg)) in Hu as [[? _] _]. done.
  - apply (aw_free_lt _ _ (gd_wf _ Hg)).
  - intros k v Hv. destruct (Hco _ _ Hv) as (? & ? & ? & _ & _ & Hr & _). by apply repr_live in Hr as [? _].
  - intros k v Hv. destruct (Hio _ _ Hv) as (? & ? & ? & ? & _ & _ & _ & Hr & _). by apply repr_live in Hr as [? _].
  - pose proof (gd_undet _ Hg) as Hu. apply repr_live in Hu as [Hu _]. exact Hu.
Qed.
Lemma fit_slots m : bfit m → slots_fit m.
Proof. by intros [[? _] _]. Qed.
Lemma new_fit : bfit bdd_new.
Proof. apply fit_of; [apply new_ok|]. intros [|[|[|id]]] h cs H; cbn in H; [done|done|done|]. by destruct id. Qed.

Lemma two_seq w m (x y : option (bdd * nat)) (k k' : bdd → nat → option (bdd * nat)) :
  bhd m ≤ cap w → btwo w m x y →
  (∀ m1 r, bfit m1 → le blen bhd m m1 → bhd m1 ≤ cap w → r < blen m1 → btwo w m1 (k m1 r) (k' m1 r)) →
  (∀ m1 r, bmo m1 (k' m1 r)) →
  btwo w m ('(m, tmp) ← x; k m tmp) ('(m, tmp) ← y; k' m tmp).
Proof. intros HW H Hk Hm. apply two_bind; [done| |done]. intros m1 r F L R. apply Hk; try done. by eapply le_hd. Qed.
Lemma not_two' w m f : bfit m → f < blen m → bhd m ≤ cap w → btwo w m (bdd_not m f) (n_not w m f).
Proof. apply not_two. Qed.
Lemma conn_two w c m f g : bfit m → f < blen m → g < blen m → bhd m ≤ cap w →
  btwo w m (bdd_conn c m f g) (n_conn w c m f g).
Proof.
  intros Hm Hf Hg HW. destruct c; cbn [bdd_conn n_conn].
  - by apply and_two. - by apply or_two. - by apply xor_two.
  - apply two_seq; [done|by apply not_two| |intros; apply or_mo].
    intros m1 r F L H R. apply or_two; try done. by eapply le_len.
  - apply two_seq; [done|by apply and_two| |intros; apply not_mo]. intros m1 r F L H R. by apply not_two.
  - apply two_seq; [done|by apply or_two| |intros; apply not_mo]. intros m1 r F L H R. by apply not_two.
  - apply two_seq; [done|by apply xor_two| |intros; apply not_mo]. intros m1 r F L H R. by apply not_two.
Qed.
Lemma conn_mo w c m f g : bmo m (n_conn w c m f g).
Proof.
  destruct c; cbn [n_conn]; try apply and_mo; try apply or_mo; try apply xor_mo;
    (apply mo_bind; [first [apply and_mo|apply or_mo|apply xor_mo|apply not_mo]|intros; first [apply not_mo|apply or_mo]]).
Qed.

Lemma gc_shape m roots m1 k : bdd_gc m roots = Some (m1, k) →
  ar_nodes (b_ar m1) = ar_nodes (b_ar m) ∧ ar_headers (b_ar m1) = ar_headers (b_ar m).
Proof.
  unfold bdd_gc, ar_gc. intros H.
  destruct (ar_mark _ _ _ _) as [lv|]; [|done]. cbn [mbind option_bind] in H.
  destruct (ar_retain _ _) as [ut|]; [|done]. cbn [mbind option_bind] in H.
  destruct (cc_retain_live _ _) as [c|]; [|done]. cbn [mbind option_bind] in H.
  destruct (cc_retain_live3 _ _) as [i|]; [|done]. cbn [mbind option_bind] in H. injection H as <- _. done.
Qed.

(** one call *)
Definition grows (m m1 : bdd) : Prop := blen m ≤ blen m1 ∧ bhd m ≤ bhd m1.
Lemma of_le m m1 : le blen bhd m m1 → grows m m1.
Proof. intros []. split; lia. Qed.
Lemma n_exec_grows w m c m1 r : n_exec w m c = Some (m1, r) → grows m m1.
Proof.
  destruct c as [l s|h lo hi|f|c f g|f g h|roots|]; cbn [n_exec]; intros H.
  - injection H as <- _. unfold grows, blen, bhd. cbn. rewrite app_length. cbn. lia.
  - apply of_le. by eapply create_mo.
  - apply of_le. by eapply not_mo.
  - apply of_le. by eapply conn_mo.
  - apply of_le. by eapply ite_mo.
  - unfold n_gc in H. destruct (bdd_gc m roots) as [[m2 k]|] eqn:E; [|done]. cbn in H. injection H as <- _.
    apply gc_shape in E as [E1 E2]. unfold grows, blen, bhd. cbn. rewrite E1, E2. done.
  - injection H as <- _. done.
Qed.
Lemma exec_two w m c m1 r : bwf m → bfit m → bdd_legal m c → bhd m ≤ cap w → bdd_exec m c = Some (m1, r) →
  bfit m1 ∧ grows m m1 ∧ (blen m1 ≤ cap w → n_exec w m c = Some (m1, r)) ∧
  (cap w < blen m1 → ∀ m2 r2, n_exec w m c = Some (m2, r2) → cap w < blen m2).
Proof.
  intros Hw Hm Hl HW He.
  assert (∀ x y, bdd_exec m c = x → n_exec w m c = y → btwo w m x y → bfit m1 ∧ grows m m1 ∧ (blen m1 ≤ cap w → n_exec w m c = Some (m1, r)) ∧
    (cap w < blen m1 → ∀ m2 r2, n_exec w m c = Some (m2, r2) → cap w < blen m2)) as Hgen.
  { intros x y Hx Hy [Tf Ts Tb]. rewrite He in Hx. subst x. destruct (Tf _ _ eq_refl) as (F & L & _).
    rewrite Hy. sp; [done|by apply of_le| |].
    - intros H. by apply (Ts (m1, r)).
    - intros H m2 r2 H2. by apply (Tb (m1, r) eq_refl H (m2, r2)). }
  destruct (exec_ok m c Hw Hl) as (m1' & r' & He' & Hw'). rewrite He in He'. injection He' as <- <-.
  destruct c as [l s|h lo hi|f|c f g|f g h|roots|].
  - cbn [bdd_exec n_exec] in *. assert (m1 = (bdd_create_header m l s).1) as Em by (injection He as E0 _; by rewrite <- E0).
    assert (blen m1 = blen m) as E1 by (by rewrite Em).
    assert (grows m m1) as G. { rewrite Em. unfold grows, blen, bhd. cbn. rewrite app_length. cbn. lia. }
    sp; try done.
    + apply fit_of; [done|]. intros id h cs Hid.
      assert (ar_nodes (b_ar m1) = ar_nodes (b_ar m)) as En by (by rewrite Em). rewrite En in *.
      destruct (fit_slots m Hm _ _ _ Hid) as [Hh Hc]. split; [|done]. destruct G as [_ G]. unfold bhd in G. lia.
    + intros Hc m2 r2 H2. rewrite He in H2. injection H2 as <- <-. done.
  - apply (Hgen _ _ eq_refl eq_refl). cbn [bdd_exec n_exec]. cbn in Hl.
    destruct (ar_headers (b_ar m) !! h) as [hd|] eqn:Hh; [|done]. destruct Hl as [[[Vl _] _] [[Vh _] _]].
    apply create_two; try done. by eapply lookup_lt_Some.
  - apply (Hgen _ _ eq_refl eq_refl). destruct Hl as [V _]. by apply not_two.
  - apply (Hgen _ _ eq_refl eq_refl). destruct Hl as [[V _] [V2 _]]. by apply conn_two.
  - apply (Hgen _ _ eq_refl eq_refl). destruct Hl as ([V _] & [V2 _] & [V3 _]). by apply ite_two.
  - cbn [bdd_exec n_exec] in *. pose proof (gc_shape _ _ _ _ He) as [E1 E2].
    assert (bfit m1) as F1. { apply fit_of; [done|]. intros id h cs. rewrite E1, E2. apply fit_slots; done. }
    sp; [done|unfold grows, blen, bhd; by rewrite E1, E2| |].
    + intros Hc. unfold n_gc. rewrite He. cbn. f_equal. f_equal.
      destruct m1 as [[hs ns ut fr] c i]. unfold with_ar, n_free. cbn. f_equal. f_equal. apply narrow_map.
      destruct F1 as [(_ & _ & Hfr) _]. apply Forall_forall. intros id Hid. specialize (Hfr id Hid). unfold blen, cap in *. cbn in *. lia.
    + intros Hc m2 r2. unfold n_gc. rewrite He. cbn. intros [= <- <-]. done.
  - cbn [bdd_exec n_exec] in *. injection He as <- <-. sp; try done.
    + apply fit_of; [done|]. exact (fit_slots m Hm).
    + intros Hc m2 r2 [= <- <-]. done.
Qed.

Lemma grows_trans a b c : grows a b → grows b c → grows a c.
Proof. unfold grows. lia. Qed.
Lemma n_log_grows w cs : ∀ m rs m', bdd_log (n_exec w) m cs = Some (rs, m') → grows m m'.
Proof.
  induction cs as [|c cs IH]; intros m rs m'; cbn [bdd_log]; [by intros [= <- <-]|]. case_decide; [|done].
  destruct (n_exec w m c) as [[m1 r]|] eqn:E; [|done]. cbn [mbind option_bind]. apply n_exec_grows in E.
  destruct (bdd_log _ m1 cs) as [[rs1 m2]|] eqn:E2; [|done]. intros [= <- <-]. apply IH in E2. by eapply grows_trans.
Qed.
Lemma b_log_grows cs : ∀ m rs m', bwf m → bfit m → bdd_log bdd_exec m cs = Some (rs, m') → grows m m'.
Proof.
  induction cs as [|c cs IH]; intros m rs m' Hw Hm; cbn [bdd_log]; [by intros [= <- <-]|]. case_decide as Hl; [|done].
  destruct (exec_ok m c Hw Hl) as (m1 & r & E & Hw1). rewrite E. cbn [mbind option_bind].
  (* any width large enough will do *)
  destruct (exec_two (N.of_nat (bhd m)) m c m1 r Hw Hm Hl) as (F & G & _); [|done|].
  { unfold cap. rewrite Nat2N.id. pose proof (Nat.pow_gt_lin_r 2 (bhd m)). lia. }
  destruct (bdd_log _ m1 cs) as [[rs1 m2]|] eqn:E2; [|done]. intros [= <- <-]. apply IH in E2; [|done|done]. by eapply grows_trans.
Qed.
Lemma log_same w cs : ∀ m rs m', bwf m → bfit m → blen m' ≤ cap w → bhd m' ≤ cap w →
  bdd_log (n_exec w) m cs = Some (rs, m') ↔ bdd_log bdd_exec m cs = Some (rs, m').
Proof.
  induction cs as [|c cs IH]; intros m rs m' Hw Hm Hn Hh; [done|]. cbn [bdd_log]. case_decide as Hl; [|done].
  destruct (exec_ok m c Hw Hl) as (m1 & r & E & Hw1). rewrite E. cbn [mbind option_bind]. split; intros H.
  - destruct (n_exec w m c) as [[m2 r2]|] eqn:E2; [|done]. cbn [mbind option_bind] in H.
    destruct (bdd_log _ m2 cs) as [[rs1 m3]|] eqn:E3; [|done]. cbn in H. injection H as <- <-.
    pose proof (n_exec_grows _ _ _ _ _ E2) as G1. pose proof (n_log_grows _ _ _ _ _ E3) as G2. unfold grows in *.
    destruct (exec_two w m c m1 r Hw Hm Hl ltac:(lia) E) as (F & G & Hs & Hb).
    destruct (decide (blen m1 ≤ cap w)) as [Hc|Hc].
    + rewrite (Hs Hc) in E2. injection E2 as <- <-. apply IH in E3; try done. by rewrite E3.
    + specialize (Hb ltac:(lia) _ _ E2). lia.
  - destruct (bdd_log _ m1 cs) as [[rs1 m3]|] eqn:E3; [|done]. cbn in H. injection H as <- <-.
    assert (bhd m ≤ cap w) as HW.
    { destruct (exec_two (N.of_nat (bhd m)) m c m1 r Hw Hm Hl) as (F & [_ G] & _); [|done|].
      { unfold cap. rewrite Nat2N.id. pose proof (Nat.pow_gt_lin_r 2 (bhd m)). lia. }
      destruct (b_log_grows _ _ _ _ Hw1 F E3). lia. }
    destruct (exec_two w m c m1 r Hw Hm Hl HW E) as (F & G & Hs & _).
    destruct (b_log_grows _ _ _ _ Hw1 F E3) as [G1 G2].
    rewrite Hs by lia. cbn [mbind option_bind]. apply IH in E3; try done. by rewrite E3.
Qed.
Lemma log_run cs : ∀ m rs m', bdd_log bdd_exec m cs = Some (rs, m') → bdd_run m cs = Some m'.
Proof.
  induction cs as [|c cs IH]; intros m rs m'; cbn [bdd_log bdd_run]; [by intros [= <- <-]|]. case_decide; [|done].
  destruct (bdd_exec m c) as [[m1 r]|]; [|done]. cbn [mbind option_bind].
  destruct (bdd_log _ m1 cs) as [[rs1 m2]|] eqn:E2; [|done]. intros [= <- <-]. by eapply IH.
Qed.
Lemma cap_N w x : (N.of_nat x <= 2 ^ w)%N ↔ x ≤ cap w.
Proof.
  unfold cap. replace (2 ^ w)%N with (N.of_nat (2 ^ N.to_nat w)) by (rewrite Nat2N.inj_pow, N2Nat.id; done). lia.
Qed.
Lemma within_same w cs rs m : bdd_within w m →
  bdd_log (n_exec w) bdd_new cs = Some (rs, m) ↔ bdd_log bdd_exec bdd_new cs = Some (rs, m).
Proof. intros [H1%cap_N H2%cap_N]. apply log_same; try done; [apply new_ok|apply new_fit]. Qed.
Lemma within_reachable w cs rs m : bdd_within w m → bdd_log (n_exec w) bdd_new cs = Some (rs, m) → bdd_reachable m.
Proof. intros Hw H. exists cs. eapply log_run. by apply (within_same w). Qed.
