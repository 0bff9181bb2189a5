(** The computed table refines a perfect memory; its counters are exact. *)
From Verif Require Import Prelude ComputeCache ComputeCacheProofs CacheSpec.

Definition nocc (ss : list slot) : nat := length (filter (λ s, s3 s ≠ EMPTY) ss).
Record cacc (c : ccache) : Prop := {
  ca_wf : cwf c;
  ca_len : cc_len c = N.of_nat (nocc (cc_slots c));
  ca_bits : ∃ b, (INIT_BITS <= b <= MAX_BITS)%N ∧ N.of_nat (length (cc_slots c)) = (2 ^ b)%N }.

Lemma nocc_insert ss i s s' : ss !! i = Some s →
  nocc (<[i := s']> ss) + (if decide (s3 s = EMPTY) then 0 else 1) =
  nocc ss + (if decide (s3 s' = EMPTY) then 0 else 1).
Proof.
  revert i. induction ss as [|x ss IH]; intros [|i] Hi; try done.
  - injection Hi as ->. change (<[0:=s']> (s :: ss)) with (s' :: ss).
    unfold nocc. rewrite !filter_cons. repeat case_decide; cbn; try done; lia.
  - specialize (IH i Hi). change (<[S i:=s']> (x :: ss)) with (x :: <[i:=s']> ss).
    unfold nocc in *. rewrite !filter_cons. destruct (decide (s3 x ≠ EMPTY)); cbn [length]; lia.
Qed.

Lemma put_nogrow_len c k0 k1 k2 v c' : v ≠ EMPTY →
  cc_len c = N.of_nat (nocc (cc_slots c)) → cc_put_nogrow c k0 k1 k2 v = Some c' →
  cc_len c' = N.of_nat (nocc (cc_slots c')) ∧ length (cc_slots c') = length (cc_slots c).
Proof.
  intros Hv Hl. unfold cc_put_nogrow. destruct (cc_slots c !! _) as [s|] eqn:Hs; [|done].
  cbn [mbind option_bind]. intros [= <-]. cbn [cc_slots cc_len]. split; [|apply insert_length].
  pose proof (nocc_insert _ _ _ (Slot k0 k1 k2 v) Hs) as H. cbn [s3] in H.
  destruct (N.eqb_spec (s3 s) EMPTY); repeat case_decide; try done; lia.
Qed.

Lemma nocc_with_bits b : nocc (cc_slots (with_bits b)) = 0.
Proof.
  unfold with_bits. cbn [cc_slots]. generalize (N.to_nat (N.shiftl 1 b)). intros n.
  induction n as [|n IH]; [done|]. cbn [replicate]. unfold nocc in *. rewrite filter_cons, decide_False; [done|].
  cbn. by intros H.
Qed.

Lemma reinsert_len old c c' : cc_len c = N.of_nat (nocc (cc_slots c)) → cc_reinsert old c = Some c' →
  cc_len c' = N.of_nat (nocc (cc_slots c')) ∧ length (cc_slots c') = length (cc_slots c).
Proof.
  revert c. induction old as [|s old IH]; intros c Hl; cbn [cc_reinsert]; [by intros [= <-]|].
  destruct (N.eqb_spec (s3 s) EMPTY) as [|He].
  - cbn [mbind option_bind]. by apply IH.
  - destruct (cc_put_nogrow c _ _ _ _) as [c1|] eqn:Hp; [|done]. cbn [mbind option_bind].
    intros Hr. destruct (put_nogrow_len _ _ _ _ _ _ He Hl Hp) as [Hl1 Hn1].
    destruct (IH _ Hl1 Hr) as [? ?]. split; [done|congruence].
Qed.

Lemma put_acc c k v : cacc c → v ≠ EMPTY →
  ∃ c', cc_put c k.1.1 k.1.2 k.2 v = Some c' ∧ cacc c' ∧ cfind c' k = Some v
    ∧ (∀ k' w, cfind c' k' = Some w → (k' = k ∧ w = v) ∨ (k' ≠ k ∧ cfind c k' = Some w)).
Proof.
  intros [Hwf Hl Hb] Hv. destruct (put_spec c k v Hwf) as (c' & Heq & Hwf' & Hf & Hfr).
  exists c'. sp; try done; [|by apply Hf]. constructor; [done|..].
  - unfold cc_put in Heq. destruct (N.leb _ _).
    + destruct (cc_grow c) as [c1|] eqn:Hg; [|done]. cbn [mbind option_bind] in Heq.
      refine (proj1 (put_nogrow_len _ _ _ _ _ _ Hv _ Heq)).
      unfold cc_grow in Hg. destruct (N.ltb _ _); [by injection Hg as <-|].
      refine (proj1 (reinsert_len _ _ _ _ Hg)). by rewrite nocc_with_bits.
    + cbn [mbind option_bind] in Heq. refine (proj1 (put_nogrow_len _ _ _ _ _ _ Hv _ Heq)). done.
  - unfold cc_put in Heq. destruct Hb as (b & Hb & Hlen).
    assert (Hnl : ∀ c1, cc_put_nogrow c1 k.1.1 k.1.2 k.2 v = Some c' → length (cc_slots c') = length (cc_slots c1)).
    { intros c1. unfold cc_put_nogrow. destruct (_ !! _); [|done]. intros [= <-]. apply insert_length. }
    destruct (N.leb _ _).
    + destruct (cc_grow c) as [c1|] eqn:Hg; [|done]. cbn [mbind option_bind] in Heq.
      rewrite (Hnl _ Heq). unfold cc_grow in Hg. rewrite Hlen, trailing_zeros_pow2 in Hg.
      destruct (N.ltb_spec MAX_BITS (b + 1)); [injection Hg as <-; by exists b|].
      exists (b + 1)%N. split; [lia|].
      assert (Hz : cc_len (with_bits (b + 1)) = N.of_nat (nocc (cc_slots (with_bits (b + 1)))))
        by by rewrite nocc_with_bits.
      destruct (reinsert_len _ _ _ Hz Hg) as [_ ->].
      unfold with_bits. cbn [cc_slots]. by rewrite replicate_length, N2Nat.id, N.shiftl_1_l.
    + cbn [mbind option_bind] in Heq. rewrite (Hnl _ Heq). by exists b.
Qed.

Lemma clear_acc c : cacc c → cacc (cc_clear c) ∧ ∀ k, cfind (cc_clear c) k = None.
Proof.
  intros [Hwf Hl (b & Hb & Hlen)]. destruct (clear_spec c Hwf) as [Hw Hf]. split; [|done].
  constructor; [done|..].
  - cbn. clear. induction (cc_slots c) as [|s ss IH]; [done|]. cbn [fmap list_fmap].
    unfold nocc in *. rewrite filter_cons, decide_False; [done|]. cbn. by intros H.
  - exists b. cbn. by rewrite fmap_length.
Qed.

Lemma nocc_cons s ss : nocc (s :: ss) = (if decide (s3 s = EMPTY) then 0 else 1) + nocc ss.
Proof. unfold nocc. rewrite filter_cons. repeat case_decide; cbn; try done; lia. Qed.

Lemma sweep_len words live ss len ss' len' : (N.of_nat (nocc ss) <= len)%N →
  cc_sweep words live ss len = Some (ss', len') →
  (len' + N.of_nat (nocc ss) = len + N.of_nat (nocc ss'))%N ∧ length ss' = length ss.
Proof.
  revert len ss' len'. induction ss as [|s ss IH]; intros len ss' len' Hle; cbn [cc_sweep].
  { intros [= <- <-]. done. }
  rewrite nocc_cons in *. destruct (N.eqb_spec (s3 s) EMPTY) as [He|He].
  - rewrite decide_True in * by done.
    cbn [mbind option_bind]. destruct (cc_sweep _ _ ss len) as [[ss1 l1]|] eqn:Hs; [|done].
    cbn [mbind option_bind]. intros [= <- <-]. rewrite nocc_cons, decide_True by done.
    destruct (IH len ss1 l1); [lia|done|]. split; [lia|cbn; lia].
  - rewrite decide_False in * by done. destruct (all_live _ _) as [[|]|]; [| |done]; cbn [mbind option_bind].
    + destruct (cc_sweep _ _ ss len) as [[ss1 l1]|] eqn:Hs; [|done]. cbn [mbind option_bind].
      intros [= <- <-]. rewrite nocc_cons, decide_False by done.
      destruct (IH len ss1 l1); [lia|done|]. split; [lia|cbn; lia].
    + destruct (cc_sweep _ _ ss _) as [[ss1 l1]|] eqn:Hs; [|done]. cbn [mbind option_bind].
      intros [= <- <-]. rewrite nocc_cons, decide_True by done.
      destruct (IH (len - 1)%N ss1 l1); [lia|done|]. split; [lia|cbn; lia].
Qed.

Lemma sweep_acc words live c ss len mask : cc_len c = N.of_nat (nocc (cc_slots c)) →
  cc_sweep words live (cc_slots c) (cc_len c) = Some (ss, len) →
  cc_len (CCache ss mask len) = N.of_nat (nocc ss) ∧ length ss = length (cc_slots c).
Proof.
  intros Hl Hs. destruct (sweep_len _ _ _ _ _ _ (N.eq_le_incl _ _ (eq_sym Hl)) Hs). cbn. split; [lia|done].
Qed.

(** A successful sweep keeps only entries that were there and whose words are all marked. *)
Lemma all_live_true live is : all_live live is = Some true → Forall (alive live) is.
Proof.
  induction is as [|i is IH]; cbn [all_live]; [by constructor|].
  unfold live_at. destruct (live !! _) as [[|]|] eqn:Hi; cbn; [|done..].
  intros H. constructor; [done|auto].
Qed.
Lemma sweep_sound words live ss len ss' len' : cc_sweep words live ss len = Some (ss', len') →
  ∀ i s', ss' !! i = Some s' → ∃ s, ss !! i = Some s ∧ skey s' = skey s ∧
    (¬ sempty s' → s' = s ∧ Forall (alive live) (words s)).
Proof.
  revert len ss' len'. induction ss as [|s ss IH]; intros len ss' len'; cbn [cc_sweep].
  - intros [= <- <-] i s' Hi. done.
  - destruct (N.eqb_spec (s3 s) EMPTY) as [He|He].
    + cbn [mbind option_bind]. destruct (cc_sweep _ _ ss len) as [[ss1 l1]|] eqn:Hs; [|done].
      cbn [mbind option_bind]. intros [= <- <-] [|i] s'; cbn; [|by apply (IH _ _ _ Hs)].
      intros [= <-]. exists s. sp; done.
    + destruct (all_live _ _) as [[|]|] eqn:Ha; [| |done]; cbn [mbind option_bind].
      * destruct (cc_sweep _ _ ss len) as [[ss1 l1]|] eqn:Hs; [|done]. cbn [mbind option_bind].
        intros [= <- <-] [|i] s'; cbn; [|by apply (IH _ _ _ Hs)].
        intros [= <-]. exists s. sp; try done. intros _. split; [done|]. by apply all_live_true.
      * destruct (cc_sweep _ _ ss _) as [[ss1 l1]|] eqn:Hs; [|done]. cbn [mbind option_bind].
        intros [= <- <-] [|i] s'; cbn; [|by apply (IH _ _ _ Hs)].
        intros [= <-]. exists s. sp; done.
Qed.

Lemma swept_acc words kw live c ss len : (∀ s, words s = kw (skey s) (s3 s)) → cacc c →
  cc_sweep words live (cc_slots c) (cc_len c) = Some (ss, len) →
  cacc (CCache ss (cc_mask c) len) ∧
  ∀ k v, cfind (CCache ss (cc_mask c) len) k = Some v → cfind c k = Some v ∧ Forall (alive live) (kw k v).
Proof.
  intros Hkw [[[ (b & Hb & Hlb & Hm) ] Hkey] Hl (b' & Hb' & Hlb')] Hs.
  destruct (sweep_acc words live c ss len (cc_mask c) Hl Hs) as [Hlen Hlss].
  pose proof (sweep_sound _ _ _ _ _ _ Hs) as Hsnd.
  assert (Hsh : cshape c) by (constructor; eauto).
  assert (Hsh' : cshape (CCache ss (cc_mask c) len)).
  { constructor. exists b. cbn. by rewrite Hlss. }
  split.
  - constructor; [constructor; [done|]|done|exists b'; cbn; by rewrite Hlss].
    intros i s' Hi Hne. cbn in Hi. destruct (Hsnd _ _ Hi) as (s & Hsi & _ & Hok). destruct (Hok Hne) as [-> _].
    rewrite (cidx_mask _ c) by done. by apply Hkey.
  - intros k v Hf. apply cfind_spec in Hf as (s & Hsi & Hk & Hv & Hne); [|done]. cbn in Hsi.
    rewrite (cidx_mask _ c) in Hsi by done.
    destruct (Hsnd _ _ Hsi) as (s1 & Hs1 & _ & Hok). destruct (Hok Hne) as [<- Hal]. split.
    + apply cfind_spec; [done|]. by exists s.
    + rewrite Hkw, Hk, Hv in Hal. done.
Qed.

Lemma exec_acc c o c' : cacc c → cop_ok o → cop_exec c o = Some c' →
  cacc c' ∧ ∀ past, (∀ k v, cfind c k = Some v → recall past k.1.1 k.1.2 k.2 = Some v) →
    ∀ k v, cfind c' k = Some v → recall (o :: past) k.1.1 k.1.2 k.2 = Some v.
Proof.
  intros Hc Ho. destruct o as [k0 k1 k2 v| |live|live]; cbn [cop_exec cop_ok] in *.
  - destruct (put_acc c (k0, k1, k2) v Hc Ho) as (c1 & Heq & Hc1 & _ & Hfr). cbn in Heq. rewrite Heq.
    intros [= <-]. split; [done|]. intros past Hp k w Hk. cbn [recall].
    destruct (Hfr _ _ Hk) as [[-> ->]|[Hne Hk']].
    + by rewrite decide_True.
    + destruct k as [[a b] d]. rewrite decide_False by (cbn; congruence). by apply (Hp (a, b, d)).
  - intros [= <-]. destruct (clear_acc c Hc) as [Hc' Hf]. split; [done|]. intros past _ k v. by rewrite Hf.
  - unfold cc_retain_live. destruct (cc_sweep _ _ _ _) as [[ss len]|] eqn:Hs; [|done].
    cbn [mbind option_bind]. intros [= <-].
    destruct (swept_acc _ words2 live c ss len (λ s, eq_refl) Hc Hs) as [Hc' Hf]. split; [done|].
    intros past Hp k v Hk. destruct (Hf _ _ Hk) as [Hk' Hal]. cbn [recall]. rewrite (Hp _ _ Hk').
    cbn [mbind option_bind]. rewrite decide_True; [done|]. rewrite Forall_forall in Hal. exact Hal.
  - unfold cc_retain_live3. destruct (cc_sweep _ _ _ _) as [[ss len]|] eqn:Hs; [|done].
    cbn [mbind option_bind]. intros [= <-].
    destruct (swept_acc _ words3 live c ss len (λ s, eq_refl) Hc Hs) as [Hc' Hf]. split; [done|].
    intros past Hp k v Hk. destruct (Hf _ _ Hk) as [Hk' Hal]. cbn [recall]. rewrite (Hp _ _ Hk').
    cbn [mbind option_bind]. rewrite decide_True; [done|]. rewrite Forall_forall in Hal. exact Hal.
Qed.

Lemma new_acc : cacc cc_new.
Proof.
  constructor; [apply cc_new_wf|unfold cc_new; by rewrite nocc_with_bits|].
  exists INIT_BITS. split; [split; [done|by vm_compute]|].
  unfold cc_new, with_bits. cbn [cc_slots]. by rewrite replicate_length, N2Nat.id, N.shiftl_1_l.
Qed.

Lemma run_acc os : ∀ c past c', cacc c → Forall cop_ok os →
  (∀ k v, cfind c k = Some v → recall past k.1.1 k.1.2 k.2 = Some v) →
  cop_run c os = Some c' →
  cacc c' ∧ ∀ k v, cfind c' k = Some v → recall (reverse os ++ past) k.1.1 k.1.2 k.2 = Some v.
Proof.
  induction os as [|o os IH]; intros c past c' Hc Hok Hp; cbn [cop_run].
  - intros [= <-]. by split.
  - apply Forall_cons in Hok as [Ho Hok]. destruct (cop_exec c o) as [c1|] eqn:He; [|done].
    cbn [mbind option_bind]. intros Hr. destruct (exec_acc _ _ _ Hc Ho He) as [Hc1 Hp1].
    rewrite reverse_cons, <- app_assoc. eapply IH; [done|done|by apply Hp1|done].
Qed.

Lemma cache_refines_l os c k0 k1 k2 : Forall cop_ok os → cop_run cc_new os = Some c →
  ∃ r, cc_get c k0 k1 k2 = Some r ∧ ∀ v, r = Some v → recall (reverse os) k0 k1 k2 = Some v.
Proof.
  intros Hok Hr. destruct (run_acc os cc_new [] c new_acc Hok) as [Hc Hf].
  { intros k v. by rewrite cc_new_find. } { done. }
  rewrite app_nil_r in Hf.
  exists (cfind c (k0, k1, k2)). split; [apply (cc_get_total c (k0, k1, k2)), Hc|].
  intros v Hv. apply (Hf (k0, k1, k2)), Hv.
Qed.

Lemma cache_counts_l os c : Forall cop_ok os → cop_run cc_new os = Some c →
  cc_len c = N.of_nat (occupied c) ∧
  ∃ b, (14 <= b <= 24)%N ∧ N.of_nat (length (cc_slots c)) = (2 ^ b)%N.
Proof.
  intros Hok Hr. destruct (run_acc os cc_new [] c new_acc Hok) as [Hc _].
  { intros k v. by rewrite cc_new_find. } { done. }
  split; apply Hc.
Qed.

(** progress: puts and clears never fail and a put is visible at once; a retain fails only if the
    liveness vector is too short for a remembered entry *)
Lemma cache_progress_l os c o : Forall cop_ok os → cop_run cc_new os = Some c → cop_ok o →
  match o with
  | Put k0 k1 k2 v => ∃ c', cop_exec c o = Some c' ∧ cc_get c' k0 k1 k2 = Some (Some v)
  | Clear => ∃ c', cop_exec c o = Some c' ∧ ∀ k0 k1 k2, cc_get c' k0 k1 k2 = Some None
  | Retain live =>
      (∀ k0 k1 k2 v, recall (reverse os) k0 k1 k2 = Some v →
         ∀ i, i ∈ [k1; k2; v] → N.to_nat i < length live) →
      ∃ c', cop_exec c o = Some c' ∧ ∀ k0 k1 k2 v, cc_get c' k0 k1 k2 = Some (Some v) ↔
         cc_get c k0 k1 k2 = Some (Some v) ∧ marked_live live [k1; k2; v]
  | Retain3 live =>
      (∀ k0 k1 k2 v, recall (reverse os) k0 k1 k2 = Some v →
         ∀ i, i ∈ [k0; k1; k2; v] → N.to_nat i < length live) →
      ∃ c', cop_exec c o = Some c' ∧ ∀ k0 k1 k2 v, cc_get c' k0 k1 k2 = Some (Some v) ↔
         cc_get c k0 k1 k2 = Some (Some v) ∧ marked_live live [k0; k1; k2; v]
  end.
Proof.
  intros Hok Hr Ho. destruct (run_acc os cc_new [] c new_acc Hok) as [Hc Hf].
  { intros k v. by rewrite cc_new_find. } { done. }
  rewrite app_nil_r in Hf. pose proof (ca_wf _ Hc) as Hwf.
  assert (Hget : ∀ c, cwf c → ∀ k0 k1 k2 v, cc_get c k0 k1 k2 = Some (Some v) ↔ cfind c (k0, k1, k2) = Some v).
  { intros c0 Hc0 k0 k1 k2 v. pose proof (cc_get_total c0 (k0, k1, k2) (cwf_shape _ Hc0)) as Hg. cbn in Hg. rewrite Hg. split; [by intros [= ->]|by intros ->]. }
  destruct o as [k0 k1 k2 v| |live|live]; cbn [cop_exec cop_ok] in *.
  - destruct (put_acc c (k0, k1, k2) v Hc Ho) as (c1 & Heq & Hc1 & Hk & _). exists c1. split; [done|].
    apply Hget; [apply Hc1|done].
  - destruct (clear_acc c Hc) as [Hc' Hfn]. eexists. split; [done|]. intros k0 k1 k2.
    pose proof (cc_get_total _ (k0, k1, k2) (cwf_shape _ (ca_wf _ Hc'))) as Hg. by rewrite Hfn in Hg.
  - intros Hlen. destruct (retain_live_spec live c Hwf) as (c' & Heq & Hwf' & Hiff).
    { intros [[k0 k1] k2] v Hk. apply Forall_forall. intros i. by apply (Hlen k0 k1 k2 v), (Hf (k0, k1, k2)). }
    exists c'. split; [done|]. intros k0 k1 k2 v. rewrite !Hget by done. rewrite Hiff, Forall_forall. done.
  - intros Hlen. destruct (retain_live3_spec live c Hwf) as (c' & Heq & Hwf' & Hiff).
    { intros [[k0 k1] k2] v Hk. apply Forall_forall. intros i. by apply (Hlen k0 k1 k2 v), (Hf (k0, k1, k2)). }
    exists c'. split; [done|]. intros k0 k1 k2 v. rewrite !Hget by done. rewrite Hiff, Forall_forall. done.
Qed.
