(** When the computed table holds one entry more for every result stored, nothing was thrown out of it, so nothing was stored twice. *)
From Verif Require Import Prelude ComputeCache ComputeCacheProofs CacheSpec CacheMain.

Global Set Default Goal Selector "!".

Lemma nogrow_occ c k v c' : cwf c → cc_put_nogrow c k.1.1 k.1.2 k.2 v = Some c' →
  occupied c' ≤ occupied c + 1 ∧ (v = EMPTY → occupied c' ≤ occupied c) ∧
  (occupied c' = occupied c + 1 → is_Some (cfind c' k) ∧ ∀ k', is_Some (cfind c k') → is_Some (cfind c' k')).
Proof.
  intros Hw He. destruct (put_nogrow_spec c k v Hw) as (c1 & He1 & Hw1 & Hm1 & Hl1 & Hf1 & _).
  rewrite He in He1. injection He1 as <-.
  unfold cc_put_nogrow in He. destruct (cc_slots c !! cc_index c k.1.1 k.1.2 k.2) as [s|] eqn:Hs; [|done]. cbn [mbind option_bind] in He.
  assert (Hsl : cc_slots c' = <[cidx c k := Slot k.1.1 k.1.2 k.2 v]> (cc_slots c)) by by injection He as <-.
  pose proof (nocc_insert _ _ _ (Slot k.1.1 k.1.2 k.2 v) Hs) as Hn. cbn [s3] in Hn.
  change (nocc (<[cc_index c k.1.1 k.1.2 k.2:=Slot k.1.1 k.1.2 k.2 v]> (cc_slots c))) with
    (nocc (<[cidx c k := Slot k.1.1 k.1.2 k.2 v]> (cc_slots c))) in Hn.
  rewrite <- Hsl in Hn. unfold nocc in Hn. unfold occupied.
  destruct (decide (s3 s = EMPTY)) as [Hs3|Hs3], (decide (v = EMPTY)) as [Hv|Hv]; (split; [lia|split; [lia|]]); intros Heq; try lia.
  split; [rewrite Hf1 by done; by eexists|]. intros k' [w Hw']. exists w.
  apply cfind_spec in Hw' as (s' & Hs' & Hk' & Hv' & Hne); [|apply Hw]. apply cfind_spec; [apply Hw1|].
  exists s'. rewrite (cidx_mask c' c) by done. rewrite Hsl, list_lookup_insert_ne; [done|].
  intros Hi. rewrite <- Hi in Hs'. unfold cidx in Hs'. rewrite Hs in Hs'. injection Hs' as <-. done.
Qed.


Lemma reinsert_occ old : ∀ c c', cwf c → cc_reinsert old c = Some c' →
  occupied c' ≤ occupied c + nocc old ∧
  (occupied c' = occupied c + nocc old →
     (∀ s, s ∈ old → ¬ sempty s → is_Some (cfind c' (skey s))) ∧ ∀ k', is_Some (cfind c k') → is_Some (cfind c' k')).
Proof.
  induction old as [|s old IH]; intros c c' Hw; cbn [cc_reinsert].
  { intros [= <-]. cbn. split; [lia|]. intros _. split; [by intros s ?%elem_of_nil|done]. }
  rewrite nocc_cons. destruct (N.eqb_spec (s3 s) EMPTY) as [Hs|Hs]; cbn [mbind option_bind].
  - intros He. destruct (IH _ _ Hw He) as [Hle Heq]. rewrite decide_True by done. split; [lia|]. intros Ho.
    destruct Heq as [H1 H2]; [lia|]. split; [|done]. intros s' [->|Hin]%elem_of_cons Hne; [done|by apply H1].
  - rewrite decide_False by done.
    destruct (put_nogrow_spec c (skey s) (s3 s) Hw) as (c1 & He1 & Hw1 & _). cbn [skey fst snd] in He1. rewrite He1. cbn [mbind option_bind].
    intros He. destruct (nogrow_occ c (skey s) (s3 s) c1 Hw He1) as (Hle1 & _ & Heq1). destruct (IH _ _ Hw1 He) as [Hle Heq].
    split; [lia|]. intros Ho. destruct Heq1 as [K1 K2]; [lia|]. destruct Heq as [H1 H2]; [lia|]. split; [|auto].
    intros s' [->|Hin]%elem_of_cons Hne; [by apply H2|by apply H1].
Qed.

Lemma put_occ c k v c' : cwf c → cc_put c k.1.1 k.1.2 k.2 v = Some c' →
  occupied c' ≤ occupied c + 1 ∧
  (occupied c' = occupied c + 1 → is_Some (cfind c' k) ∧ ∀ k', is_Some (cfind c k') → is_Some (cfind c' k')).
Proof.
  intros Hw. unfold cc_put.
  destruct (if (N.of_nat (length (cc_slots c)) * 3 <=? cc_len c * 4)%N then cc_grow c else Some c) as [c1|] eqn:Hg; [|done].
  cbn [mbind option_bind]. intros He.
  assert (cwf c1 ∧ occupied c1 ≤ occupied c ∧ (occupied c1 = occupied c → ∀ k', is_Some (cfind c k') → is_Some (cfind c1 k'))) as (Hw1 & Hle1 & Heq1).
  { destruct (N.of_nat (length (cc_slots c)) * 3 <=? cc_len c * 4)%N; [|by injection Hg as <-].
    destruct (grow_spec c Hw) as (c1' & Hg' & Hw1 & _). rewrite Hg in Hg'. injection Hg' as <-. split; [done|].
    unfold cc_grow in Hg. destruct (MAX_BITS <? _)%N eqn:Hb; [by injection Hg as <-|]. apply N.ltb_ge in Hb.
    pose proof (with_bits_wf _ Hb) as Hwb. destruct (reinsert_occ _ _ _ Hwb Hg) as [Hle Heq].
    assert (occupied (with_bits (trailing_zeros (N.of_nat (length (cc_slots c))) + 1)) = 0) as H0 by apply nocc_with_bits.
    rewrite H0 in *. change (nocc (cc_slots c)) with (occupied c) in *. cbn [Nat.add] in *. split; [done|].
    intros Ho k' [w Hk']. destruct (Heq Ho) as [H1 _].
    apply cfind_spec in Hk' as (s' & Hs' & <- & Hv' & Hne); [|apply Hw]. apply H1; [by eapply elem_of_list_lookup_2|]. unfold sempty. congruence. }
  destruct (nogrow_occ c1 k v c' Hw1 He) as (Hle & _ & Heq). split; [lia|]. intros Ho.
  destruct Heq as [H1 H2]; [lia|]. split; [done|]. intros k' Hk'. apply H2, Heq1; [lia|done].
Qed.

(** ** Runs of stores *)
(** From table [c] to table [c'] the results for the keys [ks] were stored, each of them after a look-up that failed. *)
Definition fresh (c : ccache) (ks : list key) (c' : ccache) : Prop :=
  occupied c' ≤ occupied c + length ks ∧
  (occupied c' = occupied c + length ks →
    NoDup ks ∧ (∀ k, k ∈ ks → cfind c k = None ∧ is_Some (cfind c' k)) ∧ ∀ k, is_Some (cfind c k) → is_Some (cfind c' k)).

Lemma fresh_nil c : fresh c [] c.
Proof. split; [cbn; lia|]. intros _. split; [constructor|]. split; [by intros k ?%elem_of_nil|done]. Qed.

Lemma fresh_app c k1 c1 k2 c2 : fresh c k1 c1 → fresh c1 k2 c2 → fresh c (k1 ++ k2) c2.
Proof.
  intros [L1 H1] [L2 H2]. split; rewrite app_length; [lia|]. intros He.
  destruct H1 as (N1 & A1 & M1); [lia|]. destruct H2 as (N2 & A2 & M2); [lia|]. split; [|split].
  - apply NoDup_app. split; [done|]. split; [|done]. intros k Hk1 Hk2. destruct (A1 _ Hk1) as [_ [w Hw]]. destruct (A2 _ Hk2) as [Hn _]. congruence.
  - intros k [Hk|Hk]%elem_of_app; [destruct (A1 _ Hk); auto|]. destruct (A2 _ Hk) as [Hn Hs]. split; [|done].
    destruct (cfind c k) as [w|] eqn:Ew; [|done]. destruct (M1 k) as [w' Hw']; [by eexists|]. congruence.
  - auto.
Qed.

Lemma fresh_put c ks c1 k v c2 : cwf c1 → fresh c ks c1 → cfind c k = None → k ∉ ks → cc_put c1 k.1.1 k.1.2 k.2 v = Some c2 → fresh c (ks ++ [k]) c2.
Proof.
  intros Hw [L1 H1] Hc Hk Hp. destruct (put_occ _ _ _ _ Hw Hp) as [L2 H2]. split; rewrite app_length; cbn [length]; [lia|]. intros He.
  destruct H1 as (N1 & A1 & M1); [lia|]. destruct H2 as (S2 & M2); [lia|]. split; [|split].
  - apply NoDup_app. split; [done|]. split; [|apply NoDup_singleton]. intros k' Hk' ->%elem_of_list_singleton. done.
  - intros k' [Hk'|Hk'%elem_of_list_singleton]%elem_of_app; [|by subst]. destruct (A1 _ Hk'). auto.
  - auto.
Qed.
