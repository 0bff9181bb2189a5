(** Facts about the computed table model. *)
From Verif Require Import Prelude ComputeCache.

Notation key := (N * N * N)%type (only parsing).
Definition skey (s : slot) : key := (s0 s, s1 s, s2 s).
Definition sempty (s : slot) : Prop := s3 s = EMPTY.

(** A hit, as a plain partial function of the key. *)
Definition cfind (c : ccache) (k : key) : option N :=
  match cc_get c k.1.1 k.1.2 k.2 with Some (Some v) => Some v | _ => None end.

Definition cidx (c : ccache) (k : key) : nat := cc_index c k.1.1 k.1.2 k.2.

Record cshape (c : ccache) : Prop := {
  csh_bits : ∃ b, (b <= MAX_BITS)%N ∧ N.of_nat (length (cc_slots c)) = (2 ^ b)%N
                  ∧ cc_mask c = (2 ^ b - 1)%N;
}.

Definition ckeyed (c : ccache) : Prop :=
  ∀ i s, cc_slots c !! i = Some s → ¬ sempty s → cidx c (skey s) = i.

Record cwf (c : ccache) : Prop := { cwf_shape : cshape c; cwf_keyed : ckeyed c }.

Lemma cidx_mask c c' k : cc_mask c = cc_mask c' → cidx c k = cidx c' k.
Proof. unfold cidx, cc_index. intros ->. done. Qed.

Lemma cidx_lt c k : cshape c → cidx c k < length (cc_slots c).
Proof.
  intros [(b & _ & Hlen & Hmask)]. unfold cidx, cc_index.
  rewrite Hmask.
  set (h := N.lxor _ _). clearbody h.
  rewrite N.sub_1_r, <- N.ones_equiv, N.land_ones.
  assert (2 ^ b ≠ 0)%N as Hnz by (apply N.pow_nonzero; lia).
  pose proof (N.mod_lt h (2 ^ b) Hnz). lia.
Qed.

Lemma cslot_at c k : cshape c → ∃ s, cc_slots c !! cidx c k = Some s.
Proof. intros H. apply lookup_lt_is_Some_2, cidx_lt, H. Qed.

Lemma cc_get_total c k : cshape c → cc_get c k.1.1 k.1.2 k.2 = Some (cfind c k).
Proof.
  intros H. unfold cfind. destruct (cslot_at c k H) as [s Hs].
  unfold cc_get. unfold cidx in Hs. rewrite Hs. cbn. by destruct (_ && _).
Qed.

Lemma cfind_spec c k v : cshape c →
  cfind c k = Some v ↔
  ∃ s, cc_slots c !! cidx c k = Some s ∧ skey s = k ∧ s3 s = v ∧ ¬ sempty s.
Proof.
  intros H. destruct (cslot_at c k H) as [s Hs]. destruct k as [[k0 k1] k2].
  unfold cfind, cc_get. unfold cidx in Hs. rewrite Hs. cbn in *. unfold sempty.
  destruct (N.eqb_spec (s3 s) EMPTY), (N.eqb_spec (s0 s) k0), (N.eqb_spec (s1 s) k1),
    (N.eqb_spec (s2 s) k2); cbn; (split; [intros Hx; simplify_eq; eauto|]);
    try (intros (s' & Hs' & Hk & Hv & He); unfold cidx, cc_index in *; cbn in *;
         rewrite Hs in Hs'; simplify_eq; unfold skey in *; simplify_eq; done).
Qed.

Lemma cfind_slot c i s : cwf c → cc_slots c !! i = Some s → ¬ sempty s →
  cfind c (skey s) = Some (s3 s).
Proof.
  intros [Hsh Hk] Hi Hne. apply cfind_spec; [done|].
  exists s. by rewrite (Hk i s Hi Hne).
Qed.

(** ** new / with_bits *)
Lemma with_bits_wf b : (b <= MAX_BITS)%N → cwf (with_bits b).
Proof.
  intros Hb. split.
  - constructor. exists b. unfold with_bits. cbn [cc_slots cc_mask].
    rewrite replicate_length, N2Nat.id, N.shiftl_1_l. done.
  - intros i s Hs Hne. unfold with_bits in Hs. cbn [cc_slots] in Hs.
    apply lookup_replicate in Hs as [-> _]. exfalso. by apply Hne.
Qed.

Lemma with_bits_find b k : (b <= MAX_BITS)%N → cfind (with_bits b) k = None.
Proof.
  intros Hb. destruct (cfind _ k) as [v|] eqn:E; [|done].
  apply cfind_spec in E; [|apply with_bits_wf, Hb].
  destruct E as (s & Hs & _ & _ & Hne). unfold with_bits in Hs. cbn [cc_slots] in Hs.
  apply lookup_replicate in Hs as [-> _]. exfalso. by apply Hne.
Qed.

Lemma cc_new_wf : cwf cc_new.
Proof. apply with_bits_wf. unfold INIT_BITS, MAX_BITS. lia. Qed.
Lemma cc_new_find k : cfind cc_new k = None.
Proof. apply with_bits_find. unfold INIT_BITS, MAX_BITS. lia. Qed.

(** ** put_nogrow *)
Lemma put_nogrow_spec c k v : cwf c →
  ∃ c', cc_put_nogrow c k.1.1 k.1.2 k.2 v = Some c' ∧ cwf c'
    ∧ cc_mask c' = cc_mask c ∧ length (cc_slots c') = length (cc_slots c)
    ∧ (v ≠ EMPTY → cfind c' k = Some v)
    ∧ (∀ k' w, cfind c' k' = Some w → (k' = k ∧ w = v) ∨ (k' ≠ k ∧ cfind c k' = Some w)).
Proof.
  intros Hwf. pose proof (cwf_shape c Hwf) as Hsh.
  destruct (cslot_at c k Hsh) as [s Hs].
  unfold cc_put_nogrow. unfold cidx in Hs. rewrite Hs. cbn [mbind option_bind].
  eexists. split; [reflexivity|].
  set (c' := CCache _ _ _).
  assert (Hidx : ∀ k', cidx c' k' = cidx c k') by (intros; by apply cidx_mask).
  assert (Hsh' : cshape c').
  { destruct Hsh as [(b & Hb & Hl & Hm)]. constructor. exists b. subst c'. cbn.
    by rewrite insert_length. }
  pose proof (cidx_lt c k Hsh) as Hlt.
  assert (Hlk : cc_slots c' !! cidx c k = Some (Slot k.1.1 k.1.2 k.2 v)).
  { subst c'. cbn. apply list_lookup_insert. exact Hlt. }
  assert (Hlk' : ∀ i, i ≠ cidx c k → cc_slots c' !! i = cc_slots c !! i).
  { intros i Hi. subst c'. cbn. apply list_lookup_insert_ne. auto. }
  split_and!; try done.
  - split; [done|]. intros i s' Hi Hne. rewrite Hidx. destruct (decide (i = cidx c k)) as [->|Hd].
    + rewrite Hlk in Hi. simplify_eq. by destruct k as [[??]?].
    + rewrite Hlk' in Hi by done. by apply (cwf_keyed c Hwf).
  - subst c'. cbn. apply insert_length.
  - intros Hv. apply cfind_spec; [done|]. rewrite Hidx. eexists. split; [exact Hlk|].
    by destruct k as [[??]?].
  - intros k' w Hf. apply cfind_spec in Hf; [|done]. rewrite Hidx in Hf.
    destruct Hf as (s' & Hs' & Hk' & Hv' & Hne).
    destruct (decide (cidx c k' = cidx c k)) as [Heq|Hd].
    + rewrite Heq, Hlk in Hs'. simplify_eq. left. by destruct k as [[??]?].
    + right. split; [by intros ->|]. rewrite Hlk' in Hs' by done.
      apply cfind_spec; [done|]. eauto.
Qed.

(** ** grow *)
Lemma reinsert_spec old c : cwf c →
  ∃ c', cc_reinsert old c = Some c' ∧ cwf c' ∧ cc_mask c' = cc_mask c
    ∧ length (cc_slots c') = length (cc_slots c)
    ∧ (∀ k w, cfind c' k = Some w →
         cfind c k = Some w ∨ ∃ s, s ∈ old ∧ skey s = k ∧ s3 s = w ∧ ¬ sempty s).
Proof.
  revert c. induction old as [|s old IH]; intros c Hwf; cbn [cc_reinsert].
  { exists c. split_and!; auto. }
  destruct (N.eqb_spec (s3 s) EMPTY) as [He|He]; cbn [mbind option_bind].
  - destruct (IH c Hwf) as (c' & Heq & Hwf' & Hm & Hl & Hf). exists c'.
    split_and!; try done. intros k w Hw.
    destruct (Hf k w Hw) as [?|(s' & ? & ?)]; [by left|].
    right. exists s'. split; [by right|done].
  - destruct (put_nogrow_spec c (skey s) (s3 s) Hwf) as (c1 & Heq & Hwf1 & Hm1 & Hl1 & _ & Hf1).
    cbn in Heq. rewrite Heq. cbn [mbind option_bind].
    destruct (IH c1 Hwf1) as (c' & Heq' & Hwf' & Hm & Hl & Hf). exists c'.
    split_and!; try done; try congruence. intros k w Hw.
    destruct (Hf k w Hw) as [Hw1|(s' & ? & ?)].
    + destruct (Hf1 k w Hw1) as [[-> ->]|[? ?]]; [|by left].
      right. exists s. split; [by left|done].
    + right. exists s'. split; [by right|done].
Qed.

Lemma ctz_pow2 n : ctz (Pos.pow 2 n) = Npos n.
Proof.
  induction n as [|n IH] using Pos.peano_ind; [done|].
  rewrite Pos.pow_succ_r. change (2 * 2 ^ n)%positive with (xO (2 ^ n)). cbn [ctz].
  rewrite IH. lia.
Qed.
Lemma trailing_zeros_pow2 b : trailing_zeros (2 ^ b) = b.
Proof.
  destruct b as [|p]; [done|]. unfold N.pow, trailing_zeros. apply ctz_pow2.
Qed.

Lemma grow_spec c : cwf c →
  ∃ c', cc_grow c = Some c' ∧ cwf c'
    ∧ (∀ k w, cfind c' k = Some w → cfind c k = Some w).
Proof.
  intros Hwf. unfold cc_grow.
  destruct (N.ltb_spec MAX_BITS (trailing_zeros (N.of_nat (length (cc_slots c))) + 1)%N) as [Hb|Hb].
  - exists c. split_and!; auto.
  - destruct (reinsert_spec (cc_slots c) _ (with_bits_wf _ Hb)) as (c' & Heq & Hwf' & _ & _ & Hf).
    exists c'. split_and!; try done. intros k w Hw.
    destruct (Hf k w Hw) as [Hn|(s & Hin & <- & <- & Hne)].
    + by rewrite with_bits_find in Hn.
    + apply elem_of_list_lookup in Hin as [i Hi]. by eapply cfind_slot.
Qed.

(** ** put *)
Lemma put_spec c k v : cwf c →
  ∃ c', cc_put c k.1.1 k.1.2 k.2 v = Some c' ∧ cwf c'
    ∧ (v ≠ EMPTY → cfind c' k = Some v)
    ∧ (∀ k' w, cfind c' k' = Some w → (k' = k ∧ w = v) ∨ (k' ≠ k ∧ cfind c k' = Some w)).
Proof.
  intros Hwf. unfold cc_put.
  assert (∃ c1, (if (N.of_nat (length (cc_slots c)) * 3 <=? cc_len c * 4)%N
       then cc_grow c else Some c) = Some c1 ∧ cwf c1
       ∧ (∀ k w, cfind c1 k = Some w → cfind c k = Some w)) as (c1 & -> & Hwf1 & Hf1).
  { destruct (_ <=? _)%N; [by apply grow_spec|]. exists c. auto. }
  cbn [mbind option_bind].
  destruct (put_nogrow_spec c1 k v Hwf1) as (c' & Heq & Hwf' & _ & _ & Hv & Hf).
  exists c'. split_and!; try done. intros k' w Hw.
  destruct (Hf k' w Hw) as [?|[? ?]]; auto.
Qed.

(** ** clear *)
Lemma clear_spec c : cwf c → cwf (cc_clear c) ∧ ∀ k, cfind (cc_clear c) k = None.
Proof.
  intros [[(b & Hb & Hl & Hm)] Hk].
  assert (Hsh : cshape (cc_clear c)).
  { constructor. exists b. unfold cc_clear. cbn. by rewrite fmap_length. }
  assert (He : ∀ i s, cc_slots (cc_clear c) !! i = Some s → sempty s).
  { intros i s Hi. unfold cc_clear in Hi. cbn in Hi. apply list_lookup_fmap_Some in Hi as (s' & _ & ->).
    done. }
  split; [split; [done|]|].
  - intros i s Hi Hne. destruct Hne. by eapply He.
  - intros k. destruct (cfind _ k) as [v|] eqn:E; [|done].
    apply cfind_spec in E; [|done]. destruct E as (s & Hs & _ & _ & Hne). destruct Hne. by eapply He.
Qed.

(** ** retain *)
Definition alive (live : list bool) (i : N) : Prop := live !! N.to_nat i = Some true.

Lemma all_live_spec live is :
  Forall (λ i, N.to_nat i < length live) is →
  ∃ b, all_live live is = Some b ∧ (b = true ↔ Forall (alive live) is).
Proof.
  induction 1 as [|i is Hi His IH]; cbn [all_live].
  { exists true. split; [done|]. split; [constructor|done]. }
  apply lookup_lt_is_Some_2 in Hi as [b Hb]. unfold live_at. rewrite Hb. cbn [mbind option_bind].
  destruct b.
  - destruct IH as (b & -> & Hb'). exists b. split; [done|]. rewrite Forall_cons.
    split; [intros Hx; split; [exact Hb|by apply Hb']|]. intros [_ Hx]. by apply Hb'.
  - exists false. split; [done|]. rewrite Forall_cons. unfold alive at 1. rewrite Hb.
    split; [done|]. by intros [? _].
Qed.

Lemma sweep_spec words live ss len :
  (∀ s, s ∈ ss → ¬ sempty s → Forall (λ i, N.to_nat i < length live) (words s)) →
  ∃ ss' len', cc_sweep words live ss len = Some (ss', len') ∧ length ss' = length ss
   ∧ (∀ i s', ss' !! i = Some s' →
        ∃ s, ss !! i = Some s ∧ skey s' = skey s ∧
          (¬ sempty s' ↔ ¬ sempty s ∧ Forall (alive live) (words s)) ∧
          (¬ sempty s' → s' = s)).
Proof.
  revert len. induction ss as [|s ss IH]; intros len Hb; cbn [cc_sweep].
  { exists [], len. split; [done|]. split; [done|]. intros i s' Hi. by rewrite lookup_nil in Hi. }
  assert (∃ s' len', (if (s3 s =? EMPTY)%N then Some (s, len)
         else b ← all_live live (words s);
              if b : bool then Some (s, len)
              else Some (Slot (s0 s) (s1 s) (s2 s) EMPTY, (len - 1)%N)) = Some (s', len')
     ∧ skey s' = skey s ∧ (¬ sempty s' ↔ ¬ sempty s ∧ Forall (alive live) (words s))
     ∧ (¬ sempty s' → s' = s)) as (s' & len1 & -> & Hk & He & Hs).
  { destruct (N.eqb_spec (s3 s) EMPTY) as [E|E].
    - exists s, len. repeat split; try done. intros [? _]. done.
    - destruct (all_live_spec live (words s)) as (b & -> & Hbb).
      { apply Hb; [by left|done]. }
      cbn [mbind option_bind]. destruct b.
      + exists s, len. repeat split; try done; by apply Hbb.
      + eexists _, _. split; [reflexivity|]. cbn. repeat split; try done.
        intros [_ Hf]. apply Hbb in Hf. done. }
  cbn [mbind option_bind].
  destruct (IH len1) as (ss' & len2 & -> & Hl & Hss).
  { intros s'' Hin. apply Hb. by right. }
  cbn [mbind option_bind]. exists (s' :: ss'), len2. split; [done|]. cbn. split; [lia|].
  intros [|i] s'' Hi; cbn in Hi.
  - injection Hi as <-. exists s. split_and!; done.
  - by apply Hss.
Qed.

Definition words2 (k : key) (v : N) : list N := [k.1.2; k.2; v].
Definition words3 (k : key) (v : N) : list N := [k.1.1; k.1.2; k.2; v].

Lemma sweep_cache words kw live c :
  (∀ s, words s = kw (skey s) (s3 s)) →
  cwf c →
  (∀ k v, cfind c k = Some v → Forall (λ i, N.to_nat i < length live) (kw k v)) →
  ∃ ss len, cc_sweep words live (cc_slots c) (cc_len c) = Some (ss, len)
   ∧ cwf (CCache ss (cc_mask c) len)
   ∧ ∀ k v, cfind (CCache ss (cc_mask c) len) k = Some v ↔
            cfind c k = Some v ∧ Forall (alive live) (kw k v).
Proof.
  intros Hkw Hwf Hb.
  destruct (sweep_spec words live (cc_slots c) (cc_len c)) as (ss & len & Heq & Hl & Hss).
  { intros s Hin Hne. rewrite Hkw. apply elem_of_list_lookup in Hin as [i Hi].
    eapply Hb, cfind_slot; eauto. }
  exists ss, len. split; [done|]. set (c' := CCache ss (cc_mask c) len).
  assert (Hidx : ∀ k, cidx c' k = cidx c k) by (intros; by apply cidx_mask).
  pose proof Hwf as [[(b & Hbb & Hlen & Hm)] Hk].
  assert (Hsh : cshape c').
  { constructor. exists b. subst c'. cbn. by rewrite Hl. }
  split; [split; [done|]|].
  - intros i s Hi Hne. rewrite Hidx. destruct (Hss i s Hi) as (s0' & Hi0 & Hk0 & He & _).
    rewrite Hk0. apply Hk; [done|]. by apply He.
  - intros k v. rewrite !cfind_spec by (try done; apply Hwf). rewrite Hidx. split.
    + intros (s & Hs & <- & <- & Hne). destruct (Hss _ s Hs) as (s' & Hs' & Hk' & He & Heqs).
      pose proof (Heqs Hne) as <-. split; [|rewrite <- Hkw; by apply He].
      exists s. by split_and!.
    + intros [(s & Hs & <- & <- & Hne) Hal].
      assert (is_Some (ss !! cidx c (skey s))) as [s' Hs'].
      { apply lookup_lt_is_Some_2. rewrite Hl. by apply lookup_lt_Some in Hs. }
      destruct (Hss _ s' Hs') as (s'' & Hs'' & Hk' & He & Heqs).
      rewrite Hs in Hs''. injection Hs'' as <-.
      rewrite <- Hkw in Hal. assert (Hne' : ¬ sempty s') by by apply He.
      pose proof (Heqs Hne') as ->. exists s. by split_and!.
Qed.

Lemma retain_live_spec live c : cwf c →
  (∀ k v, cfind c k = Some v → Forall (λ i, N.to_nat i < length live) (words2 k v)) →
  ∃ c', cc_retain_live c live = Some c' ∧ cwf c'
   ∧ ∀ k v, cfind c' k = Some v ↔ cfind c k = Some v ∧ Forall (alive live) (words2 k v).
Proof.
  intros Hwf Hb. unfold cc_retain_live.
  destruct (sweep_cache (λ s, [s1 s; s2 s; s3 s]) words2 live c) as (ss & len & -> & Hwf' & Hf); auto.
  eexists. split; [reflexivity|]. done.
Qed.

Lemma retain_live3_spec live c : cwf c →
  (∀ k v, cfind c k = Some v → Forall (λ i, N.to_nat i < length live) (words3 k v)) →
  ∃ c', cc_retain_live3 c live = Some c' ∧ cwf c'
   ∧ ∀ k v, cfind c' k = Some v ↔ cfind c k = Some v ∧ Forall (alive live) (words3 k v).
Proof.
  intros Hwf Hb. unfold cc_retain_live3.
  destruct (sweep_cache (λ s, [s0 s; s1 s; s2 s; s3 s]) words3 live c) as (ss & len & -> & Hwf' & Hf); auto.
  eexists. split; [reflexivity|]. done.
Qed.
