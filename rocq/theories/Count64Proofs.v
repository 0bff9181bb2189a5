(** Proofs about the machine counters: simulation of the unbounded ones. *)
From stdpp Require Import strings.
From Verif Require Import Prelude ComputeCache ComputeCacheProofs Arena Trees ArenaProofs Bdd BddProofs SpecBdd SpecBss BddMain BssAlg BssCount Zdd ZddAlg BssMgr ZddMgr Count64.

Lemma U64_pos : (0 < U64)%N. Proof. done. Qed.
Lemma U64_pow : U64 = (2 ^ N.of_nat 64)%N. Proof. vm_compute. done. Qed.
Global Opaque U64.

Notation wr x := (x mod U64)%N.
Lemma u64_fits md x : (x < U64)%N → u64 md x = Some x.
Proof. intros H. unfold u64. apply N.ltb_lt in H as ->. done. Qed.
Lemma u64_over x : (U64 ≤ x)%N → u64 Checked x = None.
Proof. intros H. unfold u64. apply N.ltb_ge in H as ->. done. Qed.
Lemma u64_wrap x : u64 Wrapping x = Some (wr x).
Proof.
  unfold u64. destruct (N.ltb_spec x U64); [|done]. by rewrite N.mod_small.
Qed.
Lemma U64_nz : U64 ≠ 0%N.
Proof. pose proof U64_pos. lia. Qed.
Local Hint Resolve U64_nz : core.
Lemma wr_mul x y : wr (wr x * wr y) = wr (x * y).
Proof. rewrite N.mul_mod_idemp_l, N.mul_mod_idemp_r; done. Qed.
Lemma wr_mul_l x y : wr (wr x * y) = wr (x * y).
Proof. by rewrite N.mul_mod_idemp_l. Qed.
Lemma wr_mul_r x y : wr (x * wr y) = wr (x * y).
Proof. by rewrite N.mul_mod_idemp_r. Qed.
Lemma wr_add x y : wr (wr x + wr y) = wr (x + y).
Proof. rewrite N.add_mod_idemp_l, N.add_mod_idemp_r; done. Qed.
Lemma wr_small x : (x < U64)%N → wr x = x.
Proof. by apply N.mod_small. Qed.
Lemma wr_if (b : bool) : (if b then 1%N else 0%N) = wr (if b then 1%N else 0%N).
Proof. rewrite wr_small; [done|]. rewrite U64_pow. destruct b; cbn; lia. Qed.
Lemma fits_if (b : bool) : ((if b then 1 else 0) < U64)%N.
Proof. rewrite U64_pow. destruct b; cbn; lia. Qed.

Lemma power64_wrap x n : power64 Wrapping x n = Some (wr (power x n)).
Proof.
  induction n as [|n IH]; cbn [power64 power]; [by rewrite (wr_if true)|].
  rewrite IH. cbn [mbind option_bind]. rewrite u64_wrap. by rewrite wr_mul_l.
Qed.
Lemma power64_checked n : n < 64 → power64 Checked 2 n = Some (power 2 n).
Proof.
  induction n as [|n IH]; intros Hn; cbn [power64 power]; [done|].
  rewrite IH by lia. cbn [mbind option_bind]. apply u64_fits. rewrite power_pow, U64_pow.
  rewrite N.mul_comm, <- N.pow_succ_r', <- Nat2N.inj_succ. apply N.pow_lt_mono_r; lia.
Qed.

(** ** Wrapping: the exact run, reduced *)
Notation wrm c := ((λ x : N, wr x) <$> c).

Lemma bdd_count64_wrap n a ss : ∀ id cache cache' r, bdd_count_f n a ss id cache = Some (cache', r) →
  bdd_count64_f Wrapping n a ss id (wrm cache) = Some (wrm cache', wr r).
Proof.
  induction n as [|n IH]; intros id cache cache' r Hr; [done|]. cbn [bdd_count_f] in Hr. cbn [bdd_count64_f].
  rewrite lookup_fmap. destruct (cache !! id) as [x|] eqn:E; cbn [fmap option_fmap option_map].
  { injection Hr as <- <-. done. }
  destruct (ar_nodes a !! id) as [nd|]; [|done]. cbn [mbind option_bind] in Hr |- *.
  destruct nd as [[]|h cs]; cbn [mbind option_bind] in Hr |- *.
  1-2: injection Hr as <- <-; rewrite fmap_insert, <- wr_if; done.
  1: injection Hr as <- <-; rewrite fmap_insert, <- (wr_if false); done.
  destruct (edges2 cs) as [[e0 e1]|]; [|done]. cbn [mbind option_bind] in Hr |- *.
  destruct (hdr_level a h) as [cur|]; [|done]. cbn [mbind option_bind] in Hr |- *.
  destruct (ar_node_level a e0) as [l0|]; [|done]. cbn [mbind option_bind] in Hr |- *.
  rewrite power64_wrap. cbn [mbind option_bind].
  destruct (bdd_count_f n a ss e0 cache) as [[c0 x0]|] eqn:E0; [|done]. cbn [mbind option_bind] in Hr.
  rewrite (IH _ _ _ _ E0). cbn [mbind option_bind].
  rewrite !u64_wrap. cbn [mbind option_bind]. rewrite u64_wrap. cbn [mbind option_bind].
  destruct (ar_node_level a e1) as [l1|]; [|done]. cbn [mbind option_bind] in Hr |- *.
  rewrite power64_wrap. cbn [mbind option_bind].
  destruct (bdd_count_f n a ss e1 c0) as [[c1 x1]|] eqn:E1; [|done]. cbn [mbind option_bind] in Hr.
  rewrite (IH _ _ _ _ E1). cbn [mbind option_bind].
  rewrite !u64_wrap. cbn [mbind option_bind]. rewrite u64_wrap. cbn [mbind option_bind].
  injection Hr as <- <-.
  assert (Hv : wr (wr (0 + wr (wr (power 2 match l0 with Some next => cur - next - 1 | None => cur end) * wr x0)) +
     wr (wr (power 2 match l1 with Some next => cur - next - 1 | None => cur end) * wr x1)) =
     wr (0 + match l0 with Some next => power 2 (cur - next - 1) * x0 | None => power 2 cur * x0 end +
         match l1 with Some next => power 2 (cur - next - 1) * x1 | None => power 2 cur * x1 end)).
  { rewrite !N.add_0_l, !wr_mul. rewrite N.mod_mod by done. rewrite wr_add. f_equal. f_equal; by destruct l0, l1. }
  rewrite Hv, fmap_insert. done.
Qed.

Lemma zdd_count64_wrap n a ss : ∀ id cache cache' r, zdd_count_f n a ss id cache = Some (cache', r) →
  zdd_count64_f Wrapping n a ss id (wrm cache) = Some (wrm cache', wr r).
Proof.
  induction n as [|n IH]; intros id cache cache' r Hr; [done|]. cbn [zdd_count_f] in Hr. cbn [zdd_count64_f].
  rewrite lookup_fmap. destruct (cache !! id) as [x|] eqn:E; cbn [fmap option_fmap option_map].
  { injection Hr as <- <-. done. }
  destruct (ar_nodes a !! id) as [nd|]; [|done]. cbn [mbind option_bind] in Hr |- *.
  destruct nd as [[]|h cs]; cbn [mbind option_bind] in Hr |- *.
  1-2: injection Hr as <- <-; rewrite fmap_insert, <- wr_if; done.
  1: injection Hr as <- <-; rewrite fmap_insert, <- (wr_if false); done.
  destruct (edges2 cs) as [[e0 e1]|]; [|done]. cbn [mbind option_bind] in Hr |- *.
  destruct (zdd_count_f n a ss e0 cache) as [[c0 x0]|] eqn:E0; [|done]. cbn [mbind option_bind] in Hr.
  rewrite (IH _ _ _ _ E0). cbn [mbind option_bind].
  destruct (zdd_count_f n a ss e1 c0) as [[c1 x1]|] eqn:E1; [|done]. cbn [mbind option_bind] in Hr.
  rewrite (IH _ _ _ _ E1). cbn [mbind option_bind].
  rewrite u64_wrap. cbn [mbind option_bind]. injection Hr as <- <-. rewrite wr_add, fmap_insert. done.
Qed.

(** ** Checked *)
Definition fits (c : gmap nat N) : Prop := ∀ i x, c !! i = Some x → (x < U64)%N.
Lemma fits_insert c i x : fits c → (x < U64)%N → fits (<[i := x]> c).
Proof. intros Hc Hx j y. rewrite lookup_insert_Some. intros [[_ <-]|[_ H]]; [done|by eapply Hc]. Qed.

Lemma zdd_count64_checked n a ss : ∀ id cache cache' r, zdd_count_f n a ss id cache = Some (cache', r) → fits cache →
  ((r < U64)%N → zdd_count64_f Checked n a ss id cache = Some (cache', r) ∧ fits cache') ∧
  ((U64 ≤ r)%N → zdd_count64_f Checked n a ss id cache = None).
Proof.
  induction n as [|n IH]; intros id cache cache' r Hr Hf; [done|]. cbn [zdd_count_f] in Hr. cbn [zdd_count64_f].
  destruct (cache !! id) as [x|] eqn:E.
  { injection Hr as <- <-. split; [done|]. intros Hx. apply Hf in E. lia. }
  destruct (ar_nodes a !! id) as [nd|]; [|done]. cbn [mbind option_bind] in Hr |- *.
  assert (Hleaf : ∀ v : N, (v < U64)%N → Some (<[id := v]> cache, v) = Some (cache', r) →
    ((r < U64)%N → Some (<[id := v]> cache, v) = Some (cache', r) ∧ fits cache') ∧
    ((U64 ≤ r)%N → Some (<[id := v]> cache, v) = None)).
  { intros v Hv Heq. injection Heq as <- <-. split; [intros _; split; [done|by apply fits_insert]|lia]. }
  destruct nd as [[]|h cs]; cbn [mbind option_bind] in Hr |- *.
  1-2: apply Hleaf; [apply fits_if|done].
  1: apply Hleaf; [apply (fits_if false)|done].
  destruct (edges2 cs) as [[e0 e1]|]; [|done]. cbn [mbind option_bind] in Hr |- *.
  destruct (zdd_count_f n a ss e0 cache) as [[c0 x0]|] eqn:E0; [|done]. cbn [mbind option_bind] in Hr.
  destruct (zdd_count_f n a ss e1 c0) as [[c1 x1]|] eqn:E1; [|done]. cbn [mbind option_bind] in Hr.
  injection Hr as <- <-. destruct (IH _ _ _ _ E0 Hf) as [S0 N0].
  destruct (N.lt_ge_cases x0 U64) as [L0|G0].
  2: { rewrite (N0 G0). cbn. split; [lia|done]. }
  destruct (S0 L0) as [-> F0]. cbn [mbind option_bind]. destruct (IH _ _ _ _ E1 F0) as [S1 N1].
  destruct (N.lt_ge_cases x1 U64) as [L1|G1].
  2: { rewrite (N1 G1). cbn. split; [lia|done]. }
  destruct (S1 L1) as [-> F1]. cbn [mbind option_bind]. split.
  - intros L. rewrite (u64_fits _ _ L). cbn. split; [done|by apply fits_insert].
  - intros G. by rewrite (u64_over _ G).
Qed.

Lemma nsat_mono ss n k d : rank d ≤ n → (nsat ss n d ≤ nsat ss (k + n) d)%N.
Proof.
  intros H. rewrite nsat_up by done. assert (2 ^ N.of_nat k ≠ 0)%N by (by apply N.pow_nonzero). nia.
Qed.

Lemma bdd_count64_checked n a ss : good a → ∀ d id cache, repr a d id → rank d < n → rank d ≤ 64 →
  (∀ i x, cache !! i = Some x → (x < U64)%N ∧ ∃ di, repr a di i ∧ x = nsat ss (rank di) di) →
  ((nsat ss (rank d) d < U64)%N → ∃ cache', bdd_count64_f Checked n a ss id cache = Some (cache', nsat ss (rank d) d) ∧
    ∀ i x, cache' !! i = Some x → (x < U64)%N ∧ ∃ di, repr a di i ∧ x = nsat ss (rank di) di) ∧
  ((U64 ≤ nsat ss (rank d) d)%N → bdd_count64_f Checked n a ss id cache = None).
Proof.
  intros Hg. induction n as [|n IH]; intros d id cache Hr Hn H64 Hc; [lia|]. cbn [bdd_count64_f].
  destruct (cache !! id) as [x|] eqn:Hhit.
  { destruct (Hc _ _ Hhit) as (Hx & di & Hdi & ->). rewrite (repr_fun _ _ _ _ Hr Hdi). split; [|lia]. intros _. by exists cache. }
  assert (Hins : ∀ cache1 : gmap nat N, (nsat ss (rank d) d < U64)%N →
    (∀ i x, cache1 !! i = Some x → (x < U64)%N ∧ ∃ di, repr a di i ∧ x = nsat ss (rank di) di) →
    ∀ i x, <[id := nsat ss (rank d) d]> cache1 !! i = Some x → (x < U64)%N ∧ ∃ di, repr a di i ∧ x = nsat ss (rank di) di).
  { intros c1 Hb Hc1 i x. rewrite lookup_insert_Some. intros [[<- <-]|[_ H]]; [split; [done|by exists d]|eauto]. }
  destruct d as [t|hd ds].
  - apply repr_leaf in Hr as [Hl Hnd]. rewrite Hnd. cbn [mbind option_bind].
    assert (Hv : nsat ss (rank (Leaf t)) (Leaf t) = if hits ss t then 1%N else 0%N).
    { unfold nsat. cbn. by destruct (hits ss t). }
    assert (Hlt : (nsat ss (rank (Leaf t)) (Leaf t) < U64)%N) by (rewrite Hv; apply fits_if).
    split; [intros _|lia].
    destruct t; cbn [mbind option_bind hits] in *; rewrite <- Hv; (eexists; split; [done|]); exact (Hins cache Hlt Hc).
  - destruct (repr_node2 _ _ _ _ Hg Hr) as (h & lo & hi & dlo & dhi & -> & Hnd & Hh & Hlo & Hhi & Rlo & Rhi).
    rewrite Hnd. cbn [mbind option_bind edges2]. unfold hdr_level. rewrite Hh. cbn [mbind option_bind].
    rewrite (node_level_eq _ _ _ Hg Hlo), (node_level_eq _ _ _ Hg Hhi). cbn [mbind option_bind].
    cbn [rank] in Hn, H64.
    assert (Hp : ∀ dc : dd tv, rank dc ≤ h_level hd →
      power64 Checked 2 match match dc with Leaf _ => None | Br hd' _ => Some (h_level hd') end with
        | Some next => h_level hd - next - 1 | None => h_level hd end = Some (2 ^ N.of_nat (h_level hd - rank dc))%N).
    { intros dc Hdc. rewrite power64_checked by (destruct dc; lia). rewrite power_pow. do 3 f_equal.
      destruct dc; cbn [rank]; lia. }
    assert (Hup : ∀ dc, rank dc ≤ h_level hd → nsat ss (h_level hd) dc = (2 ^ N.of_nat (h_level hd - rank dc) * nsat ss (rank dc) dc)%N).
    { intros dc Hdc. rewrite <- nsat_up by done. f_equal. lia. }
    assert (Hge : ∀ dc, rank dc ≤ h_level hd → (nsat ss (rank dc) dc ≤ nsat ss (h_level hd) dc)%N).
    { intros dc Hdc. replace (h_level hd) with ((h_level hd - rank dc) + rank dc) by lia. by apply nsat_mono. }
    assert (Hv : nsat ss (rank (Br hd [dlo; dhi])) (Br hd [dlo; dhi]) = (nsat ss (h_level hd) dlo + nsat ss (h_level hd) dhi)%N).
    { cbn [rank]. rewrite nsat_S. by destruct (cof_br2 hd dlo dhi) as [-> ->]. }
    rewrite !Hp by done. cbn [mbind option_bind].
    pose proof (Hge dlo Rlo) as G0. pose proof (Hge dhi Rhi) as G1.
    destruct (IH dlo lo cache Hlo) as [S0 N0]; [lia..|done|].
    destruct (N.lt_ge_cases (nsat ss (rank dlo) dlo) U64) as [L0|B0].
    2: { rewrite (N0 B0). cbn [mbind option_bind]. split; [rewrite Hv; lia|done]. }
    destruct (S0 L0) as (c0 & -> & Hc0). cbn [mbind option_bind]. rewrite <- (Hup dlo Rlo).
    destruct (N.lt_ge_cases (nsat ss (h_level hd) dlo) U64) as [M0|B0].
    2: { rewrite (u64_over _ B0). cbn [mbind option_bind]. split; [rewrite Hv; lia|done]. }
    rewrite (u64_fits _ _ M0). cbn [mbind option_bind]. rewrite N.add_0_l, (u64_fits _ _ M0). cbn [mbind option_bind].
    destruct (IH dhi hi c0 Hhi) as [S1 N1]; [lia..|done|].
    destruct (N.lt_ge_cases (nsat ss (rank dhi) dhi) U64) as [L1|B1].
    2: { rewrite (N1 B1). cbn [mbind option_bind]. split; [rewrite Hv; lia|done]. }
    destruct (S1 L1) as (c1 & -> & Hc1). cbn [mbind option_bind]. rewrite <- (Hup dhi Rhi).
    destruct (N.lt_ge_cases (nsat ss (h_level hd) dhi) U64) as [M1|B1].
    2: { rewrite (u64_over _ B1). cbn [mbind option_bind]. split; [rewrite Hv; lia|done]. }
    rewrite (u64_fits _ _ M1). cbn [mbind option_bind]. rewrite <- Hv. split.
    + intros L. rewrite (u64_fits _ _ L). cbn. eexists. split; [done|]. exact (Hins c1 L Hc1).
    + intros B. by rewrite (u64_over _ B).
Qed.
