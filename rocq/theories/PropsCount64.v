(** C69, C70: the counts the API returns are 64-bit. *)
From stdpp Require Import strings.
From Verif Require Import Prelude ComputeCache Arena Trees ArenaProofs Bdd BddProofs SpecBdd SpecBss BddMain BssAlg BssCount Zdd ZddTrees ZddProofs SpecZdd ZddMain ZddAlg ZddCount BssMgr SpecBssMgr BssMgrProofs BssMgrMain
  ZddMgr SpecZddMgr ZddMgrProofs ZddMgrMain BssLook SpecBssLook BssLookProofs BssLookMain Count64 Count64Proofs.

Lemma U64_eq : U64 = (2 ^ 64)%N. Proof. apply U64_pow. Qed.

Lemma of_exact64 w ss f k : w_count w ss f = Some k → w_count64 Wrapping w ss f = Some (k mod 2 ^ 64)%N.
Proof.
  unfold w_count, bdd_count, w_count64. destruct (bdd_count_f _ _ _ _ _) as [[c r]|] eqn:E; [|done]. cbn [mbind option_bind]. intros [= <-].
  apply bdd_count64_wrap in E. rewrite fmap_empty in E. rewrite E. cbn [mbind option_bind]. by rewrite U64_eq.
Qed.
Lemma z_exact64 w ss f k : y_count w ss f = Some k →
  y_count64 Wrapping w ss f = Some (k mod 2 ^ 64)%N ∧
  y_count64 Checked w ss f = if (k <? 2 ^ 64)%N then Some k else None.
Proof.
  unfold y_count, zdd_count, y_count64. destruct (zdd_count_f _ _ _ _ _) as [[c r]|] eqn:E; [|done]. cbn [mbind option_bind]. intros [= <-].
  rewrite <- U64_eq. destruct (zdd_count64_checked _ _ _ _ _ _ _ E) as [S0 N0]; [done|].
  apply zdd_count64_wrap in E. rewrite fmap_empty in E. rewrite E. split; [done|].
  destruct (N.ltb_spec r U64) as [L|G]; [by destruct (S0 L) as [-> _]|by rewrite (N0 G)].
Qed.

(** ** C69 *)
(** Without overflow checks bdd_count is the number of assignments modulo 2^64. *)
Theorem c69_bdd_release w H f F names ss n L : bss_held w H → (f, F) ∈ H → w_varorder w = Some names →
  n = match w_level w f with Some l => S l | None => 0 end →
  NoDup L → (∀ v, v ∈ L ↔ length v = n ∧ F (vec_env names v) ∈ ss) →
  w_count64 Wrapping w ss f = Some (N.of_nat (length L) mod 2 ^ 64)%N.
Proof. exact (λ Hh Hf Hn Hl Hd HL, of_exact64 _ _ _ _ (held_count w H f F names Hh Hf Hn ss n L Hl Hd HL)). Qed.
Print Assumptions c69_bdd_release.

(** ZddNode::count: modulo 2^64 without overflow checks; with them the number of members, or a panic if it does not fit. *)
Theorem c69_zdd w H f F L : zdd_in_use w H → (f, Some F) ∈ H → NoDup L → (∀ S, S ∈ L ↔ F S) →
  y_count64 Wrapping w [true] f = Some (N.of_nat (length L) mod 2 ^ 64)%N ∧
  y_count64 Checked w [true] f = if (N.of_nat (length L) <? 2 ^ 64)%N then Some (N.of_nat (length L)) else None.
Proof. exact (λ Hh Hf Hd HL, z_exact64 _ _ _ _ (in_use_count w H f F L Hh Hf Hd HL)). Qed.
Print Assumptions c69_zdd.

(** ** C70 *)
(** With overflow checks, bdd_count of a function of the first 64 variables: the number, or a panic if it does not fit. *)
Theorem c70_checked_partial w H f F names ss n L : bss_held w H → (f, F) ∈ H → w_varorder w = Some names →
  n = match w_level w f with Some l => S l | None => 0 end → n ≤ 64 →
  NoDup L → (∀ v, v ∈ L ↔ length v = n ∧ F (vec_env names v) ∈ ss) →
  w_count64 Checked w ss f = if (N.of_nat (length L) <? 2 ^ 64)%N then Some (N.of_nat (length L)) else None.
Proof.
  intros Hh Hf Hn Hl H64 Hd HL. pose proof (held_count w H f F names Hh Hf Hn ss n L Hl Hd HL) as Hk.
  apply held_wok in Hh as Hw. pose proof (bw_good _ (wk_wf _ _ Hw)) as Hg.
  destruct (valid_repr _ _ (wk_wf _ _ Hw) (proj1 (wk_held _ _ Hw _ _ Hf))) as [d Hr].
  assert (Hrk : rank d = n).
  { rewrite Hl, (level_rank w H f F Hh Hf), (node_level_eq _ _ _ Hg Hr). destruct d; cbn; lia. }
  assert (Hfu : rank d < ar_fuel (b_ar (w_bdd w))) by (by eapply fuel_enough).
  destruct (bdd_count_spec _ _ ss Hg d f ∅ Hr Hfu) as (c & E & _); [done|].
  unfold w_count, bdd_count in Hk. rewrite E in Hk. cbn [mbind option_bind] in Hk. injection Hk as <-.
  destruct (bdd_count64_checked _ _ ss Hg d f ∅ Hr Hfu) as [S0 N0]; [lia|done|].
  unfold w_count64. rewrite <- U64_eq. destruct (N.ltb_spec (nsat ss (rank d) d) U64) as [B|B].
  - by destruct (S0 B) as (c' & -> & _).
  - by rewrite (N0 B).
Qed.
Print Assumptions c70_checked_partial.

(** ... refuted in general: the series system of 65 components works in exactly one state, and asking for the number
    of its working states panics (the code computes 2^64 for the edge into the constant 0, before multiplying by 0). *)
Fixpoint xs (n : nat) : string := match n with O => "x" | S n => String.append "x" (xs n) end.
Fixpoint defvars (w : bmgr) (names : list string) : bmgr * list nat :=
  match names with
  | [] => (w, [])
  | x :: names => let '(w, r) := w_defvar w x in let '(w, rs) := defvars w names in (w, r :: rs)
  end.
Lemma defvars_held names : ∀ w H w' ids, bss_held w H → defvars w names = (w', ids) →
  ∃ H' L, bss_held w' H' ∧ (∀ x, x ∈ H → x ∈ H') ∧ (∀ x, x ∈ L → x ∈ H') ∧ L.*1 = ids ∧ L.*2 = (λ x (e : env), e x) <$> names.
Proof.
  induction names as [|x names IH]; intros w H w' ids Hh E; cbn [defvars] in E.
  { injection E as <- <-. exists H, []. sp; try done. by intros ? ?%elem_of_nil. }
  destruct (w_defvar w x) as [w1 r] eqn:E1. destruct (defvars w1 names) as [w2 rs] eqn:E2. injection E as <- <-.
  apply (st_defvar _ H), (sh_step _ _ _ _ Hh) in E1.
  destruct (IH _ _ _ _ E1 E2) as (H' & L & Hh' & Hs & HL & H1 & H2).
  exists H', ((r, λ e, e x) :: L). sp.
  - done.
  - intros y Hy. apply Hs. by right.
  - intros y [->|Hy]%elem_of_cons; [apply Hs; by left|auto].
  - cbn. by rewrite H1.
  - cbn. by rewrite H2.
Qed.
Definition ex_series (n : nat) : option (bmgr * nat) :=
  let '(w, ids) := defvars w_new (xs <$> seq 0 n) in w_and_list w ids.
Definition ex_counts (n : nat) : option (option nat * (option N * option N * option N)) :=
  '(w, f) ← ex_series n;
  Some (w_level w f, (w_count w [true] f, w_count64 Checked w [true] f, w_count64 Wrapping w [true] f)).
Example c70_ex_64 : ex_counts 64 = Some (Some 63, (Some 1, Some 1, Some 1)%N).
Proof. vm_compute. done. Qed.
Example c70_ex_65 : ex_counts 65 = Some (Some 64, (Some 1, None, Some 1)%N).
Proof. vm_compute. done. Qed.
Theorem c70_checked_refuted : ∃ w H f F names n L, bss_held w H ∧ (f, F) ∈ H ∧ w_varorder w = Some names ∧
  n = match w_level w f with Some l => S l | None => 0 end ∧
  NoDup L ∧ (∀ v, v ∈ L ↔ length v = n ∧ F (vec_env names v) ∈ [true]) ∧ length L = 1 ∧
  w_count64 Checked w [true] f = None.
Proof.
  pose proof c70_ex_65 as Hx. revert Hx. unfold ex_counts, ex_series.
  generalize 65. intros k. pose proof sh_new as H0. revert H0. generalize w_new. intros w0 H0.
  destruct (defvars w0 (xs <$> seq 0 k)) as [w1 ids] eqn:E1.
  destruct (defvars_held _ _ _ _ _ H0 E1) as (H1 & L & Hh & _ & HL & <- & _).
  destruct (w_and_list w1 L.*1) as [[w2 f]|] eqn:E2; [|done]. cbn [mbind option_bind].
  apply (st_and_list _ _ _ _ _ HL), (sh_step _ _ _ _ Hh) in E2. intros Hx.
  assert (Hx' : w_count w2 [true] f = Some 1%N ∧ w_count64 Checked w2 [true] f = None) by (by injection Hx).
  clear Hx. destruct Hx' as [Hc Hn].
  destruct (held_order w2 _ E2) as (names & Hnm & _).
  destruct (held_extract w2 _ f _ names E2 (elem_of_list_here _ _) Hnm [true] _ eq_refl) as (S & k0 & HS & HS' & _ & Hk).
  rewrite Hc in Hk. injection Hk as Hk.
  eexists w2, _, f, _, names, _, S. split; [exact E2|]. split; [by left|]. sp; try done. lia.
Qed.
Print Assumptions c70_checked_refuted.

(** The 65th variable is true at 2^64 of the 2^65 states of the first 65 components. *)
Example c69_ex_bdd : (let '(w, ids) := defvars w_new (xs <$> seq 0 65) in f ← last ids;
    Some (w_count w [true] f, w_count64 Checked w [true] f, w_count64 Wrapping w [true] f)) =
  Some (Some 18446744073709551616, None, Some 0)%N.
Proof. vm_compute. done. Qed.
(** All subsets of n elements: the product of the families {∅, {x}}. *)
Fixpoint ex_subsets (w : zmgr) (n : nat) : option (zmgr * nat) :=
  '(w, b) ← y_base w;
  match n with
  | O => Some (w, b)
  | S n => '(w, x) ← y_singleton w (xs n); '(w, p) ← y_op ZUnion w b x; '(w, r) ← ex_subsets w n; y_op ZProduct w p r
  end.
Definition ex_zcounts (n : nat) : option (option N * option N * option N) :=
  '(w, f) ← ex_subsets y_new n;
  Some (y_count w [true] f, y_count64 Checked w [true] f, y_count64 Wrapping w [true] f).
Example c69_ex_zdd : ex_zcounts 64 = Some (Some 18446744073709551616, None, Some 0)%N.
Proof. vm_compute. done. Qed.
