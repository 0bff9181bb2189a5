(** C69 for multi-state diagrams and families: the counts the API returns are 64-bit. *)
From stdpp Require Import strings.
From Verif Require Import Prelude ComputeCache Arena Bdd Mdd MtMdd MtMdd2 Zmdd ZmddAlg BssMgr MssMgr MssAlg SpecMdd SpecBss SpecMss SpecMssAlg MmProofs MssMgrProofs MssRpn
  MssSolMgr MssAlgMain SpecZmdd SpecZmddAlg ZmddMain ZmddAlgProofs PropsZmddAlg Count64 Count64Proofs MCount64 MCount64Proofs PropsMss PropsMssAlg.

Lemma m_exact64 I w H x ss k : mdd_held I w H → g_count w x ss = Some k →
  g_count64 Wrapping w x ss = Some (k mod 2 ^ 64)%N ∧
  g_count64 Checked w x ss = if (k <? 2 ^ 64)%N then Some k else None.
Proof.
  intros Hm Hk. apply held_gok in Hm.
  assert (He : ∀ hd, hd ∈ hdrs (g_mm w) → 0 < h_edges hd) by (apply (gok_hc _ _ _ Hm)).
  assert (Hgen : ∀ T keyed (hit : T → option bool) (a : arena T) f, (∀ hd, hd ∈ ar_headers a → 0 < h_edges hd) →
    ncount keyed hit a f = Some k → ncount64 Wrapping keyed hit a f = Some (k mod 2 ^ 64)%N ∧
      ncount64 Checked keyed hit a f = if (k <? 2 ^ 64)%N then Some k else None).
  { clear. intros T keyed hit a f He. unfold ncount, ncount64. change (2 ^ 64)%N with (2 ^ N.of_nat 64)%N. rewrite <- U64_pow.
    destruct (ar_node_level a f) as [[l|]|]; [| |done]; cbn [mbind option_bind].
    - destruct (l2h_table a) as [t|]; [|done]. cbn [mbind option_bind].
      destruct (ncount_f _ _ _ _ _ _ _ _) as [[c r]|] eqn:E; [|done]. cbn [mbind option_bind]. intros [= <-].
      destruct (ncount64_checked keyed hit a t _ (λ h hd Hd, He hd (elem_of_list_lookup_2 _ _ _ Hd)) _ _ _ _ _ E) as [S0 N0]; [done|].
      apply ncount64_wrap in E. rewrite fmap_empty in E. rewrite E. split; [done|].
      destruct (N.ltb_spec r U64) as [L|G]; [by destruct (S0 L) as [-> _]|by rewrite (N0 G)].
    - intros [= <-]. pose proof (fits_if true) as B. cbn in B. rewrite N.mod_small by done. apply N.ltb_lt in B as ->. done. }
  destruct x as [f|f]; (apply Hgen; [|done]); [|done]. intros hd. rewrite (mmw_h _ _ (gk_wf _ _ _ Hm)). apply He.
Qed.

(** mdd_count of an integer diagram that is not constant (for constants see C34): modulo 2^64 without overflow checks;
    with them the number of state vectors, or a panic if it does not fit. *)
Theorem c69_mdd I w H f F ss l L : mdd_held I w H → (NVal f, Some F) ∈ H → g_level w (NVal f) = Some l →
  solutions (declared w) (scope w (NVal f)) F ss L →
  g_count64 Wrapping w (NVal f) ss = Some (N.of_nat (length L) mod 2 ^ 64)%N ∧
  g_count64 Checked w (NVal f) ss = if (N.of_nat (length L) <? 2 ^ 64)%N then Some (N.of_nat (length L)) else None.
Proof. exact (λ Hm Hx Hl HL, m_exact64 I w H _ ss _ Hm (c34_count_partial I w H f F ss l L Hm Hx Hl HL)). Qed.
Print Assumptions c69_mdd.

(** ... and of a boolean one no node of which is entered from two levels (see C34). *)
Theorem c69_mdd_bool I w H f F ss l L : mdd_held I w H → (NBool f, Some F) ∈ H → one_entry (d_ar (mm_b (g_mm w))) f →
  g_level w (NBool f) = Some l → solutions (declared w) (scope w (NBool f)) F ss L →
  g_count64 Wrapping w (NBool f) ss = Some (N.of_nat (length L) mod 2 ^ 64)%N ∧
  g_count64 Checked w (NBool f) ss = if (N.of_nat (length L) <? 2 ^ 64)%N then Some (N.of_nat (length L)) else None.
Proof. exact (λ Hm Hx H1 Hl HL, m_exact64 I w H _ ss _ Hm (c34_bool_partial I w H f F ss l L Hm Hx H1 Hl HL)). Qed.
Print Assumptions c69_mdd_bool.

(** ZmddNode::count against the vectors extract yields. *)
Theorem c69_zmdd m (ss : list Z) f (rev : bool) vars :
  zm_reachable m → node_valid (t_ar m) f → vars_ok vars → vars_cover (t_ar m) vars f →
  ∃ L k0, (∀ fuel, k0 ≤ fuel → zm_extract fuel m ss (ZMNode f rev vars) = Some L) ∧
    zm_count64 Wrapping m ss f = Some (N.of_nat (length L) mod 2 ^ 64)%N ∧
    zm_count64 Checked m ss f = if (N.of_nat (length L) <? 2 ^ 64)%N then Some (N.of_nat (length L)) else None.
Proof.
  intros Hm Hf Hv Hc. destruct (c40_extract m ss f rev vars Hm Hf Hv Hc) as (Ls & k0 & _ & _ & Hx & Hk).
  eexists _, k0. split; [exact Hx|]. revert Hk. generalize (N.of_nat (length (map (report rev vars) Ls))). intros k.
  unfold zm_count, zm_count64. destruct (zm_count_f _ _ _ _ _) as [[c r]|] eqn:E; [|done]. cbn [mbind option_bind]. intros [= <-].
  change (2 ^ 64)%N with (2 ^ N.of_nat 64)%N. rewrite <- U64_pow. destruct (zm_count64_checked _ _ _ _ _ _ _ E) as [S0 N0]; [done|].
  apply zm_count64_wrap in E. rewrite fmap_empty in E. rewrite E. split; [done|].
  destruct (N.ltb_spec r U64) as [L|G]; [by destruct (S0 L) as [-> _]|by rewrite (N0 G)].
Qed.
Print Assumptions c69_zmdd.

(** [ss] selecting everything: the counts of the 41 variables of 3 states below [x_40 + x_40] are 3^41 > 2^64. *)
Fixpoint xs (n : nat) : string := match n with O => "x" | S n => String.append "x" (xs n) end.
Fixpoint ex_vars (w : mmgr) (n k : nat) : option (mmgr * mnode) :=
  match n with O => g_defvar w (xs k) 3 | S n => '(w, _) ← g_defvar w (xs k) 3; ex_vars w n (S k) end.
Example c69_ex_mdd : map (λ n, '(w, x) ← ex_vars g_new n 0;
    Some (g_count w x [0; 1; 2]%Z, g_count64 Checked w x [0; 1; 2]%Z, g_count64 Wrapping w x [0; 1; 2]%Z)) [39; 40] =
  [Some (Some 12157665459056928801, Some 12157665459056928801, Some 12157665459056928801);
   Some (Some 36472996377170786403, None, Some 18026252303461234787)]%N.
Proof. vm_compute. done. Qed.
(** The vectors of n two-state components, all labelled 7: node 1 is the label, node k + 2 tests component k. *)
Definition ex_cube (n : nat) : list zm_call :=
  ((λ k, ZHeader k (xs k) 2) <$> seq 0 n) ++ ZValue 7 :: ((λ k, ZNode k [k + 1; k + 1]) <$> seq 0 n).
Definition ex_zmcounts (n : nat) : option (option N * option N * option N) :=
  m ← zm_run zm_new (ex_cube n);
  Some (zm_count m [7%Z] (n + 1), zm_count64 Checked m [7%Z] (n + 1), zm_count64 Wrapping m [7%Z] (n + 1)).
Example c69_ex_zmdd : ex_zmcounts 63 = Some (Some 9223372036854775808, Some 9223372036854775808, Some 9223372036854775808)%N ∧
  ex_zmcounts 64 = Some (Some 18446744073709551616, None, Some 0)%N.
Proof. split; vm_compute; done. Qed.
