(** One slot, or one header, more than fits: two histories on which the narrowed manager answers wrongly. *)
From stdpp Require Import strings.
From Verif Require Import Prelude ComputeCache Arena Bdd SpecBdd Bdd32 SpecBdd32 Bdd32Proofs Bdd32Main.

Lemma log_app exec cs1 : ∀ m cs2, bdd_log exec m (cs1 ++ cs2) =
  '(rs1, m1) ← bdd_log exec m cs1; '(rs2, m2) ← bdd_log exec m1 cs2; Some (rs1 ++ rs2, m2).
Proof.
  induction cs1 as [|c cs1 IH]; intros m cs2; cbn [bdd_log app mbind option_bind].
  { by destruct (bdd_log exec m cs2) as [[]|]. }
  case_decide; [|done]. destruct (exec m c) as [[m1 r]|]; [|done]. cbn [mbind option_bind]. rewrite IH.
  destruct (bdd_log exec m1 cs1) as [[rs1 m2]|]; [|done]. cbn [mbind option_bind].
  by destruct (bdd_log exec m2 cs2) as [[rs2 m3]|].
Qed.

(** variable [k] of level [k] and its node (low = 0, high = 1) *)
Definition var_calls (k : nat) : list bdd_call := [CHeader k ""; CNode k 0 1].
Definition vars_calls (k : nat) : list bdd_call := concat (var_calls <$> seq 0 k).
Definition heads_calls (k : nat) : list bdd_call := (λ i, CHeader i "") <$> seq 0 k.

Record inv (hn nn : nat) (m : bdd) : Prop := {
  iv_h : bhd m = hn;
  iv_n : blen m = 3 + nn;
  iv_z : ar_nodes (b_ar m) !! 0 = Some (Term TZero);
  iv_o : ar_nodes (b_ar m) !! 1 = Some (Term TOne);
  iv_f : ar_free (b_ar m) = [];
  iv_u : ∀ h cs, is_Some (ar_utable (b_ar m) !! (h, cs)) → h < nn;
}.
Lemma new_inv : inv 0 0 bdd_new.
Proof. split; try done. intros h cs [? H]. cbn in H. by rewrite lookup_empty in H. Qed.
Lemma header_inv w hn nn m l : inv hn nn m → ∃ m1, n_exec w m (CHeader l "") = Some (m1, hn) ∧ inv (S hn) nn m1 ∧
  ar_headers (b_ar m1) !! hn = Some (Header hn l "" 2) ∧ (∀ i hd, ar_headers (b_ar m) !! i = Some hd → ar_headers (b_ar m1) !! i = Some hd) ∧
  ar_utable (b_ar m1) = ar_utable (b_ar m).
Proof.
  intros [Hh Hn Hz Ho Hf Hu]. cbn [n_exec]. unfold bdd_create_header, ar_create_header. cbn.
  unfold bhd in Hh. rewrite Hh. eexists. split; [done|]. cbn. split.
  { split; try done. unfold bhd. cbn. rewrite app_length, Hh. cbn. lia. }
  rewrite lookup_app_r by lia. rewrite Hh, Nat.sub_diag. cbn. sp; try done.
  intros i hd Hi. by apply lookup_app_l_Some.
Qed.
Lemma node_legal hn nn m h hd : inv hn nn m → ar_headers (b_ar m) !! h = Some hd → bdd_legal m (CNode h 0 1).
Proof.
  intros [Hh Hn Hz Ho Hf Hu] H. cbn. rewrite H. unfold bdd_valid, bdd_below, ar_node_level. rewrite Hz, Ho, Hf.
  unfold blen in Hn. sp; try done; try lia; by apply not_elem_of_nil.
Qed.
Lemma nar0 w : (2 <= w)%N → narrow w 0 = 0 ∧ narrow w 1 = 1 ∧ 4 ≤ cap w.
Proof.
  intros Hw. assert (4 ≤ cap w). { unfold cap. change 4 with (2 ^ 2). apply Nat.pow_le_mono_r; lia. }
  sp; try done; apply narrow_id; unfold cap in *; lia.
Qed.
(** the node of a fresh variable takes the next slot *)
Lemma node_inv w hn nn m hd : (2 <= w)%N → nn < cap w → inv hn nn m → ar_headers (b_ar m) !! nn = Some hd →
  ∃ m1, n_exec w m (CNode nn 0 1) = Some (m1, 3 + nn) ∧ inv hn (S nn) m1 ∧ ar_headers (b_ar m1) = ar_headers (b_ar m) ∧
    ar_utable (b_ar m1) !! (nn, [0; 1]) = Some (narrow w (3 + nn)).
Proof.
  intros Hw Hc Hi Hhd. destruct (nar0 w Hw) as (N0 & N1 & _). destruct Hi as [Hh Hn Hz Ho Hf Hu].
  cbn [n_exec]. unfold n_create_node. cbn [Nat.eqb]. unfold n_hashcons. cbn [fmap list_fmap].
  rewrite N0, N1, (narrow_id w nn) by done.
  destruct (ar_utable (b_ar m) !! (nn, [0; 1])) eqn:Hk.
  { assert (nn < nn) by (eapply Hu; by rewrite Hk). lia. }
  unfold ar_alloc. rewrite Hf. unfold blen in Hn. rewrite Hn. cbn [with_ar b_ar]. eexists. split; [done|]. cbn.
  rewrite lookup_insert. sp; try done.
  split; try done; unfold blen; cbn.
  - rewrite app_length, Hn. cbn. lia.
  - by apply lookup_app_l_Some.
  - by apply lookup_app_l_Some.
  - intros h cs. destruct (decide ((h, cs) = (nn, [0; 1]))) as [[= -> ->]|Hne]; [lia|].
    rewrite lookup_insert_ne by done. intros H. specialize (Hu _ _ H). lia.
Qed.
(** asking again *)
Lemma node_again w m h hd id hn nn : (2 <= w)%N → inv hn nn m → ar_headers (b_ar m) !! h = Some hd →
  ar_utable (b_ar m) !! (narrow w h, [0; 1]) = Some id → bdd_log (n_exec w) m [CNode h 0 1] = Some ([id], m).
Proof.
  intros Hw Hi Hhd Hu. destruct (nar0 w Hw) as (N0 & N1 & _). cbn [bdd_log].
  rewrite decide_True by (by eapply node_legal).
  cbn [n_exec]. unfold n_create_node. cbn [Nat.eqb]. unfold n_hashcons. cbn [fmap list_fmap].
  rewrite N0, N1, Hu. cbn. by destruct m as [[] ? ?].
Qed.
Lemma vars_inv w k : (2 <= w)%N → k < cap w →
  ∃ rs m, bdd_log (n_exec w) bdd_new (vars_calls k) = Some (rs, m) ∧ inv k k m.
Proof.
  intros Hw. induction k as [|k IH]; intros Hk.
  { exists [], bdd_new. split; [done|apply new_inv]. }
  destruct IH as (rs & m & Hlog & Hi); [lia|]. unfold vars_calls. rewrite seq_S, fmap_app, concat_app, log_app.
  fold (vars_calls k). rewrite Hlog. cbn [mbind option_bind fmap list_fmap concat app var_calls Nat.add bdd_log].
  rewrite decide_True by done.
  destruct (header_inv w k k m k Hi) as (m1 & -> & Hi1 & Hh1 & _). cbn [mbind option_bind].
  rewrite decide_True by (by eapply node_legal).
  destruct (node_inv w (S k) k m1 _ Hw ltac:(lia) Hi1 Hh1) as (m2 & -> & Hi2 & _). cbn [mbind option_bind].
  by eexists _, m2.
Qed.
Lemma heads_inv w k m hn : inv hn 0 m →
  ∃ rs m1, bdd_log (n_exec w) m ((λ i, CHeader i "") <$> seq hn k) = Some (rs, m1) ∧ inv (hn + k) 0 m1 ∧
    (∀ i, hn ≤ i < hn + k → ∃ hd, ar_headers (b_ar m1) !! i = Some hd ∧ h_level hd = i) ∧
    (∀ i hd, ar_headers (b_ar m) !! i = Some hd → ar_headers (b_ar m1) !! i = Some hd).
Proof.
  revert m hn. induction k as [|k IH]; intros m hn Hi.
  { exists [], m. rewrite Nat.add_0_r. sp; try done. lia. }
  cbn [seq]. rewrite fmap_cons. cbn [bdd_log]. rewrite decide_True by done.
  destruct (header_inv w hn 0 m hn Hi) as (m1 & -> & Hi1 & Hh1 & Hk & _). cbn [mbind option_bind].
  destruct (IH m1 (S hn) Hi1) as (rs & m2 & Hlog & Hi2 & Hl & Hk2). rewrite Hlog. cbn [mbind option_bind].
  eexists _, m2. split; [done|]. rewrite Nat.add_succ_r. sp; try done.
  - intros i Hin. destruct (decide (i = hn)) as [->|]; [|apply Hl; lia].
    eexists. split; [by apply Hk2|done].
  - intros i hd H. by apply Hk2, Hk.
Qed.

Lemma slot_limit w : (2 <= w)%N → ∃ cs h rs m,
  bdd_log (n_exec w) bdd_new (cs ++ [CNode h 0 1; CNode h 0 1]) = Some (rs ++ [cap w; bdd_zero], m) ∧
  blen m = S (cap w) ∧ bhd m ≤ cap w.
Proof.
  intros Hw. destruct (nar0 w Hw) as (_ & _ & H4). set (k := cap w - 3).
  destruct (vars_inv w k Hw ltac:(unfold k; lia)) as (rs & m & Hlog & Hi).
  destruct (header_inv w k k m k Hi) as (m1 & E1 & Hi1 & Hh1 & _).
  destruct (node_inv w (S k) k m1 _ Hw ltac:(unfold k; lia) Hi1 Hh1) as (m2 & E2 & Hi2 & Hs2 & Hu2).
  assert (3 + k = cap w) as Ek by (unfold k; lia). rewrite Ek in E2, Hu2.
  assert (narrow w (cap w) = 0) as Hz.
  { unfold narrow, cap. rewrite Nat2N.inj_pow, N2Nat.id. change (N.of_nat 2) with 2%N. rewrite N.mod_same; [done|]. by apply N.pow_nonzero. }
  rewrite Hz in Hu2.
  exists (vars_calls k ++ [CHeader k ""]), k, (rs ++ [k]), m2.
  change ([CNode k 0 1; CNode k 0 1]) with ([CNode k 0 1] ++ [CNode k 0 1]).
  rewrite <- !(assoc_L app), log_app, Hlog. cbn [mbind option_bind].
  rewrite log_app. cbn [bdd_log]. rewrite decide_True by done. rewrite E1. cbn [mbind option_bind].
  rewrite log_app. cbn [bdd_log]. rewrite decide_True by (by eapply node_legal). rewrite E2. cbn [mbind option_bind].
  pose proof (node_again w m2 k _ 0 (S k) (S k) Hw Hi2 ltac:(rewrite Hs2; exact Hh1)) as Ha.
  rewrite (narrow_id w k) in Ha by (unfold cap in *; lia). specialize (Ha Hu2). cbn [bdd_log mbind option_bind] in Ha. rewrite Ha. cbn [mbind option_bind app].
  sp; [done| |].
  - rewrite (iv_n _ _ _ Hi2). unfold k. lia.
  - rewrite (iv_h _ _ _ Hi2). unfold k. lia.
Qed.
Lemma header_limit w : (2 <= w)%N → ∃ cs rs m x hd0 hd1,
  bdd_log (n_exec w) bdd_new (cs ++ [CNode 0 0 1; CNode (cap w) 0 1]) = Some (rs ++ [x; x], m) ∧
  ar_headers (b_ar m) !! 0 = Some hd0 ∧ ar_headers (b_ar m) !! cap w = Some hd1 ∧ h_level hd0 ≠ h_level hd1 ∧
  blen m ≤ cap w ∧ bhd m = S (cap w).
Proof.
  intros Hw. destruct (nar0 w Hw) as (_ & _ & H4).
  destruct (heads_inv w (S (cap w)) bdd_new 0 new_inv) as (rs & m1 & Hlog & Hi1 & Hl & _).
  destruct (Hl 0 ltac:(lia)) as (hd0 & Hh0 & L0). destruct (Hl (cap w) ltac:(lia)) as (hd1 & Hh1 & L1).
  destruct (node_inv w (0 + S (cap w)) 0 m1 hd0 Hw ltac:(lia) Hi1 Hh0) as (m2 & E2 & Hi2 & Hs2 & Hu2).
  rewrite (narrow_id w (3 + 0)) in Hu2 by (unfold cap in *; lia).
  exists (heads_calls (S (cap w))), rs, m2, 3, hd0, hd1. rewrite Hs2. sp; try done.
  - rewrite log_app. unfold heads_calls. rewrite Hlog. cbn [mbind option_bind].
    change ([CNode 0 0 1; CNode (cap w) 0 1]) with ([CNode 0 0 1] ++ [CNode (cap w) 0 1]).
    rewrite log_app. cbn [bdd_log]. rewrite decide_True by (by eapply node_legal). rewrite E2. cbn [mbind option_bind].
    pose proof (node_again w m2 (cap w) hd1 3 _ _ Hw Hi2 ltac:(rewrite Hs2; exact Hh1)) as Ha.
    assert (narrow w (cap w) = 0) as Hz.
    { unfold narrow, cap. rewrite Nat2N.inj_pow, N2Nat.id. change (N.of_nat 2) with 2%N. rewrite N.mod_same; [done|]. by apply N.pow_nonzero. }
    rewrite Hz in Ha. specialize (Ha Hu2). cbn [bdd_log mbind option_bind] in Ha. rewrite Ha. done.
  - rewrite L0, L1. lia.
  - rewrite (iv_n _ _ _ Hi2). lia.
  - by rewrite (iv_h _ _ _ Hi2).
Qed.
