(** Proofs about the machine counters of the multi-state queries. *)
From stdpp Require Import strings.
From Verif Require Import Prelude ComputeCache Arena Bdd Mdd MtMdd MtMdd2 Zmdd ZmddAlg BssMgr MssMgr MssAlg Count64 Count64Proofs MCount64.

Local Hint Resolve U64_nz : core.
Definition kfits (c : gmap (nat * option nat) N) : Prop := ∀ i x, c !! i = Some x → (x < U64)%N.
Lemma kfits_insert c i x : kfits c → (x < U64)%N → kfits (<[i := x]> c).
Proof. intros Hc Hx j y. rewrite lookup_insert_Some. intros [[_ <-]|[_ H]]; [done|by eapply Hc]. Qed.
Notation wrm c := ((λ x : N, (x mod U64)%N) <$> c).

Section count.
Context {T : Type} (keyed : bool) (hit : T → option bool) (a : arena T) (l2h : list nat).

Lemma ncount64_wrap n : ∀ level id cache cache' r, ncount_f keyed hit n a l2h level id cache = Some (cache', r) →
  ncount64_f Wrapping keyed hit n a l2h level id (wrm cache) = Some (wrm cache', r mod U64)%N.
Proof.
  induction n as [|n IH]; intros level id cache cache' r Hr; [done|]. cbn [ncount_f] in Hr. cbn [ncount64_f].
  rewrite lookup_fmap. destruct (cache !! (id, if keyed then level else None)) as [x|] eqn:E; cbn [fmap option_fmap option_map].
  { injection Hr as <- <-. done. }
  destruct (ar_nodes a !! id) as [nd|]; [|done]. cbn [mbind option_bind] in Hr |- *.
  destruct (ar_node_level a id) as [nl|]; [|done]. cbn [mbind option_bind] in Hr |- *.
  destruct (negb (undetermined hit nd) && olt nl level).
  { destruct level as [l|]; [|done]. cbn [mbind option_bind] in Hr |- *.
    destruct (l2h !! l) as [h|]; [|done]. cbn [mbind option_bind] in Hr |- *.
    destruct (ar_headers a !! h) as [hd|]; [|done]. cbn [mbind option_bind] in Hr |- *.
    destruct (ncount_f keyed hit n a l2h (opred (Some l)) id cache) as [[c0 x0]|] eqn:E0; [|done]. cbn [mbind option_bind] in Hr.
    rewrite (IH _ _ _ _ _ E0). cbn [mbind option_bind]. rewrite u64_wrap. cbn [mbind option_bind].
    injection Hr as <- <-. rewrite wr_mul_r, fmap_insert. done. }
  destruct nd as [t|h cs].
  { cbn [mbind option_bind] in Hr |- *. injection Hr as <- <-. rewrite fmap_insert.
    destruct (hit t) as [[]|]; [rewrite <- (wr_if true)|rewrite <- (wr_if false)..]; done. }
  assert (Hgo : ∀ cs cache r0 cache' r', (fix go cs cache r {struct cs} :=
        match cs with
        | [] => Some (cache, r)
        | c :: cs => '(cache, tmp) ← ncount_f keyed hit n a l2h (opred level) c cache; go cs cache (r + tmp)%N
        end) cs cache r0 = Some (cache', r') →
    (fix go cs cache r {struct cs} :=
        match cs with
        | [] => Some (cache, r)
        | c :: cs => '(cache, tmp) ← ncount64_f Wrapping keyed hit n a l2h (opred level) c cache;
                     r ← u64 Wrapping (r + tmp); go cs cache r
        end) cs (wrm cache) (r0 mod U64)%N = Some (wrm cache', r' mod U64)%N).
  { clear Hr E. clear cs. induction cs as [|c cs IHc]; intros c0 r0 c1 r1 Hg.
    - injection Hg as <- <-. done.
    - destruct (ncount_f keyed hit n a l2h (opred level) c c0) as [[c2 x]|] eqn:E; [|done]. cbn [mbind option_bind] in Hg.
      rewrite (IH _ _ _ _ _ E). cbn [mbind option_bind]. rewrite u64_wrap. cbn [mbind option_bind].
      rewrite wr_add. by apply IHc. }
  match type of Hr with (mbind _ ?g) = _ => destruct g as [[c0 x0]|] eqn:E0 end; [|done]. cbn [mbind option_bind] in Hr.
  apply Hgo in E0. rewrite N.mod_0_l in E0 by done. rewrite E0. cbn [mbind option_bind].
  injection Hr as <- <-. by rewrite fmap_insert.
Qed.

Lemma ncount64_checked n (Hh : ∀ h hd, ar_headers a !! h = Some hd → 0 < h_edges hd) :
  ∀ level id cache cache' r, ncount_f keyed hit n a l2h level id cache = Some (cache', r) → kfits cache →
  ((r < U64)%N → ncount64_f Checked keyed hit n a l2h level id cache = Some (cache', r) ∧ kfits cache') ∧
  ((U64 ≤ r)%N → ncount64_f Checked keyed hit n a l2h level id cache = None).
Proof.
  induction n as [|n IH]; intros level id cache cache' r Hr Hf; [done|]. cbn [ncount_f] in Hr. cbn [ncount64_f].
  destruct (cache !! (id, if keyed then level else None)) as [x|] eqn:E.
  { injection Hr as <- <-. split; [done|]. intros Hx. apply Hf in E. lia. }
  destruct (ar_nodes a !! id) as [nd|]; [|done]. cbn [mbind option_bind] in Hr |- *.
  destruct (ar_node_level a id) as [nl|]; [|done]. cbn [mbind option_bind] in Hr |- *.
  destruct (negb (undetermined hit nd) && olt nl level).
  { destruct level as [l|]; [|done]. cbn [mbind option_bind] in Hr |- *.
    destruct (l2h !! l) as [h|]; [|done]. cbn [mbind option_bind] in Hr |- *.
    destruct (ar_headers a !! h) as [hd|] eqn:Ehd; [|done]. cbn [mbind option_bind] in Hr |- *. apply Hh in Ehd.
    destruct (ncount_f keyed hit n a l2h (opred (Some l)) id cache) as [[c0 x0]|] eqn:E0; [|done]. cbn [mbind option_bind] in Hr.
    injection Hr as <- <-. destruct (IH _ _ _ _ _ E0 Hf) as [S0 N0].
    destruct (N.lt_ge_cases x0 U64) as [L0|G0].
    2: { rewrite (N0 G0). cbn [mbind option_bind]. split; [nia|done]. }
    destruct (S0 L0) as [-> F0]. cbn [mbind option_bind]. split.
    - intros L. rewrite (u64_fits _ _ L). cbn [mbind option_bind]. split; [done|by apply kfits_insert].
    - intros G. by rewrite (u64_over _ G). }
  destruct nd as [t|h cs].
  { cbn [mbind option_bind] in Hr |- *. injection Hr as <- <-.
    assert (match hit t with Some true => 1%N | _ => 0%N end < U64)%N
      by (destruct (hit t) as [[]|]; [apply (fits_if true)|apply (fits_if false)..]).
    split; [intros _; split; [done|by apply kfits_insert]|lia]. }
  assert (Hgo : ∀ cs cache r0 cache' r', (fix go cs cache r {struct cs} :=
        match cs with
        | [] => Some (cache, r)
        | c :: cs => '(cache, tmp) ← ncount_f keyed hit n a l2h (opred level) c cache; go cs cache (r + tmp)%N
        end) cs cache r0 = Some (cache', r') → kfits cache → (r0 < U64)%N → (r0 ≤ r')%N ∧
    ((r' < U64)%N → (fix go cs cache r {struct cs} :=
        match cs with
        | [] => Some (cache, r)
        | c :: cs => '(cache, tmp) ← ncount64_f Checked keyed hit n a l2h (opred level) c cache;
                     r ← u64 Checked (r + tmp); go cs cache r
        end) cs cache r0 = Some (cache', r') ∧ kfits cache') ∧
    ((U64 ≤ r')%N → (fix go cs cache r {struct cs} :=
        match cs with
        | [] => Some (cache, r)
        | c :: cs => '(cache, tmp) ← ncount64_f Checked keyed hit n a l2h (opred level) c cache;
                     r ← u64 Checked (r + tmp); go cs cache r
        end) cs cache r0 = None)).
  { clear Hr E Hf. clear cs. assert (Hmono : ∀ cs cache r0 cache' r', (fix go cs cache r {struct cs} :=
        match cs with
        | [] => Some (cache, r)
        | c :: cs => '(cache, tmp) ← ncount_f keyed hit n a l2h (opred level) c cache; go cs cache (r + tmp)%N
        end) cs cache r0 = Some (cache', r') → (r0 ≤ r')%N).
    { induction cs as [|c cs IHc]; intros c0 r0 c1 r1 Hg.
      - by injection Hg as <- <-.
      - destruct (ncount_f keyed hit n a l2h (opred level) c c0) as [[c2 x]|] eqn:E; [|done]. cbn [mbind option_bind] in Hg.
        apply IHc in Hg. lia. }
    induction cs as [|c cs IHc]; intros c0 r0 c1 r1 Hg Hf Hb.
    - injection Hg as <- <-. split; [done|]. split; [done|lia].
    - pose proof (Hmono (c :: cs) _ _ _ _ Hg) as Hle. split; [done|].
      destruct (ncount_f keyed hit n a l2h (opred level) c c0) as [[c2 x]|] eqn:E; [|done]. cbn [mbind option_bind] in Hg.
      pose proof (Hmono cs _ _ _ _ Hg) as Hle2. destruct (IH _ _ _ _ _ E Hf) as [S0 N0].
      destruct (N.lt_ge_cases x U64) as [L0|G0].
      2: { rewrite (N0 G0). cbn [mbind option_bind]. split; [lia|done]. }
      destruct (S0 L0) as [-> F0]. cbn [mbind option_bind].
      destruct (N.lt_ge_cases (r0 + x) U64) as [L1|G1].
      2: { rewrite (u64_over _ G1). cbn [mbind option_bind]. split; [lia|done]. }
      rewrite (u64_fits _ _ L1). cbn [mbind option_bind]. exact (proj2 (IHc _ _ _ _ Hg F0 L1)). }
  match type of Hr with (mbind _ ?g) = _ => destruct g as [[c0 x0]|] eqn:E0 end; [|done]. cbn [mbind option_bind] in Hr.
  injection Hr as <- <-. apply Hgo in E0 as (_ & S0 & N0); [|done|apply (fits_if false)]. split.
  - intros L. destruct (S0 L) as [-> F0]. cbn [mbind option_bind]. split; [done|by apply kfits_insert].
  - intros G. rewrite (N0 G). done.
Qed.
End count.

Section zm.
Context (a : arena vt) (ss : list Z).
Notation gostep md n := (fix go (cs : list nat) (cache : gmap nat N) (r : N) {struct cs} : option (gmap nat N * N) :=
        match cs with
        | [] => Some (cache, r)
        | c :: cs => '(cache, x) ← zm_count64_f md n a ss c cache; r ← u64 md (r + x); go cs cache r
        end).
Lemma foldl_add xs r : foldl N.add r xs = (r + foldl N.add 0 xs)%N.
Proof.
  revert r. induction xs as [|x xs IH]; intros r; cbn [foldl]; [lia|]. rewrite IH, (IH (0 + x)%N). lia.
Qed.
Lemma zm_count64_wrap n : ∀ id cache cache' r, zm_count_f n a ss id cache = Some (cache', r) →
  zm_count64_f Wrapping n a ss id (wrm cache) = Some (wrm cache', r mod U64)%N.
Proof.
  induction n as [|n IH]; intros id cache cache' r Hr; [done|]. cbn [zm_count_f] in Hr. cbn [zm_count64_f].
  rewrite lookup_fmap. destruct (cache !! id) as [x|] eqn:E; cbn [fmap option_fmap option_map].
  { injection Hr as <- <-. done. }
  destruct (ar_nodes a !! id) as [nd|]; [|done]. cbn [mbind option_bind] in Hr |- *.
  destruct nd as [[|z]|h cs]; cbn [mbind option_bind] in Hr |- *.
  1: injection Hr as <- <-; rewrite fmap_insert, <- (wr_if false); done.
  1: injection Hr as <- <-; rewrite fmap_insert, <- wr_if; done.
  assert (Hgo : ∀ cs cache r0 cache' xs, mapst (λ cache e, zm_count_f n a ss e cache) cache cs = Some (cache', xs) →
    gostep Wrapping n cs (wrm cache) (r0 mod U64)%N = Some (wrm cache', foldl N.add r0 xs mod U64)%N).
  { clear Hr E. clear cs. induction cs as [|c cs IHc]; intros c0 r0 c1 xs Hg; cbn [mapst] in Hg.
    - injection Hg as <- <-. done.
    - destruct (zm_count_f n a ss c c0) as [[c2 x]|] eqn:E; [|done]. cbn [mbind option_bind] in Hg.
      destruct (mapst _ c2 cs) as [[c3 ys]|] eqn:Em; [|done]. cbn [mbind option_bind] in Hg. injection Hg as <- <-.
      rewrite (IH _ _ _ _ E). cbn [mbind option_bind]. rewrite u64_wrap. cbn [mbind option_bind foldl].
      rewrite wr_add. by apply IHc. }
  destruct (mapst _ cache cs) as [[c0 xs]|] eqn:E0; [|done]. cbn [mbind option_bind] in Hr.
  apply (Hgo _ _ 0%N) in E0. rewrite N.mod_0_l in E0 by done. rewrite E0. cbn [mbind option_bind].
  injection Hr as <- <-. by rewrite fmap_insert.
Qed.
Lemma zm_count64_checked n : ∀ id cache cache' r, zm_count_f n a ss id cache = Some (cache', r) → fits cache →
  ((r < U64)%N → zm_count64_f Checked n a ss id cache = Some (cache', r) ∧ fits cache') ∧
  ((U64 ≤ r)%N → zm_count64_f Checked n a ss id cache = None).
Proof.
  induction n as [|n IH]; intros id cache cache' r Hr Hf; [done|]. cbn [zm_count_f] in Hr. cbn [zm_count64_f].
  destruct (cache !! id) as [x|] eqn:E.
  { injection Hr as <- <-. split; [done|]. intros Hx. apply Hf in E. lia. }
  destruct (ar_nodes a !! id) as [nd|]; [|done]. cbn [mbind option_bind] in Hr |- *.
  assert (Hleaf : ∀ v : N, (v < U64)%N → Some (<[id := v]> cache, v) = Some (cache', r) →
    ((r < U64)%N → Some (<[id := v]> cache, v) = Some (cache', r) ∧ fits cache') ∧
    ((U64 ≤ r)%N → Some (<[id := v]> cache, v) = None)).
  { intros v Hv Heq. injection Heq as <- <-. split; [intros _; split; [done|by apply fits_insert]|lia]. }
  destruct nd as [[|z]|h cs]; cbn [mbind option_bind] in Hr |- *.
  1: apply Hleaf; [apply (fits_if false)|done].
  1: apply Hleaf; [apply fits_if|done].
  assert (Hgo : ∀ cs cache r0 cache' xs, mapst (λ cache e, zm_count_f n a ss e cache) cache cs = Some (cache', xs) →
    fits cache → (r0 < U64)%N →
    ((foldl N.add r0 xs < U64)%N → gostep Checked n cs cache r0 = Some (cache', foldl N.add r0 xs) ∧ fits cache') ∧
    ((U64 ≤ foldl N.add r0 xs)%N → gostep Checked n cs cache r0 = None)).
  { clear Hr E Hleaf Hf. clear cs. induction cs as [|c cs IHc]; intros c0 r0 c1 xs Hg Hf Hb; cbn [mapst] in Hg.
    - injection Hg as <- <-. cbn [foldl]. split; [done|lia].
    - destruct (zm_count_f n a ss c c0) as [[c2 x]|] eqn:E; [|done]. cbn [mbind option_bind] in Hg.
      destruct (mapst _ c2 cs) as [[c3 ys]|] eqn:Em; [|done]. cbn [mbind option_bind] in Hg. injection Hg as <- <-.
      cbn [foldl]. pose proof (foldl_add ys (r0 + x)) as Hsum. destruct (IH _ _ _ _ E Hf) as [S0 N0].
      destruct (N.lt_ge_cases x U64) as [L0|G0].
      2: { rewrite (N0 G0). cbn [mbind option_bind]. split; [lia|done]. }
      destruct (S0 L0) as [-> F0]. cbn [mbind option_bind].
      destruct (N.lt_ge_cases (r0 + x) U64) as [L1|G1].
      2: { rewrite (u64_over _ G1). cbn [mbind option_bind]. split; [lia|done]. }
      rewrite (u64_fits _ _ L1). cbn [mbind option_bind]. exact (IHc _ _ _ _ Em F0 L1). }
  destruct (mapst _ cache cs) as [[c0 xs]|] eqn:E0; [|done]. cbn [mbind option_bind] in Hr. injection Hr as <- <-.
  destruct (Hgo _ _ 0%N _ _ E0 Hf) as [S0 N0]; [apply (fits_if false)|]. split.
  - intros L. destruct (S0 L) as [-> F0]. cbn [mbind option_bind]. split; [done|by apply fits_insert].
  - intros G. rewrite (N0 G). done.
Qed.
End zm.
