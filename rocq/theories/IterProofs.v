(** The iterator machine: one item at a time or all at once. *)
From Verif Require Import Prelude Iter.

Section machine.
Context {St X : Type} (halted : St → bool).
Implicit Types step : St → option (St * option X).

(** all remaining items; the shape of the [collect] functions of the models *)
Fixpoint drain step (fuel : nat) (s : St) : option (list X) :=
  if halted s then Some []
  else match fuel with
       | O => None
       | S k =>
           '(s, out) ← step s;
           rest ← drain step k s;
           Some (match out with Some x => x :: rest | None => rest end)
       end.

Lemma drain_mono step k k' s L : k ≤ k' → drain step k s = Some L → drain step k' s = Some L.
Proof.
  revert k' s L. induction k as [|k IH]; intros k' s L Hle.
  - cbn. destruct (halted s) eqn:Hh; [|done]. intros [= <-]. destruct k'; cbn; by rewrite Hh.
  - destruct k' as [|k']; [lia|]. cbn. destruct (halted s); [done|].
    destruct (step s) as [[s' out]|]; [|done]. cbn [mbind option_bind].
    destruct (drain step k s') as [rest|] eqn:Hr; [|done]. cbn [mbind option_bind].
    rewrite (IH k' s' rest) by (done || lia). done.
Qed.
Lemma next_drain step k s L : drain step k s = Some L →
  ∃ s', iter_next halted step k s = Some (s', head L) ∧ drain step k s' = Some (tail L).
Proof.
  revert s L. induction k as [|k IH]; intros s L; cbn [drain iter_next].
  - destruct (halted s) eqn:Hh; [|done]. intros [= <-]. exists s. by rewrite Hh.
  - destruct (halted s) eqn:Hh; [intros [= <-]; exists s; by rewrite Hh|].
    destruct (step s) as [[s' out]|]; [|done]. cbn [mbind option_bind].
    destruct (drain step k s') as [rest|] eqn:Hr; [|done]. cbn [mbind option_bind]. intros [= <-].
    destruct out as [x|].
    + exists s'. split; [done|]. by apply (drain_mono step k (S k)); [lia|].
    + destruct (IH _ _ Hr) as (s2 & -> & Hd). exists s2. split; [done|]. by apply (drain_mono step k (S k)); [lia|].
Qed.
Lemma next_mono step k k' s r : k ≤ k' → iter_next halted step k s = Some r → iter_next halted step k' s = Some r.
Proof.
  revert k' s. induction k as [|k IH]; intros k' s Hle.
  - cbn. destruct (halted s) eqn:Hh; [|done]. destruct k'; cbn; by rewrite Hh.
  - destruct k' as [|k']; [lia|]. cbn. destruct (halted s); [done|].
    destruct (step s) as [[s' [x|]]|]; [done| |done]. cbn [mbind option_bind]. apply IH. lia.
Qed.
Lemma next_det step k k' s r r' : iter_next halted step k s = Some r → iter_next halted step k' s = Some r' → r = r'.
Proof.
  intros H1 H2. apply (next_mono step k (Nat.max k k')) in H1; [|lia]. apply (next_mono step k' (Nat.max k k')) in H2; [|lia]. congruence.
Qed.
(** steps that agree on the states met *)
Lemma next_agree step1 step2 (I : St → Prop) k s : (∀ s, I s → halted s = false → step1 s = step2 s) →
  (∀ s s' o, I s → step2 s = Some (s', o) → I s') → I s → iter_next halted step1 k s = iter_next halted step2 k s.
Proof.
  intros He Hp. revert s. induction k as [|k IH]; intros s Hs; cbn; destruct (halted s) eqn:Hh; try done.
  rewrite (He _ Hs Hh). destruct (step2 s) as [[s' [x|]]|] eqn:Hst; [done| |done]. cbn [mbind option_bind]. apply IH. by eapply Hp.
Qed.
Lemma next_keeps step (I : St → Prop) k s s' o : (∀ s s' o, I s → step s = Some (s', o) → I s') →
  I s → iter_next halted step k s = Some (s', o) → I s'.
Proof.
  intros Hp. revert s. induction k as [|k IH]; intros s Hs; cbn; destruct (halted s); try done; try by intros [= <- _].
  destruct (step s) as [[s1 [x|]]|] eqn:Hst; [| |done]; cbn [mbind option_bind].
  - intros [= <- _]. by eapply Hp.
  - apply IH. by eapply Hp.
Qed.
(** the items already out and those to come *)
Lemma next_split {Y} (f : Y → X) step k0 k s (L : list Y) out s' o : drain step k0 s = Some (drop (length out) (f <$> L)) →
  out `prefix_of` (f <$> L) → iter_next halted step k s = Some (s', o) →
  o = (f <$> L) !! length out ∧
  match o with Some x => out ++ [x] | None => out end `prefix_of` (f <$> L) ∧
  ∃ k1, drain step k1 s' = Some (drop (length (match o with Some x => out ++ [x] | None => out end)) (f <$> L)).
Proof.
  intros Hd Hpre Hn. destruct (next_drain _ _ _ _ Hd) as (s1 & Hn1 & Hd1). pose proof (next_det _ _ _ _ _ _ Hn Hn1) as [= <- ->].
  assert (Hhd : head (drop (length out) (f <$> L)) = (f <$> L) !! length out).
  { rewrite <- (Nat.add_0_r (length out)), <- lookup_drop, Nat.add_0_r. by destruct (drop _ _). }
  rewrite Hhd. split; [done|]. destruct ((f <$> L) !! length out) as [x|] eqn:Hx.
  - destruct Hpre as [rest Hr]. rewrite Hr in Hx. rewrite lookup_app_r, Nat.sub_diag in Hx by lia.
    destruct rest as [|y rest]; [done|]. cbn in Hx. injection Hx as ->. split.
    + exists rest. by rewrite Hr, <- app_assoc.
    + exists k0. rewrite Hd1, Hr, drop_app. cbn [tail]. f_equal.
      replace (out ++ x :: rest) with ((out ++ [x]) ++ rest) by (by rewrite <- app_assoc). by rewrite drop_app.
  - split; [done|]. exists k0. rewrite Hd1. destruct Hpre as [rest Hr]. rewrite Hr in Hx |- *.
    rewrite lookup_app_r, Nat.sub_diag in Hx by lia. destruct rest; [|done]. by rewrite drop_app.
Qed.
End machine.
