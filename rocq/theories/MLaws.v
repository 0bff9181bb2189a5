(** Expectations over independent multi-state variables, and the laws they satisfy. *)
From Coq Require Import Ring_theory Ring.
From stdpp Require Import strings.
From Verif Require Import Prelude SpecBss SpecLaws Laws.

Global Set Default Goal Selector "!".

(** all vectors whose entry [i] is below entry [i] of [ns] *)
Fixpoint nvecs (ns : list nat) : list (list nat) :=
  match ns with [] => [[]] | n :: ns => concat ((λ i, cons i <$> nvecs ns) <$> seq 0 n) end.
Definition within (ns v : list nat) : Prop := Forall2 (λ i n, i < n) v ns.
Lemma nvecs_elem ns : ∀ v, v ∈ nvecs ns ↔ within ns v.
Proof.
  unfold within. induction ns as [|n ns IH]; intros v; cbn [nvecs].
  - rewrite elem_of_list_singleton. split; [intros ->; constructor|by intros ->%Forall2_nil_inv_r].
  - rewrite elem_of_list_In, in_concat. setoid_rewrite <- elem_of_list_In. split.
    + intros (l & (i & -> & Hi%elem_of_seq)%elem_of_list_fmap & (u & -> & Hu)%elem_of_list_fmap). constructor; [lia|by apply IH].
    + intros (i & u & Hi & Hu & ->)%Forall2_cons_inv_r. exists (cons i <$> nvecs ns). split; apply elem_of_list_fmap; [exists i|exists u; split; [done|by apply IH]].
      split; [done|]. apply elem_of_seq. lia.
Qed.
Lemma nvecs_nodup ns : NoDup (nvecs ns).
Proof.
  induction ns as [|n ns IH]; cbn [nvecs]; [apply NoDup_singleton|]. generalize (NoDup_seq 0 n). generalize (seq 0 n). intros l Hl.
  induction Hl as [|i l Hi Hl IHl]; [constructor|]. rewrite fmap_cons. cbn [concat]. apply NoDup_app.
  split; [apply NoDup_fmap_2; [by intros ? ? [=]|done]|]. split; [|done].
  intros v (u & -> & _)%elem_of_list_fmap Hin. apply Hi. apply elem_of_list_In, in_concat in Hin as (l' & Hl' & Hv).
  apply elem_of_list_In, elem_of_list_fmap in Hl' as (j & -> & Hj). by apply elem_of_list_In, elem_of_list_fmap in Hv as (u' & [= -> _] & _).
Qed.

Section laws.
Context {R : Type} (rO rI : R) (radd rmul rsub : R → R → R) (ropp : R → R).
Context (Rth : ring_theory rO rI radd rmul rsub ropp eq).
Add Ring mlaws_ring : Rth.
Local Notation "0" := rO.
Local Notation "1" := rI.
Local Infix "+" := radd.
Local Infix "*" := rmul.
Local Infix "-" := rsub.
Local Notation rsum := (ring_sum rO radd).

Fixpoint dot (ps : list R) (a : nat → R) : R := match ps with [] => 0 | p :: ps => p * a O + dot ps (λ i, a (S i)) end.
(** the probability of [P] when entry [i] takes the value [j] with probability [pss !! i !! j], independently *)
Fixpoint mex (pss : list (list R)) (P : list nat → bool) : R :=
  match pss with
  | [] => if P [] then 1 else 0
  | ps :: pss => dot ps (λ i, mex pss (λ v, P (i :: v)))
  end.
Fixpoint vw (pss : list (list R)) (v : list nat) : R :=
  match pss, v with ps :: pss, i :: v => default 0 (ps !! i) * vw pss v | _, _ => 1 end.

Lemma rsum_cons p ps : rsum (p :: ps) = p + rsum ps.
Proof. done. Qed.
Lemma dot_ext ps : ∀ a b, (∀ i, i < length ps → a i = b i) → dot ps a = dot ps b.
Proof.
  induction ps as [|p ps IH]; intros a b He; [done|]. cbn [dot]. rewrite (He O) by (cbn; lia). f_equal. apply IH. intros i Hi. apply He. cbn. lia.
Qed.
Lemma dot_add ps : ∀ a b, dot ps (λ i, a i + b i) = dot ps a + dot ps b.
Proof. induction ps as [|p ps IH]; intros a b; cbn [dot]; [ring|]. rewrite IH. ring. Qed.
Lemma dot_const ps c : dot ps (λ _, c) = rsum ps * c.
Proof. unfold ring_sum. induction ps as [|p ps IH]; cbn [dot foldr]; [ring|]. rewrite IH. ring. Qed.
Lemma dot_scale ps c : ∀ a, dot ps (λ i, c * a i) = c * dot ps a.
Proof. induction ps as [|p ps IH]; intros a; cbn [dot]; [ring|]. rewrite (IH (λ i, a (S i))). ring. Qed.
Lemma dot_swap ps qs : ∀ a, dot ps (λ i, dot qs (a i)) = dot qs (λ j, dot ps (λ i, a i j)).
Proof.
  induction ps as [|p ps IH]; intros a; cbn [dot].
  - rewrite dot_const. ring.
  - rewrite (IH (λ i, a (S i))), <- (dot_scale qs p), <- dot_add. done.
Qed.
Lemma dot_sum ps : ∀ a, dot ps a = rsum ((λ i, default 0 (ps !! i) * a i) <$> seq 0 (length ps)).
Proof.
  induction ps as [|p ps IH]; intros a; [done|]. cbn [dot length seq]. rewrite fmap_cons. unfold ring_sum. cbn [foldr]. f_equal.
  rewrite IH, <- fmap_S_seq, <- list_fmap_compose. done.
Qed.

Lemma mex_ext pss : ∀ P Q, (∀ v, within (length <$> pss) v → P v = Q v) → mex pss P = mex pss Q.
Proof.
  induction pss as [|ps pss IH]; intros P Q He; cbn [mex]; [rewrite He by constructor; done|].
  apply dot_ext. intros i Hi. apply IH. intros v Hv. apply He. by constructor.
Qed.
Lemma sum_mex pss : ∀ P, rsum (vw pss <$> filter (λ v, P v = true) (nvecs (length <$> pss))) = mex pss P.
Proof.
  induction pss as [|ps pss IH]; intros P.
  - cbn [fmap list_fmap nvecs mex]. rewrite filter_cons. destruct (P []) eqn:E.
    + rewrite decide_True by done. cbn. ring.
    + rewrite decide_False by congruence. done.
  - rewrite fmap_cons. cbn [nvecs mex]. rewrite dot_sum. generalize (seq 0 (length ps)). intros l. induction l as [|i l IHl]; [done|].
    rewrite !fmap_cons. cbn [concat]. rewrite filter_app, fmap_app, (lsum_app _ _ _ _ _ _ Rth), IHl, rsum_cons. f_equal.
    rewrite <- (IH (λ v, P (i :: v))).
    assert (Hf : filter (λ v, P v = true) (cons i <$> nvecs (length <$> pss)) = cons i <$> filter (λ v, P (i :: v) = true) (nvecs (length <$> pss))).
    { generalize (nvecs (length <$> pss)). intros l'. clear. induction l' as [|v l' IHl']; [done|]. rewrite fmap_cons, !filter_cons.
      destruct (decide (P (i :: v) = true)); [rewrite fmap_cons; by f_equal|done]. }
    rewrite Hf, <- list_fmap_compose. apply (lsum_scale _ _ _ _ _ _ Rth). intros v _. done.
Qed.

Lemma mex_incl pss : ∀ P Q, mex pss (λ v, P v && Q v) + mex pss (λ v, P v || Q v) = mex pss P + mex pss Q.
Proof.
  induction pss as [|ps pss IH]; intros P Q; cbn [mex]; [destruct (P []), (Q []); cbn; ring|].
  rewrite <- !dot_add. apply dot_ext. intros i _. apply IH.
Qed.
Lemma mex_false pss : mex pss (λ _, false) = 0.
Proof. induction pss as [|ps pss IH]; cbn [mex]; [done|]. rewrite dot_const, IH. ring. Qed.
Lemma mex_true pss : Forall (λ ps, rsum ps = 1) pss → mex pss (λ _, true) = 1.
Proof. induction 1 as [|ps pss Hp _ IH]; cbn [mex]; [done|]. rewrite dot_const, IH, Hp. ring. Qed.
Lemma mex_neg pss P : Forall (λ ps, rsum ps = 1) pss → mex pss P + mex pss (λ v, negb (P v)) = 1.
Proof.
  intros H1. rewrite <- mex_incl.
  rewrite (mex_ext pss (λ v, P v && negb (P v)) (λ _, false)) by (intros v _; apply andb_negb_r).
  rewrite (mex_ext pss (λ v, P v || negb (P v)) (λ _, true)) by (intros v _; apply orb_negb_r). rewrite mex_false, (mex_true pss H1). ring.
Qed.

(** all weight on [j]: the row [certain] of SpecMssAlg *)
Definition cert (n j : nat) : list R := (λ i, if decide (i = j) then 1 else 0) <$> seq 0 n.
Lemma dot_cert_gen n : ∀ k j a, dot ((λ i, if decide (i = j) then 1 else 0) <$> seq k n) a = if decide (k ≤ j < Nat.add k n) then a (Nat.sub j k) else 0.
Proof.
  induction n as [|n IH]; intros k j a; cbn [seq].
  - cbn. rewrite decide_False by lia. done.
  - rewrite fmap_cons. cbn [dot]. rewrite IH. destruct (decide (k = j)) as [->|Hne].
    + rewrite decide_False by lia. rewrite decide_True by lia. rewrite Nat.sub_diag. ring.
    + destruct (decide (S k ≤ j < Nat.add (S k) n)).
      * rewrite decide_True by lia. replace (Nat.sub j k) with (S (Nat.sub j (S k))) by lia. ring.
      * rewrite decide_False by lia. ring.
Qed.
Lemma dot_cert n j a : j < n → dot (cert n j) a = a j.
Proof. intros Hj. unfold cert. rewrite dot_cert_gen, decide_True by lia. by rewrite Nat.sub_0_r. Qed.

Lemma mex_pivot pss : ∀ i ps P, pss !! i = Some ps → mex pss P = dot ps (λ j, mex (<[i := cert (length ps) j]> pss) P).
Proof.
  induction pss as [|qs pss IH]; intros i ps P Hi; [done|]. destruct i as [|i]; cbn in Hi.
  - injection Hi as ->. cbn [insert list_insert mex]. apply dot_ext. intros j Hj. by rewrite dot_cert.
  - cbn [mex]. change (<[S i := ?x]> (qs :: pss)) with (qs :: <[i := x]> pss). cbn [mex].
    rewrite dot_swap. apply dot_ext. intros k _. by rewrite (IH i ps (λ v, P (k :: v)) Hi).
Qed.
Lemma mex_same pss : ∀ i ps qs P, pss !! i = Some ps → length qs = length ps → rsum ps = rsum qs →
  (∀ v j, within (length <$> pss) v → j < length ps → P (<[i := j]> v) = P v) → mex (<[i := qs]> pss) P = mex pss P.
Proof.
  induction pss as [|rs pss IH]; intros i ps qs P Hi Hl Hs Hp; [done|]. destruct i as [|i]; cbn in Hi.
  - injection Hi as ->. cbn [insert list_insert mex].
    assert (Hc : ∀ j, j < length ps → mex pss (λ v, P (j :: v)) = mex pss (λ v, P (0%nat :: v))).
    { intros j Hj. apply mex_ext. intros v Hv. apply (Hp (0%nat :: v) j); [constructor; [lia|done]|done]. }
    rewrite (dot_ext qs _ (λ _, mex pss (λ v, P (0%nat :: v)))) by (intros; apply Hc; lia).
    rewrite (dot_ext ps _ (λ _, mex pss (λ v, P (0%nat :: v)))) by (intros; apply Hc; lia). by rewrite !dot_const, Hs.
  - change (<[S i := ?x]> (rs :: pss)) with (rs :: <[i := x]> pss). cbn [mex]. apply dot_ext. intros k Hk.
    apply (IH i ps qs (λ v, P (k :: v)) Hi Hl Hs). intros v j Hv Hj. apply (Hp (k :: v) j); [by constructor|done].
Qed.

(** ** order *)
Context (le : R → R → Prop) (Hle : ordered rO rI radd rmul le).
Local Infix "⊑" := le (at level 70).
Local Notation nn ps := (Forall (le 0) ps).
Lemma dot_mono ps : ∀ a b, nn ps → (∀ i, i < length ps → a i ⊑ b i) → dot ps a ⊑ dot ps b.
Proof.
  induction ps as [|p ps IH]; intros a b Hp Hab; cbn [dot]; [apply (ord_refl _ _ _ _ _ Hle)|]. apply Forall_cons in Hp as [Hp Hps].
  apply (le_add _ _ _ _ _ _ Rth le Hle).
  - apply (le_mul _ _ _ _ _ _ Rth le Hle); [done|]. apply Hab. cbn. lia.
  - apply IH; [done|]. intros i Hi. apply Hab. cbn. lia.
Qed.
Lemma mex_mono pss : ∀ P Q, Forall (λ ps, nn ps) pss → (∀ v, within (length <$> pss) v → P v = true → Q v = true) → mex pss P ⊑ mex pss Q.
Proof.
  induction pss as [|ps pss IH]; intros P Q Hp HPQ; cbn [mex].
  - specialize (HPQ [] ltac:(constructor)). destruct (P []); [rewrite HPQ by done; apply (ord_refl _ _ _ _ _ Hle)|].
    destruct (Q []); [apply (ord_one _ _ _ _ _ Hle)|apply (ord_refl _ _ _ _ _ Hle)].
  - apply Forall_cons in Hp as [Hp Hps]. apply dot_mono; [done|]. intros i Hi. apply IH; [done|]. intros v Hv. apply HPQ. by constructor.
Qed.
Lemma mex_01 pss P : Forall (λ ps, nn ps) pss → Forall (λ ps, rsum ps = 1) pss → 0 ⊑ mex pss P ∧ mex pss P ⊑ 1.
Proof.
  intros Hp H1. split.
  - rewrite <- (mex_false pss). by apply mex_mono.
  - rewrite <- (mex_true pss H1). by apply mex_mono.
Qed.

(** the row [qs] puts at least as much weight on the upper states as [ps] *)
Definition domin (ps qs : list R) : Prop := length ps = length qs ∧ ∀ k, rsum (drop k ps) ⊑ rsum (drop k qs).
Lemma dot_domin ps : ∀ qs a, length ps = length qs → (∀ k, 0 < k → rsum (drop k ps) ⊑ rsum (drop k qs)) →
  (∀ i, S i < length ps → a i ⊑ a (S i)) → dot ps a - rsum ps * a O ⊑ dot qs a - rsum qs * a O.
Proof.
  induction ps as [|p ps IH]; intros [|q qs] a Hl Hk Ha; try done; [apply (ord_refl _ _ _ _ _ Hle)|]. cbn [dot]. rewrite !rsum_cons.
  replace (p * a O + dot ps (λ i, a (S i)) - (p + rsum ps) * a O) with ((dot ps (λ i, a (S i)) - rsum ps * a (S O)) + rsum ps * (a (S O) - a O)) by ring.
  replace (q * a O + dot qs (λ i, a (S i)) - (q + rsum qs) * a O) with ((dot qs (λ i, a (S i)) - rsum qs * a (S O)) + rsum qs * (a (S O) - a O)) by ring.
  apply (le_add _ _ _ _ _ _ Rth le Hle).
  - apply (IH qs (λ i, a (S i))); [cbn in Hl; lia| |].
    + intros k Hk0. apply (Hk (S k)). lia.
    + intros i Hi. apply Ha. cbn. lia.
  - destruct ps as [|p' ps]; [destruct qs; [|done]; apply (ord_refl _ _ _ _ _ Hle)|].
    replace (rsum (p' :: ps) * (a (S O) - a O)) with ((a (S O) - a O) * rsum (p' :: ps)) by ring.
    replace (rsum qs * (a (S O) - a O)) with ((a (S O) - a O) * rsum qs) by ring.
    apply (le_mul _ _ _ _ _ _ Rth le Hle); [apply (proj1 (le_diff _ _ _ _ _ _ Rth le Hle _ _)), Ha; cbn; lia|].
    apply (Hk 1%nat). lia.
Qed.
Definition mupward (ns : list nat) (P : list nat → bool) : Prop :=
  ∀ u v, within ns u → within ns v → Forall2 Nat.le u v → P u = true → P v = true.
Lemma mex_table pss qss : ∀ P, mupward (length <$> pss) P → Forall (λ ps, nn ps) pss → Forall (λ ps, nn ps) qss →
  Forall (λ ps, rsum ps = 1) pss → Forall (λ ps, rsum ps = 1) qss → Forall2 domin pss qss → mex pss P ⊑ mex qss P.
Proof.
  intros P Up Hp Hq H1 H2 Hd. revert P Up Hp Hq H1 H2.
  induction Hd as [|ps qs pss qss [Hl Hd] Hds IH]; intros P Up Hp Hq H1 H2; cbn [mex]; [apply (ord_refl _ _ _ _ _ Hle)|].
  apply Forall_cons in Hp as [Hp Hps]. apply Forall_cons in Hq as [Hq Hqs]. apply Forall_cons in H1 as [H1 H1s]. apply Forall_cons in H2 as [H2 H2s].
  apply (ord_trans _ _ _ _ _ Hle _ (dot qs (λ i, mex pss (λ v, P (i :: v))))).
  - set (a := λ i, mex pss (λ v, P (i :: v))).
    assert (Ha : ∀ i, S i < length ps → a i ⊑ a (S i)).
    { intros i Hi. apply mex_mono; [done|]. intros v Hv. apply Up; (constructor; [lia|done]). }
    pose proof (dot_domin ps qs a Hl (λ k _, Hd k) Ha) as Hlt. rewrite H1, H2 in Hlt.
    apply (ord_add _ _ _ _ _ Hle _ _ (a O)) in Hlt.
    replace (dot ps a - 1 * a O + a O) with (dot ps a) in Hlt by ring. by replace (dot qs a - 1 * a O + a O) with (dot qs a) in Hlt by ring.
  - apply dot_mono; [done|]. intros i Hi. apply IH; try done.
    intros u v Hu Hv Huv. apply Up; (constructor; [lia|done]).
Qed.
End laws.
