(** Expectations over independent bits, and the laws they satisfy. *)
From Coq Require Import Ring_theory Ring.
From stdpp Require Import strings.
From Verif Require Import Prelude SpecBss SpecLaws.

Global Set Default Goal Selector "!".

(** all vectors of length [n] *)
Fixpoint bvecs (n : nat) : list (list bool) :=
  match n with O => [[]] | S n => (cons false <$> bvecs n) ++ (cons true <$> bvecs n) end.
Lemma bvecs_elem n v : v ∈ bvecs n ↔ length v = n.
Proof.
  revert v. induction n as [|n IH]; intros v; cbn [bvecs].
  - rewrite elem_of_list_singleton. by destruct v.
  - rewrite elem_of_app, !elem_of_list_fmap. split.
    + intros [(u & -> & Hu%IH)|(u & -> & Hu%IH)]; cbn; lia.
    + destruct v as [|[] v]; [done|..]; cbn; intros [= Hv]; [right|left]; exists v; (split; [done|by apply IH]).
Qed.
Lemma bvecs_nodup n : NoDup (bvecs n).
Proof.
  induction n as [|n IH]; cbn [bvecs]; [apply NoDup_singleton|]. apply NoDup_app.
  split; [apply NoDup_fmap_2; [intros ? ? [=]; done|done]|]. split; [|apply NoDup_fmap_2; [intros ? ? [=]; done|done]].
  intros v (u & -> & _)%elem_of_list_fmap (u' & ? & _)%elem_of_list_fmap. done.
Qed.

Section laws.
Context {R : Type} (rO rI : R) (radd rmul rsub : R → R → R) (ropp : R → R).
Context (Rth : ring_theory rO rI radd rmul rsub ropp eq).
Add Ring laws_ring : Rth.
Local Notation "0" := rO.
Local Notation "1" := rI.
Local Infix "+" := radd.
Local Infix "*" := rmul.
Local Infix "-" := rsub.
Local Notation rsum := (ring_sum rO radd).

(** the probability of [P] when bit [i] is set with probability [ps !! i], independently *)
Fixpoint ex (ps : list R) (P : list bool → bool) : R :=
  match ps with
  | [] => if P [] then 1 else 0
  | p :: ps => (1 - p) * ex ps (λ v, P (false :: v)) + p * ex ps (λ v, P (true :: v))
  end.

Lemma lsum_app l1 l2 : rsum (l1 ++ l2) = rsum l1 + rsum l2.
Proof. unfold ring_sum. induction l1 as [|x l1 IH]; cbn [app foldr]; [ring|]. rewrite IH. ring. Qed.
Lemma lsum_scale {A} (g h : A → R) c l : (∀ x, x ∈ l → h x = c * g x) → rsum (h <$> l) = c * rsum (g <$> l).
Proof.
  unfold ring_sum. induction l as [|x l IH]; intros He; [cbn; ring|]. rewrite !fmap_cons. cbn [foldr].
  rewrite IH by (intros; apply He; by apply elem_of_list_further). rewrite (He x) by apply elem_of_list_here. ring.
Qed.

Lemma weight_cons pv x xs b v : weight rO rI rmul rsub pv (x :: xs) (b :: v) =
  (if b then default 0 (pv !! x) else 1 - default 0 (pv !! x)) * weight rO rI rmul rsub pv xs v.
Proof. unfold weight. cbn [imap foldr]. f_equal. Qed.

Definition pof (pv : gmap string R) (names : list string) : list R := (λ x, default 0 (pv !! x)) <$> names.

Lemma sum_ex pv names : ∀ P, rsum (weight rO rI rmul rsub pv names <$> filter (λ v, P v = true) (bvecs (length names))) = ex (pof pv names) P.
Proof.
  induction names as [|x xs IH]; intros P.
  - cbn [length bvecs pof fmap list_fmap ex]. rewrite filter_cons. destruct (P []) eqn:E.
    + rewrite decide_True by done. cbn. unfold weight. cbn. ring.
    + rewrite decide_False by congruence. cbn. done.
  - unfold pof. rewrite fmap_cons. cbn [length bvecs ex]. rewrite filter_app, fmap_app, lsum_app.
    assert (Hb : ∀ b, filter (λ v, P v = true) (cons b <$> bvecs (length xs)) = cons b <$> filter (λ v, P (b :: v) = true) (bvecs (length xs))).
    { intros b. generalize (bvecs (length xs)). intros l. induction l as [|v l IHl]; [done|]. rewrite fmap_cons, !filter_cons.
      destruct (decide (P (b :: v) = true)); [rewrite fmap_cons; by f_equal|done]. }
    rewrite !Hb, <- !list_fmap_compose. cbn [compose].
    fold (pof pv xs). rewrite <- (IH (λ v, P (false :: v))), <- (IH (λ v, P (true :: v))).
    f_equal; apply lsum_scale; intros v _; apply weight_cons.
Qed.

Lemma ex_ext ps : ∀ P Q, (∀ v, length v = length ps → P v = Q v) → ex ps P = ex ps Q.
Proof.
  induction ps as [|p ps IH]; intros P Q He; cbn [ex]; [by rewrite He|].
  rewrite (IH (λ v, P (false :: v)) (λ v, Q (false :: v))), (IH (λ v, P (true :: v)) (λ v, Q (true :: v))); [done|..]; intros v Hv; apply He; cbn; lia.
Qed.
Lemma ex_neg ps : ∀ P, ex ps (λ v, negb (P v)) = 1 - ex ps P.
Proof. induction ps as [|p ps IH]; intros P; cbn [ex]; [destruct (P []); cbn; ring|]. rewrite !IH. ring. Qed.
Lemma ex_incl ps : ∀ P Q, ex ps (λ v, P v && Q v) + ex ps (λ v, P v || Q v) = ex ps P + ex ps Q.
Proof.
  induction ps as [|p ps IH]; intros P Q; cbn [ex]; [destruct (P []), (Q []); cbn; ring|].
  pose proof (IH (λ v, P (false :: v)) (λ v, Q (false :: v))) as H0. pose proof (IH (λ v, P (true :: v)) (λ v, Q (true :: v))) as H1.
  match goal with |- (1 - p) * ?a + p * ?b + ((1 - p) * ?c + p * ?d) = _ => transitivity ((1 - p) * (a + c) + p * (b + d)); [ring|] end.
  rewrite H0, H1. ring.
Qed.
Lemma ex_dual ps : ∀ P, ex ((λ p, 1 - p) <$> ps) P = ex ps (λ v, P (negb <$> v)).
Proof. induction ps as [|p ps IH]; intros P; [done|]. rewrite fmap_cons. cbn [ex]. rewrite !IH. cbn [fmap list_fmap negb]. ring. Qed.
Lemma ex_pivot ps : ∀ i p P, ps !! i = Some p → ex ps P = (1 - p) * ex (<[i := 0]> ps) P + p * ex (<[i := 1]> ps) P.
Proof.
  induction ps as [|q ps IH]; intros i p P Hi; [done|]. destruct i as [|i]; cbn in Hi.
  - injection Hi as ->. cbn [insert list_insert ex]. ring.
  - change (<[S i := ?x]> (q :: ps)) with (q :: <[i := x]> ps). cbn [ex].
    rewrite (IH i p (λ v, P (false :: v)) Hi), (IH i p (λ v, P (true :: v)) Hi). ring.
Qed.
Lemma ex_same ps : ∀ i r P, (∀ v b, length v = length ps → P (<[i := b]> v) = P v) → ex (<[i := r]> ps) P = ex ps P.
Proof.
  induction ps as [|q ps IH]; intros i r P Hi; [done|]. destruct i as [|i].
  - cbn [insert list_insert ex]. rewrite (ex_ext ps (λ v, P (false :: v)) (λ v, P (true :: v))); [ring|].
    intros v Hv. by apply (Hi (true :: v) false); cbn; f_equal.
  - change (<[S i := ?x]> (q :: ps)) with (q :: <[i := x]> ps). cbn [ex].
    rewrite !IH; [done|..]; intros v b Hv; [apply (Hi (true :: v) b)|apply (Hi (false :: v) b)]; cbn; by f_equal.
Qed.

(** ** order *)
Context (le : R → R → Prop) (Hle : ordered rO rI radd rmul le).
Local Infix "⊑" := le (at level 70).
Definition prob01 (p : R) : Prop := 0 ⊑ p ∧ p ⊑ 1.

Lemma le_diff a b : a ⊑ b ↔ 0 ⊑ b - a.
Proof.
  split; intros Hab.
  - apply (ord_add _ _ _ _ _ Hle _ _ (ropp a)) in Hab. replace (a + ropp a) with 0 in Hab by ring. by replace (b + ropp a) with (b - a) in Hab by ring.
  - apply (ord_add _ _ _ _ _ Hle _ _ a) in Hab. replace (0 + a) with a in Hab by ring. by replace (b - a + a) with b in Hab by ring.
Qed.
Lemma nn_add a b : 0 ⊑ a → 0 ⊑ b → 0 ⊑ a + b.
Proof.
  intros Ha Hb. apply (ord_trans _ _ _ _ _ Hle _ b); [done|]. apply (ord_add _ _ _ _ _ Hle _ _ b) in Ha. by replace (0 + b) with b in Ha by ring.
Qed.
Lemma le_add a b c d : a ⊑ b → c ⊑ d → a + c ⊑ b + d.
Proof. intros H1%le_diff H2%le_diff. apply le_diff. replace (b + d - (a + c)) with ((b - a) + (d - c)) by ring. by apply nn_add. Qed.
Lemma le_mul a b c : 0 ⊑ a → b ⊑ c → a * b ⊑ a * c.
Proof. intros Ha Hb%le_diff. apply le_diff. replace (a * c - a * b) with (a * (c - b)) by ring. by apply (ord_mul _ _ _ _ _ Hle). Qed.
Lemma co01 p : prob01 p → 0 ⊑ 1 - p.
Proof. intros [_ H]. exact (proj1 (le_diff p 1) H). Qed.

Lemma ex_mono ps : ∀ P Q, Forall prob01 ps → (∀ v, length v = length ps → P v = true → Q v = true) → ex ps P ⊑ ex ps Q.
Proof.
  induction ps as [|p ps IH]; intros P Q Hp HPQ; cbn [ex].
  - specialize (HPQ [] eq_refl). destruct (P []); [rewrite HPQ by done; apply (ord_refl _ _ _ _ _ Hle)|].
    destruct (Q []); [apply (ord_one _ _ _ _ _ Hle)|apply (ord_refl _ _ _ _ _ Hle)].
  - apply Forall_cons in Hp as [Hp Hps]. apply le_add; (apply le_mul; [first [by apply co01|apply Hp]|]); apply IH; try done; intros v Hv; apply HPQ; cbn; lia.
Qed.
Lemma ex_const ps b : ex ps (λ _, b) = if b then 1 else 0.
Proof. induction ps as [|p ps IH]; cbn [ex]; [done|]. rewrite !IH. destruct b; ring. Qed.
Lemma ex_01 ps P : Forall prob01 ps → prob01 (ex ps P).
Proof.
  intros Hp. split.
  - rewrite <- (ex_const ps false). apply ex_mono; done.
  - rewrite <- (ex_const ps true). apply ex_mono; done.
Qed.
(** [P] never turns false when a bit is set *)
Definition upward (P : list bool → bool) : Prop := ∀ u v, Forall2 (λ a b : bool, a = true → b = true) u v → P u = true → P v = true.
Lemma ex_table ps qs : ∀ P, upward P → Forall prob01 ps → Forall prob01 qs → Forall2 le ps qs → ex ps P ⊑ ex qs P.
Proof.
  intros P Up Hp Hq Hpq. revert P Up Hp Hq. induction Hpq as [|p q ps qs Hpq1 Hpq2 IH]; intros P Up Hp Hq; cbn [ex]; [apply (ord_refl _ _ _ _ _ Hle)|].
  apply Forall_cons in Hp as [Hp Hps]. apply Forall_cons in Hq as [Hq Hqs].
  assert (Up' : ∀ b, upward (λ v, P (b :: v))) by (intros b u v Huv; apply Up; by constructor).
  pose proof (IH _ (Up' false) Hps Hqs) as H0. pose proof (IH _ (Up' true) Hps Hqs) as H1.
  assert (H01 : ex ps (λ v, P (false :: v)) ⊑ ex ps (λ v, P (true :: v))).
  { apply ex_mono; [done|]. intros v _. apply Up. constructor; [done|]. apply Forall_Forall2_diag, Forall_forall. auto. }
  apply (ord_trans _ _ _ _ _ Hle _ ((1 - q) * ex ps (λ v, P (false :: v)) + q * ex ps (λ v, P (true :: v)))).
  - apply le_diff. apply le_diff in Hpq1, H01.
    match goal with |- 0 ⊑ (1 - q) * ?a + q * ?b - ((1 - p) * ?a + p * ?b) => replace ((1 - q) * a + q * b - ((1 - p) * a + p * b)) with ((q - p) * (b - a)) by ring end.
    by apply (ord_mul _ _ _ _ _ Hle).
  - apply le_add; (apply le_mul; [|done]); [by apply co01|apply Hq].
Qed.
End laws.
