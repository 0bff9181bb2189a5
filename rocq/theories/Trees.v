(** Decision diagrams unfolded into trees: evaluation, ordering, independence, canonicity.
    Used by proofs only. *)
From Verif Require Import Prelude Arena.

Inductive dd (T : Type) :=
  | Leaf (t : T)
  | Br (hd : header) (cs : list (dd T)).
Arguments Leaf {T}.
Arguments Br {T}.

Section trees.
Context {T : Type}.
Implicit Types (d c : dd T).

Definition dd_ind' (P : dd T → Prop) (HL : ∀ t, P (Leaf t))
  (HB : ∀ hd cs, Forall P cs → P (Br hd cs)) : ∀ d, P d :=
  fix go d := match d with
  | Leaf t => HL t
  | Br hd cs => HB hd cs ((fix all cs : Forall P cs :=
                match cs with [] => @List.Forall_nil _ _ | c :: cs => @List.Forall_cons _ _ c cs (go c) (all cs) end) cs)
  end.

Fixpoint eval (ρ : nat → nat) d : option T :=
  match d with
  | Leaf t => Some t
  | Br hd cs => mjoin (map (eval ρ) cs !! ρ (h_level hd))
  end.

Definition rank d : nat := match d with Leaf _ => 0 | Br hd _ => S (h_level hd) end.

(** ordered, with [E l] children at level [l] *)
Fixpoint okdd (E : nat → nat) d : Prop :=
  match d with
  | Leaf _ => True
  | Br hd cs => length cs = E (h_level hd) ∧
      (fix all cs := match cs with [] => True
       | c :: cs => (rank c ≤ h_level hd ∧ okdd E c) ∧ all cs end) cs
  end.

Lemma okdd_br E hd cs : okdd E (Br hd cs) ↔
  length cs = E (h_level hd) ∧ Forall (λ c, rank c ≤ h_level hd ∧ okdd E c) cs.
Proof.
  cbn [okdd]. assert (∀ l, (fix all cs := match cs with [] => True
       | c :: cs => (rank c ≤ h_level hd ∧ okdd E c) ∧ all cs end) l ↔
       Forall (λ c, rank c ≤ h_level hd ∧ okdd E c) l) as Hl.
  { induction l as [|c l IH]; [by split|]. rewrite Forall_cons, <- IH. done. }
  by rewrite Hl.
Qed.

Definition vok (E ρ : nat → nat) : Prop := ∀ l, ρ l < E l.

Definition upd (ρ : nat → nat) (l v : nat) : nat → nat := λ l', if decide (l' = l) then v else ρ l'.

Lemma upd_same ρ l v : upd ρ l v l = v.
Proof. unfold upd. by rewrite decide_True. Qed.
Lemma upd_other ρ l v l' : l' ≠ l → upd ρ l v l' = ρ l'.
Proof. unfold upd. intros. by rewrite decide_False. Qed.
Lemma vok_upd E ρ l v : vok E ρ → v < E l → vok E (upd ρ l v).
Proof. intros H Hv l'. unfold upd. destruct (decide _); [by subst|done]. Qed.

Lemma eval_br ρ hd cs : eval ρ (Br hd cs) = c ← cs !! ρ (h_level hd); eval ρ c.
Proof.
  cbn [eval]. change (map (eval ρ) cs) with (eval ρ <$> cs). rewrite list_lookup_fmap.
  by destruct (cs !! _).
Qed.

Lemma eval_agree E ρ ρ' d : okdd E d → (∀ l, l < rank d → ρ l = ρ' l) → eval ρ d = eval ρ' d.
Proof.
  induction d as [t|hd cs IH] using dd_ind'; [done|].
  intros [Hl Hcs]%okdd_br Ha. rewrite !eval_br. cbn [rank] in Ha. rewrite Ha by lia.
  destruct (cs !! _) as [c|] eqn:Hc; [|done]. cbn.
  rewrite Forall_lookup in IH, Hcs. destruct (Hcs _ _ Hc). eapply IH; eauto.
  intros l Hlt. apply Ha. lia.
Qed.

Lemma eval_upd E ρ d l v : okdd E d → rank d ≤ l → eval (upd ρ l v) d = eval ρ d.
Proof. intros Ho Hr. eapply eval_agree; [done|]. intros l' Hl. apply upd_other. lia. Qed.

Lemma eval_total E ρ d : okdd E d → vok E ρ → ∃ t, eval ρ d = Some t.
Proof.
  intros Ho Hv. induction d as [t|hd cs IH] using dd_ind'; [by exists t|].
  apply okdd_br in Ho as [Hl Hcs]. rewrite eval_br.
  destruct (lookup_lt_is_Some_2 cs (ρ (h_level hd))) as [c Hc]; [rewrite Hl; apply Hv|].
  rewrite Hc. cbn. rewrite Forall_lookup in IH, Hcs. destruct (Hcs _ _ Hc). eapply IH; eauto.
Qed.

(** ** Cofactors and the reducing constructor *)
Definition cof d (l i : nat) : dd T :=
  match d with
  | Br hd cs => if decide (h_level hd = l) then default d (cs !! i) else d
  | Leaf _ => d
  end.

Lemma cof_low d l i : rank d ≤ l → cof d l i = d.
Proof. destruct d as [|hd cs]; cbn; [done|]. intros. by rewrite decide_False by lia. Qed.

Lemma cof_ok E d l i : okdd E d → i < E l → okdd E (cof d l i).
Proof.
  destruct d as [t|hd cs]; [done|]. intros Ho Hi. cbn [cof].
  destruct (decide _) as [<-|]; [|done]. pose proof Ho as [Hl Hcs]%okdd_br.
  destruct (cs !! i) as [c|] eqn:Hc; [|done]. cbn. rewrite Forall_lookup in Hcs. by eapply Hcs.
Qed.

Lemma cof_rank E d l i : okdd E d → i < E l → rank d ≤ S l → rank (cof d l i) ≤ l.
Proof.
  destruct d as [t|hd cs]; cbn [cof rank]; [lia|]. intros Ho Hi Hr.
  destruct (decide _) as [<-|]; [|cbn; lia]. apply okdd_br in Ho as [Hl Hcs].
  destruct (lookup_lt_is_Some_2 cs i) as [c Hc]; [lia|]. rewrite Hc. cbn.
  rewrite Forall_lookup in Hcs. by eapply Hcs.
Qed.

Lemma eval_cof E ρ d l : okdd E d → vok E ρ → eval ρ (cof d l (ρ l)) = eval ρ d.
Proof.
  destruct d as [t|hd cs]; [done|]. intros Ho Hv. cbn [cof].
  destruct (decide _) as [<-|]; [|done]. rewrite eval_br. apply okdd_br in Ho as [Hl Hcs].
  destruct (lookup_lt_is_Some_2 cs (ρ (h_level hd))) as [c Hc]; [rewrite Hl; apply Hv|].
  by rewrite Hc.
Qed.

(** ** Reduced trees and canonicity *)
Fixpoint redd d : Prop :=
  match d with
  | Leaf _ => True
  | Br hd cs => (¬ ∃ c, Forall (eq c) cs) ∧
      (fix all cs := match cs with [] => True | c :: cs => redd c ∧ all cs end) cs
  end.

Lemma redd_br hd cs : redd (Br hd cs) ↔ (¬ ∃ c, Forall (eq c) cs) ∧ Forall redd cs.
Proof.
  cbn [redd]. assert (∀ l, (fix all cs := match cs with [] => True | c :: cs => redd c ∧ all cs end) l ↔
       Forall redd l) as Hl.
  { induction l as [|c l IH]; [by split|]. rewrite Forall_cons, <- IH. done. }
  by rewrite Hl.
Qed.

(** every header is the one [H] assigns to its level *)
Fixpoint hdby (H : nat → header) d : Prop :=
  match d with
  | Leaf _ => True
  | Br hd cs => hd = H (h_level hd) ∧
      (fix all cs := match cs with [] => True | c :: cs => hdby H c ∧ all cs end) cs
  end.

Lemma hdby_br H hd cs : hdby H (Br hd cs) ↔ hd = H (h_level hd) ∧ Forall (hdby H) cs.
Proof.
  cbn [hdby]. assert (∀ l, (fix all cs := match cs with [] => True | c :: cs => hdby H c ∧ all cs end) l ↔
       Forall (hdby H) l) as Hl.
  { induction l as [|c l IH]; [by split|]. rewrite Forall_cons, <- IH. done. }
  by rewrite Hl.
Qed.

(** a tree whose root lies strictly above another tree with the same meaning is not reduced *)
Lemma canon_lt E H n hd cs d2 :
  (∀ l, 0 < E l) →
  (∀ d1 d2, rank d1 + rank d2 < n → okdd E d1 → okdd E d2 → redd d1 → redd d2 → hdby H d1 → hdby H d2 →
     (∀ ρ, vok E ρ → eval ρ d1 = eval ρ d2) → d1 = d2) →
  rank (Br hd cs) + rank d2 ≤ n →
  rank d2 ≤ h_level hd →
  okdd E (Br hd cs) → okdd E d2 → redd (Br hd cs) → redd d2 → hdby H (Br hd cs) → hdby H d2 →
  (∀ ρ, vok E ρ → eval ρ (Br hd cs) = eval ρ d2) → False.
Proof.
  intros HE IH Hn Hlt Ho1 Ho2 Hr1 Hr2 Hh1 Hh2 Heq.
  pose proof Ho1 as [Hl Hcs]%okdd_br. pose proof Hr1 as [Hne Hrs]%redd_br.
  pose proof Hh1 as [_ Hhs]%hdby_br.
  destruct Hne. exists d2. apply Forall_lookup. intros i c Hc. symmetry.
  rewrite Forall_lookup in Hcs, Hrs, Hhs. destruct (Hcs _ _ Hc) as [Hrk Hok].
  assert (Hi : i < E (h_level hd)) by (rewrite <- Hl; by eapply lookup_lt_Some).
  apply IH; eauto.
  { cbn [rank] in Hn. lia. }
  intros ρ Hv. rewrite <- (eval_upd E ρ c (h_level hd) i) by done.
  rewrite <- (eval_upd E ρ d2 (h_level hd) i) by done.
  rewrite <- Heq by by apply vok_upd. rewrite eval_br, upd_same, Hc. done.
Qed.

Lemma canon_aux E H n : (∀ l, 0 < E l) → ∀ d1 d2,
  rank d1 + rank d2 < n → okdd E d1 → okdd E d2 → redd d1 → redd d2 → hdby H d1 → hdby H d2 →
  (∀ ρ, vok E ρ → eval ρ d1 = eval ρ d2) → d1 = d2.
Proof.
  intros HE. induction n as [|n IH]; [lia|].
  intros d1 d2 Hn Ho1 Ho2 Hr1 Hr2 Hh1 Hh2 Heq.
  assert (Hv0 : vok E (λ _, 0)) by (intros l; apply HE).
  destruct d1 as [t1|hd1 cs1], d2 as [t2|hd2 cs2].
  - specialize (Heq _ Hv0). cbn in Heq. congruence.
  - exfalso. eapply (canon_lt E H n hd2 cs2 (Leaf t1)); eauto; cbn [rank] in *; try lia.
    intros ρ Hv. symmetry. by apply Heq.
  - exfalso. eapply (canon_lt E H n hd1 cs1 (Leaf t2)); eauto; cbn [rank] in *; lia.
  - destruct (Nat.lt_trichotomy (h_level hd1) (h_level hd2)) as [Hlt|[Hle|Hlt]].
    + exfalso. eapply (canon_lt E H n hd2 cs2 (Br hd1 cs1)); eauto; cbn [rank] in *; try lia.
      intros ρ Hv. symmetry. by apply Heq.
    + pose proof Ho1 as [Hl1 Hcs1]%okdd_br. pose proof Hr1 as [_ Hrs1]%redd_br.
      pose proof Hh1 as [He1 Hhs1]%hdby_br.
      pose proof Ho2 as [Hl2 Hcs2]%okdd_br. pose proof Hr2 as [_ Hrs2]%redd_br.
      pose proof Hh2 as [He2 Hhs2]%hdby_br.
      assert (hd1 = hd2) as <- by congruence. clear Hle He2. f_equal.
      apply list_eq_same_length with (length cs1); [congruence|congruence|].
      intros i c1 c2 Hi Hc1 Hc2.
      rewrite Forall_lookup in Hcs1, Hrs1, Hhs1, Hcs2, Hrs2, Hhs2.
      destruct (Hcs1 _ _ Hc1), (Hcs2 _ _ Hc2). cbn [rank] in Hn.
      apply IH; eauto; [lia|]. intros ρ Hv.
      rewrite <- (eval_upd E ρ c1 (h_level hd1) i) by done.
      rewrite <- (eval_upd E ρ c2 (h_level hd1) i) by done.
      specialize (Heq (upd ρ (h_level hd1) i)). rewrite !eval_br, upd_same, Hc1, Hc2 in Heq. apply Heq.
      apply vok_upd; [done|]. lia.
    + exfalso. eapply (canon_lt E H n hd1 cs1 (Br hd2 cs2)); eauto; cbn [rank] in *; lia.
Qed.

Lemma canon E H d1 d2 : (∀ l, 0 < E l) →
  okdd E d1 → okdd E d2 → redd d1 → redd d2 → hdby H d1 → hdby H d2 →
  (∀ ρ, vok E ρ → eval ρ d1 = eval ρ d2) → d1 = d2.
Proof. intros. eapply (canon_aux E H (S (rank d1 + rank d2))); eauto. Qed.

End trees.
