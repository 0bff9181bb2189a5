(** Two32.v with an arbitrary order on states, for the manager with two stores. *)
From Verif Require Import Prelude Arena Mdd Bdd32 Bdd32Proofs.

Section two.
Context {S : Type} (len : S → nat) (lem : S → S → Prop) (fit : S → Prop) (W : nat).
Hypothesis lem_refl : ∀ m, lem m m.
Hypothesis lem_trans : ∀ a b c, lem a b → lem b c → lem a c.
Hypothesis lem_len : ∀ a b, lem a b → len a ≤ len b.
Definition mo3 {B} (m : S) (y : option (S * B)) : Prop := ∀ m' r, y = Some (m', r) → lem m m'.
(** [x] wide, [y] narrowed: they have the same small outcomes. *)
Record two3 {B} (P : S → B → Prop) (m : S) (x y : option (S * B)) : Prop := {
  t3_fit : ∀ m' r, x = Some (m', r) → fit m' ∧ lem m m' ∧ P m' r;
  t3_iff : ∀ p, len p.1 ≤ W → x = Some p ↔ y = Some p;
}.

Lemma mo3_ret {B} m (r : B) : mo3 m (Some (m, r)).
Proof. intros ? ? [= <- <-]. apply lem_refl. Qed.
Lemma mo3_bind {A B} m (y : option (S * A)) (k : S → A → option (S * B)) :
  mo3 m y → (∀ m1 r1, mo3 m1 (k m1 r1)) → mo3 m ('(m, r) ← y; k m r).
Proof. intros Hy Hk m' r H. destruct y as [[m1 r1]|]; [|done]. cbn in H. eapply lem_trans; [by eapply Hy|by eapply Hk]. Qed.
Lemma mo3_obind {A B} m (e : option A) (k : A → option (S * B)) : (∀ a, mo3 m (k a)) → mo3 m (e ≫= k).
Proof. intros Hk m' r H. destruct e; [|done]. by eapply Hk. Qed.
Lemma mo3_mapst {A B} (F : S → A → option (S * B)) l : (∀ m a, mo3 m (F m a)) → ∀ m, mo3 m (mapst F m l).
Proof.
  intros HF. induction l as [|a l IH]; intros m; cbn [mapst]; [apply mo3_ret|].
  apply mo3_bind; [apply HF|]. intros m1 r1. apply mo3_bind; [apply IH|]. intros. apply mo3_ret.
Qed.

Lemma two3_none {B} (P : S → B → Prop) m : two3 P m None None.
Proof. split; done. Qed.
Lemma two3_ret {B} (P : S → B → Prop) m r : fit m → P m r → two3 P m (Some (m, r)) (Some (m, r)).
Proof. intros Hf Hr. split; [|done]. intros ? ? [= <- <-]. sp; try done. Qed.
Lemma two3_bind {A B} (P : S → A → Prop) (Q : S → B → Prop) m x y (k k' : S → A → option (S * B)) :
  two3 P m x y →
  (∀ m1 r1, fit m1 → lem m m1 → P m1 r1 → two3 Q m1 (k m1 r1) (k' m1 r1)) →
  (∀ m1 r1, mo3 m1 (k' m1 r1)) →
  two3 Q m ('(m, r) ← x; k m r) ('(m, r) ← y; k' m r).
Proof.
  intros [Hf Hi] Hk Hm. split.
  - intros m' r H. destruct x as [[m1 r1]|]; [|done]. cbn in H. destruct (Hf _ _ eq_refl) as (F1 & L1 & R1).
    destruct (t3_fit _ _ _ _ (Hk _ _ F1 L1 R1) _ _ H) as (? & ? & ?). sp; try done. by eapply lem_trans.
  - intros [m' r] HW. cbn in HW. split; intros H.
    + destruct x as [[m1 r1]|]; [|done]. cbn in H. destruct (Hf _ _ eq_refl) as (F1 & L1 & R1).
      pose proof (Hk _ _ F1 L1 R1) as [Kf Ki]. destruct (Kf _ _ H) as (_ & Hl%lem_len & _).
      rewrite (proj1 (Hi (m1, r1) ltac:(cbn; lia)) eq_refl). cbn. by apply Ki.
    + destruct y as [[m1 r1]|]; [|done]. cbn in H. pose proof (lem_len _ _ (Hm _ _ _ _ H)) as Hl.
      pose proof (proj2 (Hi (m1, r1) ltac:(cbn; lia)) eq_refl) as ->. cbn. destruct (Hf _ _ eq_refl) as (F1 & L1 & R1).
      by apply (Hk _ _ F1 L1 R1).
Qed.
Lemma two3_obind {A B} (P : S → B → Prop) m (e : option A) (k k' : A → option (S * B)) :
  (∀ a, e = Some a → two3 P m (k a) (k' a)) → two3 P m (e ≫= k) (e ≫= k').
Proof. intros H. destruct e; [by apply H|apply two3_none]. Qed.
(** if the store is already too large, only monotonicity matters *)
Lemma two3_guard {B} (P : S → B → Prop) m x y :
  (∀ m' r, x = Some (m', r) → fit m' ∧ lem m m' ∧ P m' r) → mo3 m y →
  (len m ≤ W → ∀ p, len p.1 ≤ W → x = Some p ↔ y = Some p) → two3 P m x y.
Proof.
  intros Hf Hm Hi. split; [done|]. intros [m' r] HW. cbn in HW. destruct (decide (len m ≤ W)) as [Hl|Hl]; [by apply Hi|].
  split; intros H.
  - destruct (Hf _ _ H) as (_ & ?%lem_len & _). lia.
  - pose proof (lem_len _ _ (Hm _ _ H)). lia.
Qed.
(** a look into a table that agrees while the store is small *)
Lemma two3_look {A B} (P : S → B → Prop) m (e e' : option A) (k k' : A → option (S * B)) :
  (len m ≤ W → e' = e) → (∀ a, e = Some a → two3 P m (k a) (k' a)) → (∀ a, mo3 m (k' a)) →
  two3 P m (e ≫= k) (e' ≫= k').
Proof.
  intros He H Hm. apply two3_guard.
  - intros m' r Hx. destruct e as [a|]; [|done]. by eapply (H a).
  - by apply mo3_obind.
  - intros Hl p HW. rewrite He by done. destruct e as [a|]; [|done]. cbn. by apply (H a).
Qed.
(** a write of the result into a table *)
Lemma two3_write {B} (P : S → B → Prop) m (e e' : option S) (r : B) :
  (∀ m1, e = Some m1 → fit m1 ∧ lem m m1 ∧ P m1 r) → (len m ≤ W → e' = e) → (∀ m1, e' = Some m1 → lem m m1) →
  two3 P m (m ← e; Some (m, r)) (m ← e'; Some (m, r)).
Proof.
  intros He Hs Hm. apply two3_guard.
  - intros m' r' H. destruct e as [m1|]; [|done]. injection H as <- <-. by apply He.
  - intros m' r' H. destruct e' as [m1|]; [|done]. injection H as <- <-. by apply Hm.
  - intros Hl p HW. by rewrite Hs.
Qed.
Lemma two3_mapst {A B} (P : S → B → Prop) (F F' : S → A → option (S * B)) l m : (∀ a b r, lem a b → P a r → P b r) →
  fit m → (∀ m1 a, a ∈ l → fit m1 → lem m m1 → two3 P m1 (F m1 a) (F' m1 a)) → (∀ m1 a, mo3 m1 (F' m1 a)) →
  two3 (λ m rs, Forall (P m) rs) m (mapst F m l) (mapst F' m l).
Proof.
  intros HP Hf HF Hm. revert m Hf HF. induction l as [|a l IH]; intros m Hf HF; cbn [mapst].
  { apply two3_ret; [done|constructor]. }
  eapply (two3_bind P); [apply HF; [left|done|apply lem_refl]| |].
  - intros m1 r1 F1 L1 R1. eapply (two3_bind (λ m rs, Forall (P m) rs)).
    + apply IH; [done|]. intros m2 b Hb F2 L2. apply HF; [by right|done|by eapply lem_trans].
    + intros m2 rs F2 L2 R2. apply two3_ret; [done|]. constructor; [|done]. by eapply HP.
    + intros. apply mo3_ret.
  - intros m1 r1. apply mo3_bind; [by apply mo3_mapst|]. intros. apply mo3_ret.
Qed.
End two.
