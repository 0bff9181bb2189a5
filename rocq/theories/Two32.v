(** Two executions of one operation, wide and narrowed, compared: the generic part, for all managers. *)
From Verif Require Import Prelude Arena Mdd Bdd32 Bdd32Proofs SpecLog32.

Section two.
Context {S : Type} (len : S → nat) (hdrs : S → nat) (fit : S → Prop) (W : nat).
Local Notation lem := (le len hdrs).
Definition mo2 {B} (m : S) (y : option (S * B)) : Prop := ∀ m' r, y = Some (m', r) → lem m m'.
(** [x] wide, [y] narrowed: they have the same small outcomes. *)
Record two2 {B} (P : S → B → Prop) (m : S) (x y : option (S * B)) : Prop := {
  t2_fit : ∀ m' r, x = Some (m', r) → fit m' ∧ lem m m' ∧ P m' r;
  t2_iff : ∀ p, len p.1 ≤ W → x = Some p ↔ y = Some p;
}.
Definition idok (m : S) (r : nat) : Prop := r < len m.
Definition idsok (m : S) (rs : list nat) : Prop := Forall (λ r, r < len m) rs.

Lemma mo2_ret {B} m (r : B) : mo2 m (Some (m, r)).
Proof. intros ? ? [= <- <-]. apply le_refl. Qed.
Lemma mo2_bind {A B} m (y : option (S * A)) (k : S → A → option (S * B)) :
  mo2 m y → (∀ m1 r1, mo2 m1 (k m1 r1)) → mo2 m ('(m, r) ← y; k m r).
Proof. intros Hy Hk m' r H. destruct y as [[m1 r1]|]; [|done]. cbn in H. eapply le_trans; [by eapply Hy|by eapply Hk]. Qed.
Lemma mo2_obind {A B} m (e : option A) (k : A → option (S * B)) : (∀ a, mo2 m (k a)) → mo2 m (e ≫= k).
Proof. intros Hk m' r H. destruct e; [|done]. by eapply Hk. Qed.
Lemma mo2_mapst {A B} (F : S → A → option (S * B)) l : (∀ m a, mo2 m (F m a)) → ∀ m, mo2 m (mapst F m l).
Proof.
  intros HF. induction l as [|a l IH]; intros m; cbn [mapst]; [apply mo2_ret|].
  apply mo2_bind; [apply HF|]. intros m1 r1. apply mo2_bind; [apply IH|]. intros. apply mo2_ret.
Qed.

Lemma two2_none {B} (P : S → B → Prop) m : two2 P m None None.
Proof. split; done. Qed.
Lemma two2_ret {B} (P : S → B → Prop) m r : fit m → P m r → two2 P m (Some (m, r)) (Some (m, r)).
Proof. intros Hf Hr. split; [|done]. intros ? ? [= <- <-]. sp; try done. Qed.
Lemma two2_bind {A B} (P : S → A → Prop) (Q : S → B → Prop) m x y (k k' : S → A → option (S * B)) :
  two2 P m x y →
  (∀ m1 r1, fit m1 → lem m m1 → P m1 r1 → two2 Q m1 (k m1 r1) (k' m1 r1)) →
  (∀ m1 r1, mo2 m1 (k' m1 r1)) →
  two2 Q m ('(m, r) ← x; k m r) ('(m, r) ← y; k' m r).
Proof.
  intros [Hf Hi] Hk Hm. split.
  - intros m' r H. destruct x as [[m1 r1]|]; [|done]. cbn in H. destruct (Hf _ _ eq_refl) as (F1 & L1 & R1).
    destruct (t2_fit _ _ _ _ (Hk _ _ F1 L1 R1) _ _ H) as (? & ? & ?). sp; try done. by eapply le_trans.
  - intros [m' r] HW. cbn in HW. split; intros H.
    + destruct x as [[m1 r1]|]; [|done]. cbn in H. destruct (Hf _ _ eq_refl) as (F1 & L1 & R1).
      pose proof (Hk _ _ F1 L1 R1) as [Kf Ki]. destruct (Kf _ _ H) as (_ & [Hl _] & _).
      rewrite (proj1 (Hi (m1, r1) ltac:(cbn; lia)) eq_refl). cbn. by apply Ki.
    + destruct y as [[m1 r1]|]; [|done]. cbn in H. destruct (Hm _ _ _ _ H) as [Hl _].
      pose proof (proj2 (Hi (m1, r1) ltac:(cbn; lia)) eq_refl) as ->. cbn. destruct (Hf _ _ eq_refl) as (F1 & L1 & R1).
      by apply (Hk _ _ F1 L1 R1).
Qed.
Lemma two2_obind {A B} (P : S → B → Prop) m (e : option A) (k k' : A → option (S * B)) :
  (∀ a, e = Some a → two2 P m (k a) (k' a)) → two2 P m (e ≫= k) (e ≫= k').
Proof. intros H. destruct e; [by apply H|apply two2_none]. Qed.
(** if the store is already too large, only monotonicity matters *)
Lemma two2_guard {B} (P : S → B → Prop) m x y :
  (∀ m' r, x = Some (m', r) → fit m' ∧ lem m m' ∧ P m' r) → mo2 m y →
  (len m ≤ W → ∀ p, len p.1 ≤ W → x = Some p ↔ y = Some p) → two2 P m x y.
Proof.
  intros Hf Hm Hi. split; [done|]. intros [m' r] HW. cbn in HW. destruct (decide (len m ≤ W)) as [Hl|Hl]; [by apply Hi|].
  split; intros H.
  - destruct (Hf _ _ H) as (_ & [? _] & _). lia.
  - destruct (Hm _ _ H) as [? _]. lia.
Qed.
(** a look into a table that agrees while the store is small *)
Lemma two2_look {A B} (P : S → B → Prop) m (e e' : option A) (k k' : A → option (S * B)) :
  (len m ≤ W → e' = e) → (∀ a, e = Some a → two2 P m (k a) (k' a)) → (∀ a, mo2 m (k' a)) →
  two2 P m (e ≫= k) (e' ≫= k').
Proof.
  intros He H Hm. apply two2_guard.
  - intros m' r Hx. destruct e as [a|]; [|done]. by eapply (H a).
  - by apply mo2_obind.
  - intros Hl p HW. rewrite He by done. destruct e as [a|]; [|done]. cbn. by apply (H a).
Qed.
(** the same for a table returning an option *)
Lemma two2_hit {A B} (P : S → B → Prop) m (e e' : option A) (k k' : A → option (S * B)) d d' :
  (len m ≤ W → e' = e) → (∀ a, e = Some a → two2 P m (k a) (k' a)) → two2 P m d d' → (∀ a, mo2 m (k' a)) → mo2 m d' →
  two2 P m (match e with Some a => k a | None => d end) (match e' with Some a => k' a | None => d' end).
Proof.
  intros He H Hd Hm Hm'. apply two2_guard.
  - intros m' r Hx. destruct e as [a|]; [by eapply (H a)|by eapply Hd].
  - destruct e'; [apply Hm|done].
  - intros Hl p HW. rewrite He by done. destruct e as [a|]; [by apply (H a)|by apply Hd].
Qed.
(** a write of the result into a table *)
Lemma two2_write {B} (P : S → B → Prop) m (e e' : option S) (r : B) :
  (∀ m1, e = Some m1 → fit m1 ∧ len m1 = len m ∧ hdrs m1 = hdrs m ∧ P m1 r) →
  (len m ≤ W → e' = e) → (∀ m1, e' = Some m1 → len m1 = len m ∧ hdrs m1 = hdrs m) →
  two2 P m (m ← e; Some (m, r)) (m ← e'; Some (m, r)).
Proof.
  intros He Hs Hm. apply two2_guard.
  - intros m' r' H. destruct e as [m1|]; [|done]. injection H as <- <-. destruct (He _ eq_refl) as (? & ? & ? & ?).
    sp; try done. split; [lia|done].
  - intros m' r' H. destruct e' as [m1|]; [|done]. injection H as <- <-. destruct (Hm _ eq_refl). split; [lia|done].
  - intros Hl p HW. by rewrite Hs.
Qed.
Lemma two2_mapst {A} (F F' : S → A → option (S * nat)) l m :
  fit m → (∀ m1 a, a ∈ l → fit m1 → lem m m1 → two2 idok m1 (F m1 a) (F' m1 a)) → (∀ m1 a, mo2 m1 (F' m1 a)) →
  two2 idsok m (mapst F m l) (mapst F' m l).
Proof.
  intros Hf HF Hm. revert m Hf HF. induction l as [|a l IH]; intros m Hf HF; cbn [mapst].
  { apply two2_ret; [done|constructor]. }
  eapply (two2_bind idok); [apply HF; [left|done|apply le_refl]| |].
  - intros m1 r1 F1 L1 R1. eapply (two2_bind idsok).
    + apply IH; [done|]. intros m2 b Hb F2 L2. apply HF; [by right|done|by eapply le_trans].
    + intros m2 rs F2 L2 R2. apply two2_ret; [done|]. constructor; [|done]. unfold idok in R1. destruct L2. cbn. lia.
    + intros. apply mo2_ret.
  - intros m1 r1. apply mo2_bind; [by apply mo2_mapst|]. intros. apply mo2_ret.
Qed.
End two.

(** ** The store *)
Lemma hashcons_fit {T} (a : arena T) h cs : afit a → h < length (ar_headers a) → Forall (λ c, c < length (ar_nodes a)) cs →
  let p := ar_hashcons a h cs in
  afit p.1 ∧ ar_headers p.1 = ar_headers a ∧ length (ar_nodes a) ≤ length (ar_nodes p.1) ∧ p.2 < length (ar_nodes p.1).
Proof. intros Ha Hh Hc. destruct (ar_hashcons a h cs) as [a1 r] eqn:E. by eapply afit_hashcons in E. Qed.
(** while the store is small, a small outcome of either is an outcome of both *)
Lemma hashcons_iff {T} w (a : arena T) h cs : afit a → h < length (ar_headers a) → Forall (λ c, c < length (ar_nodes a)) cs →
  length (ar_headers a) ≤ cap w → length (ar_nodes a) ≤ cap w →
  length (ar_nodes (ar_hashcons a h cs).1) ≤ cap w ∨ length (ar_nodes (n_hashcons w a h cs).1) ≤ cap w →
  n_hashcons w a h cs = ar_hashcons a h cs.
Proof.
  intros Ha Hh Hc HW HL H. destruct (n_hashcons_same w a h cs) as [E1 E2]; try done. apply E2. rewrite E1 in H. by destruct H.
Qed.

(** ** Histories *)
Section log.
Context {S C A : Type} (len hdrs : S → nat) (legal : S → C → Prop) `{∀ m c, Decision (legal m c)}.
Context (exec nexec : S → C → option (S * A)) (inv : S → Prop) (w : N).
Definition grow (m m1 : S) : Prop := len m ≤ len m1 ∧ hdrs m ≤ hdrs m1.
Hypothesis Hexec : ∀ m c m1 r, inv m → legal m c → exec m c = Some (m1, r) → inv m1 ∧ grow m m1.
Hypothesis Hn : ∀ m c m1 r, nexec m c = Some (m1, r) → grow m m1.
Hypothesis Hiff : ∀ m c p, inv m → legal m c → hdrs m ≤ cap w → len p.1 ≤ cap w → exec m c = Some p ↔ nexec m c = Some p.
Lemma grow_refl m : grow m m.
Proof. split; done. Qed.
Lemma grow_trans a b c : grow a b → grow b c → grow a c.
Proof. unfold grow. lia. Qed.
Lemma nlog_grow cs : ∀ m rs m', log32 legal nexec m cs = Some (rs, m') → grow m m'.
Proof.
  induction cs as [|c cs IH]; intros m rs m'; cbn [log32]; [intros [= <- <-]; apply grow_refl|]. case_decide; [|done].
  destruct (nexec m c) as [[m1 r]|] eqn:E; [|done]. cbn [mbind option_bind]. apply Hn in E.
  destruct (log32 legal nexec m1 cs) as [[rs1 m2]|] eqn:E2; [|done]. intros [= <- <-]. apply IH in E2. by eapply grow_trans.
Qed.
Lemma log_grow cs : ∀ m rs m', inv m → log32 legal exec m cs = Some (rs, m') → grow m m'.
Proof.
  induction cs as [|c cs IH]; intros m rs m' Hm; cbn [log32]; [intros [= <- <-]; apply grow_refl|]. case_decide as Hl; [|done].
  destruct (exec m c) as [[m1 r]|] eqn:E; [|done]. cbn [mbind option_bind]. destruct (Hexec _ _ _ _ Hm Hl E) as [I1 G1].
  destruct (log32 legal exec m1 cs) as [[rs1 m2]|] eqn:E2; [|done]. intros [= <- <-]. apply IH in E2; [|done]. by eapply grow_trans.
Qed.
Lemma log32_same cs : ∀ m rs m', inv m → len m' ≤ cap w → hdrs m' ≤ cap w →
  log32 legal nexec m cs = Some (rs, m') ↔ log32 legal exec m cs = Some (rs, m').
Proof.
  induction cs as [|c cs IH]; intros m rs m' Hm Hs Hh; [done|]. cbn [log32]. case_decide as Hl; [|done]. split; intros H1.
  - destruct (nexec m c) as [[m1 r]|] eqn:E; [|done]. cbn [mbind option_bind] in H1.
    destruct (log32 legal nexec m1 cs) as [[rs1 m2]|] eqn:E2; [|done]. cbn in H1. injection H1 as <- <-.
    pose proof (Hn _ _ _ _ E) as [G1 G2]. destruct (nlog_grow _ _ _ _ E2) as [G3 G4].
    apply Hiff in E; try done; [|lia|cbn; lia]. rewrite E. cbn [mbind option_bind].
    destruct (Hexec _ _ _ _ Hm Hl E) as [I1 _]. apply IH in E2; try done. by rewrite E2.
  - destruct (exec m c) as [[m1 r]|] eqn:E; [|done]. cbn [mbind option_bind] in H1.
    destruct (log32 legal exec m1 cs) as [[rs1 m2]|] eqn:E2; [|done]. cbn in H1. injection H1 as <- <-.
    destruct (Hexec _ _ _ _ Hm Hl E) as [I1 [G1 G2]]. destruct (log_grow _ _ _ _ I1 E2) as [G3 G4].
    apply Hiff in E; try done; [|lia|cbn; lia]. rewrite E. cbn [mbind option_bind]. apply IH in E2; try done. by rewrite E2.
Qed.
End log.
