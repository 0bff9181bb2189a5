(** The probability and importance recursions preserve every relation between two number types that the five operations preserve. *)
From stdpp Require Import strings.
From Verif Require Import Prelude ComputeCache Arena Bdd Mdd MtMdd MtMdd2 BssAlg BssMgr MssMgr MssAlg SpecEnclose.

Lemma orel_bind {X Y X' Y'} (P : X → Y → Prop) (Q : X' → Y' → Prop) mx my (f : X → option X') (g : Y → option Y') :
  option_Forall2 P mx my → (∀ x y, P x y → option_Forall2 Q (f x) (g y)) → option_Forall2 Q (mx ≫= f) (my ≫= g).
Proof. intros [x y Hxy|] Hf; [exact (Hf x y Hxy)|constructor]. Qed.
Lemma orel_same {X X' Y'} (Q : X' → Y' → Prop) (mx : option X) (f : X → option X') (g : X → option Y') :
  (∀ x, option_Forall2 Q (f x) (g x)) → option_Forall2 Q (mx ≫= f) (mx ≫= g).
Proof. intros Hf. destruct mx as [x|]; [exact (Hf x)|constructor]. Qed.

Section rel.
Context {A B : Type} (oA iA : A) (addA mulA subA : A → A → A) (oB iB : B) (addB mulB subB : B → B → B) (Q : A → B → Prop).
Hypothesis HQ : preserved oA iA addA mulA subA oB iB addB mulB subB Q.
Local Notation mrel := (table_rel Q).

Lemma Q0 : Q oA oB. Proof. apply HQ. Qed.
Lemma Q1 : Q iA iB. Proof. apply HQ. Qed.
Lemma Qadd x y x' y' : Q x y → Q x' y' → Q (addA x x') (addB y y'). Proof. intros ??. by apply HQ. Qed.
Lemma Qmul x y x' y' : Q x y → Q x' y' → Q (mulA x x') (mulB y y'). Proof. intros ??. by apply HQ. Qed.
Lemma Qsub x y x' y' : Q x y → Q x' y' → Q (subA x x') (subB y y'). Proof. intros ??. by apply HQ. Qed.
Hint Resolve Q0 Q1 Qadd Qmul Qsub : core.

Lemma mrel_insert `{Countable K} {X Y} (P : X → Y → Prop) (m : gmap K X) (m' : gmap K Y) k x y :
  table_rel P m m' → P x y → table_rel P (<[k := x]> m) (<[k := y]> m').
Proof.
  intros Hm Hx j. destruct (decide (j = k)) as [->|Hj].
  - rewrite !lookup_insert. by constructor.
  - rewrite !lookup_insert_ne by done. apply Hm.
Qed.
Lemma mrel_empty `{Countable K} {X Y} (P : X → Y → Prop) : table_rel P (∅ : gmap K X) (∅ : gmap K Y).
Proof. intros j. rewrite !lookup_empty. constructor. Qed.
Lemma mrel_default `{Countable K} (m : gmap K A) (m' : gmap K B) k : mrel m m' → Q (default oA (m !! k)) (default oB (m' !! k)).
Proof. intros Hm. destruct (Hm k) as [x y Hx|]; cbn; [exact Hx|auto]. Qed.

(** ** Binary *)
Definition prel (p : gmap nat A * A) (q : gmap nat B * B) : Prop := mrel p.1 q.1 ∧ Q p.2 q.2.
Lemma prob_rel n a pv qv ss : mrel pv qv → ∀ node c c', mrel c c' →
  option_Forall2 prel (prob_f oA iA addA mulA subA n a node pv ss c) (prob_f oB iB addB mulB subB n a node qv ss c').
Proof.
  intros Hpv. induction n as [|n IH]; intros node c c' Hc; cbn [prob_f]; [constructor|].
  destruct (Hc node) as [x y Hx|]; [by constructor|].
  apply orel_same. intros nd. eapply (orel_bind prel).
  - destruct nd as [[]|h cs].
    + constructor. split; [exact Hc|]. cbn. destruct (in_ss ss false); auto.
    + constructor. split; [exact Hc|]. cbn. destruct (in_ss ss true); auto.
    + constructor.
    + apply orel_same. intros hd. apply orel_same. intros [e0 e1].
      eapply orel_bind; [exact (IH e0 _ _ Hc)|]. intros [c1 l] [c1' l'] [Hc1 Hl]. cbn in Hc1, Hl.
      eapply orel_bind; [exact (IH e1 _ _ Hc1)|]. intros [c2 r] [c2' r'] [Hc2 Hr]. cbn in Hc2, Hr.
      constructor. split; [exact Hc2|]. cbn. pose proof (mrel_default _ _ (h_label hd) Hpv). auto.
  - intros [c1 r] [c1' r'] [Hc1 Hr]. constructor. split; [by apply mrel_insert|exact Hr].
Qed.
Lemma bdd_prob_rel m pv qv ss f : mrel pv qv →
  option_Forall2 Q (bdd_prob oA iA addA mulA subA m pv ss f) (bdd_prob oB iB addB mulB subB m qv ss f).
Proof.
  intros Hpv. unfold bdd_prob. eapply orel_bind; [apply (prob_rel _ _ _ _ _ Hpv), mrel_empty|].
  intros [c r] [c' r'] [_ Hr]. by constructor.
Qed.

Definition trel {K} `{Countable K} {X Y} (P : X → Y → Prop) (p : gmap nat A * gmap nat A * gmap K X) (q : gmap nat B * gmap nat B * gmap K Y) : Prop :=
  mrel p.1.1 q.1.1 ∧ mrel p.1.2 q.1.2 ∧ table_rel P p.2 q.2.
Lemma bmeas_step_rel a ss pv qv f s s' : mrel pv qv → trel Q s s' →
  option_Forall2 (trel Q) (bmeas_step oA iA addA mulA subA a ss pv f s) (bmeas_step oB iB addB mulB subB a ss qv f s').
Proof.
  intros Hpv. destruct s as [[g c] e], s' as [[g' c'] e']. intros (Hg & Hc & He). cbn in Hg, Hc, He. unfold bmeas_step.
  apply orel_same. intros [t|h cs]; [by constructor|]. apply orel_same. intros hd. apply orel_same. intros [e0 e1].
  pose proof (mrel_default _ _ (h_label hd) Hpv) as Hp. pose proof (mrel_default _ _ f Hg) as Hw.
  set (w := default oA (g !! f)) in *. set (w' := default oB (g' !! f)) in *.
  set (p := default oA (pv !! h_label hd)) in *. set (p' := default oB (qv !! h_label hd)) in *. cbv zeta.
  match goal with |- context [<[e0 := ?r]> g] => set (r0 := r) end. match goal with |- context [<[e0 := ?r]> g'] => set (r0' := r) end.
  assert (Hr0 : Q r0 r0') by (unfold r0, r0'; destruct (Hg e0) as [x y Hx|]; auto 7).
  assert (Hg1 : mrel (<[e0 := r0]> g) (<[e0 := r0']> g')) by (by apply mrel_insert).
  match goal with |- context [<[e1 := ?r]> (<[e0 := r0]> g)] => set (r1 := r) end.
  match goal with |- context [<[e1 := ?r]> (<[e0 := r0']> g')] => set (r1' := r) end.
  assert (Hr1 : Q r1 r1') by (unfold r1, r1'; destruct (Hg1 e1) as [x y Hx|]; auto 7).
  eapply orel_bind; [exact (prob_rel _ a _ _ ss Hpv e0 _ _ Hc)|]. intros [c1 x0] [c1' x0'] [Hc1 Hx0]. cbn in Hc1, Hx0.
  eapply orel_bind; [exact (prob_rel _ a _ _ ss Hpv e1 _ _ Hc1)|]. intros [c2 x1] [c2' x1'] [Hc2 Hx1]. cbn in Hc2, Hx1.
  constructor. split; [|split]; cbn.
  - by apply mrel_insert.
  - exact Hc2.
  - apply mrel_insert; [exact He|]. destruct (He (h_label hd)) as [x y Hx|]; auto 7.
Qed.
Lemma bmeas_loop_rel a ss pv qv fs : mrel pv qv → ∀ s s', trel Q s s' →
  option_Forall2 (trel Q) (bmeas_loop oA iA addA mulA subA a ss pv fs s) (bmeas_loop oB iB addB mulB subB a ss qv fs s').
Proof.
  intros Hpv. induction fs as [|f fs IH]; intros s s' Hs; cbn [bmeas_loop]; [by constructor|].
  eapply orel_bind; [by eapply bmeas_step_rel|exact IH].
Qed.
Lemma bdd_bmeas_rel m pv qv ss f : mrel pv qv →
  option_Forall2 (table_rel Q) (bdd_bmeas oA iA addA mulA subA m pv ss f) (bdd_bmeas oB iB addB mulB subB m qv ss f).
Proof.
  intros Hpv. unfold bdd_bmeas. apply orel_same. intros l. eapply orel_bind; [eapply bmeas_loop_rel; [exact Hpv|]|].
  - split; [|split]; cbn; [|apply mrel_empty..]. apply mrel_insert; [apply mrel_empty|auto].
  - intros [[g c] e] [[g' c'] e'] (_ & _ & He). by constructor.
Qed.

(** ** Multi-state *)
Local Notation rows := (table_rel (Forall2 Q)).
Lemma row_rel ps qs j : Forall2 Q ps qs → option_Forall2 Q (ps !! j) (qs !! j).
Proof. intros HF. revert j. induction HF as [|p q ps qs Hp HF IH]; intros [|j]; cbn; by try constructor. Qed.
Lemma nprob_rel {T} (hit : T → option bool) n a pv qv : rows pv qv → ∀ node c c', mrel c c' →
  option_Forall2 prel (nprob_f oA iA addA mulA hit n a pv node c) (nprob_f oB iB addB mulB hit n a qv node c').
Proof.
  intros Hpv. induction n as [|n IH]; intros node c c' Hc; cbn [nprob_f]; [constructor|].
  destruct (Hc node) as [x y Hx|]; [by constructor|].
  apply orel_same. intros nd. eapply (orel_bind prel).
  - destruct nd as [t|h cs].
    + constructor. split; [exact Hc|]. cbn. destruct (hit t) as [[]|]; auto.
    + apply orel_same. intros hd. eapply orel_bind; [exact (Hpv _)|]. intros ps qs Hps.
      lazymatch goal with |- option_Forall2 _ (?g 0 cs c oA) (?g' 0 cs c' oB) =>
        enough (Hgo : ∀ i c c' r r', mrel c c' → Q r r' → option_Forall2 prel (g i cs c r) (g' i cs c' r')) by (apply Hgo; auto) end.
      clear c c' Hc. induction cs as [|e cs IHc]; intros i c c' r r' Hc Hr; [by constructor|].
      eapply orel_bind; [exact (IH e _ _ Hc)|]. intros [c1 x] [c1' x'] [Hc1 Hx]. cbn in Hc1, Hx.
      eapply orel_bind; [exact (row_rel _ _ i Hps)|]. intros p p' Hp. apply IHc; auto.
  - intros [c1 r] [c1' r'] [Hc1 Hr]. constructor. split; [by apply mrel_insert|exact Hr].
Qed.
Lemma nprob_rel_top {T} (hit : T → option bool) a pv qv f : rows pv qv →
  option_Forall2 Q (nprob oA iA addA mulA hit a pv f) (nprob oB iB addB mulB hit a qv f).
Proof.
  intros Hpv. unfold nprob. eapply orel_bind; [apply (nprob_rel _ _ _ _ _ Hpv), mrel_empty|].
  intros [c r] [c' r'] [_ Hr]. by constructor.
Qed.
Lemma g_prob_rel w x pv qv ss : rows pv qv →
  option_Forall2 Q (g_prob oA iA addA mulA w x pv ss) (g_prob oB iB addB mulB w x qv ss).
Proof. intros Hpv. destruct x; cbn [g_prob]; by apply nprob_rel_top. Qed.

Definition erel (p : gmap nat A * gmap nat A * list A) (q : gmap nat B * gmap nat B * list B) : Prop :=
  mrel p.1.1 q.1.1 ∧ mrel p.1.2 q.1.2 ∧ Forall2 Q p.2 q.2.
Lemma edges_rel {T} (hit : T → option bool) a pv qv w w' ps qs : rows pv qv → Q w w' → Forall2 Q ps qs → ∀ es j g g' c c', mrel g g' → mrel c c' →
  option_Forall2 erel (nmeas_edges oA iA addA mulA hit a pv w ps j es g c) (nmeas_edges oB iB addB mulB hit a qv w' qs j es g' c').
Proof.
  intros Hpv Hw Hps. induction es as [|e es IH]; intros j g g' c c' Hg Hc; cbn [nmeas_edges].
  - constructor. split; [exact Hg|split; [exact Hc|constructor]].
  - eapply orel_bind; [exact (row_rel _ _ j Hps)|]. intros p p' Hp. cbv zeta.
    eapply orel_bind; [exact (nprob_rel hit _ a _ _ Hpv e _ _ Hc)|]. intros [c1 x] [c1' x'] [Hc1 Hx]. cbn in Hc1, Hx.
    pose proof (mrel_default _ _ e Hg) as He.
    eapply orel_bind; [apply (IH (S j)); [apply mrel_insert; [exact Hg|auto]|exact Hc1]|].
    intros [[g2 c2] l] [[g2' c2'] l'] (Hg2 & Hc2 & Hl). constructor. split; [exact Hg2|split; [exact Hc2|by constructor]].
Qed.
Lemma slot_rel w w' : Q w w' → ∀ ps qs sl sl', Forall2 Q ps qs → Forall2 Q sl sl' →
  option_Forall2 (Forall2 Q) (nmeas_slot addA mulA subA w ps sl) (nmeas_slot addB mulB subB w' qs sl').
Proof.
  intros Hw ps qs sl sl' HF. revert sl sl'. induction HF as [|p q ps qs Hp HF IH]; intros sl sl' Hs; [by constructor|].
  destruct HF as [|p1 q1 ps qs Hp1 HF]; [by constructor|].
  change (option_Forall2 (Forall2 Q)
    (match sl with s :: slot => rest ← nmeas_slot addA mulA subA w (p1 :: ps) slot; Some (addA s (mulA w (subA p1 p)) :: rest) | [] => None end)
    (match sl' with s :: slot => rest ← nmeas_slot addB mulB subB w' (q1 :: qs) slot; Some (addB s (mulB w' (subB q1 q)) :: rest) | [] => None end)).
  destruct Hs as [|s s' sl sl' Hs HFs]; [constructor|].
  eapply orel_bind; [exact (IH _ _ HFs)|]. intros r r' Hr. constructor. constructor; [auto|exact Hr].
Qed.
Lemma nmeas_step_rel {T} (hit : T → option bool) a pv qv f s s' : rows pv qv → trel (Forall2 Q) s s' →
  option_Forall2 (trel (Forall2 Q)) (nmeas_step oA iA addA mulA subA hit a pv f s) (nmeas_step oB iB addB mulB subB hit a qv f s').
Proof.
  intros Hpv. destruct s as [[g c] e], s' as [[g' c'] e']. intros (Hg & Hc & He). cbn in Hg, Hc, He. unfold nmeas_step.
  apply orel_same. intros [t|h cs]; [by constructor|]. apply orel_same. intros hd. cbv zeta.
  pose proof (mrel_default _ _ f Hg) as Hw. eapply orel_bind; [exact (Hpv _)|]. intros ps qs Hps.
  eapply orel_bind; [exact (edges_rel hit a _ _ _ _ _ _ Hpv Hw Hps cs 0 _ _ _ _ Hg Hc)|].
  intros [[g1 c1] l] [[g1' c1'] l'] (Hg1 & Hc1 & Hl). cbn in Hg1, Hc1, Hl.
  eapply (orel_bind (Forall2 Q)).
  - destruct (He (h_label hd)) as [x y Hx|]; [by constructor|]. destruct (length cs) as [|m]; constructor.
    induction m as [|m IH]; cbn; constructor; auto.
  - intros sl sl' Hsl. eapply orel_bind; [exact (slot_rel _ _ Hw _ _ _ _ Hl Hsl)|]. intros r r' Hr.
    constructor. split; [exact Hg1|split; [exact Hc1|by apply mrel_insert]].
Qed.
Lemma nmeas_loop_rel {T} (hit : T → option bool) a pv qv fs : rows pv qv → ∀ s s', trel (Forall2 Q) s s' →
  option_Forall2 (trel (Forall2 Q)) (nmeas_loop oA iA addA mulA subA hit a pv fs s) (nmeas_loop oB iB addB mulB subB hit a qv fs s').
Proof.
  intros Hpv. induction fs as [|f fs IH]; intros s s' Hs; cbn [nmeas_loop]; [by constructor|].
  eapply orel_bind; [by eapply nmeas_step_rel|exact IH].
Qed.
Lemma nmeas_rel {T} (hit : T → option bool) a pv qv f : rows pv qv →
  option_Forall2 (table_rel (Forall2 Q)) (nmeas oA iA addA mulA subA hit a pv f) (nmeas oB iB addB mulB subB hit a qv f).
Proof.
  intros Hpv. unfold nmeas. apply orel_same. intros [v l]. eapply orel_bind; [eapply nmeas_loop_rel; [exact Hpv|]|].
  - split; [|split]; cbn; [|apply mrel_empty..]. apply mrel_insert; [apply mrel_empty|auto].
  - intros [[g c] e] [[g' c'] e'] (_ & _ & He). by constructor.
Qed.
Lemma g_bmeas_rel w x pv qv ss : rows pv qv →
  option_Forall2 (table_rel (Forall2 Q)) (g_bmeas oA iA addA mulA subA w x pv ss) (g_bmeas oB iB addB mulB subB w x qv ss).
Proof. intros Hpv. destruct x; cbn [g_bmeas]; by apply nmeas_rel. Qed.
End rel.
