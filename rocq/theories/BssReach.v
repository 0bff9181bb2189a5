(** The invariant holds in every manager the bss crate can produce. *)
From stdpp Require Import strings.
From Verif Require Import Prelude ComputeCache ComputeCacheProofs Arena Trees ArenaProofs Bdd BddProofs SpecBdd SpecBss BddMain BssAlg BssGates.

Lemma bss_wf m : bss_reachable m → bwf m.
Proof.
  induction 1 as [|m c m' r _ Hw Hl Heq|m k xs m' r _ Hw Hv Heq|m xs m' r _ Hw Hv Heq|m xs m' r _ Hw Hv Heq|m f m' r _ Hw Hv Heq].
  - apply new_ok.
  - destruct (exec_ok m c Hw Hl) as (m1 & r1 & He & Hw1). congruence.
  - destruct (kofn_l m k xs Hw Hv) as (m1 & r1 & He & Hst & _). rewrite Heq in He. injection He as <- <-. apply Hst.
  - destruct (and_list_l m xs Hw Hv) as (m1 & r1 & He & Hst & _). rewrite Heq in He. injection He as <- <-. apply Hst.
  - destruct (or_list_l m xs Hw Hv) as (m1 & r1 & He & Hst & _). rewrite Heq in He. injection He as <- <-. apply Hst.
  - destruct (dual_l m f Hw Hv) as (m1 & r1 & He & Hst & _). rewrite Heq in He. injection He as <- <-. apply Hst.
Qed.

Lemma bss_core m : bdd_reachable m → bss_reachable m.
Proof.
  intros [cs Hcs]. assert (∀ m0, bss_reachable m0 → bdd_run m0 cs = Some m → bss_reachable m) as H; [|by eapply H; [constructor|]].
  clear Hcs. induction cs as [|c cs IH]; intros m0 H0; cbn [bdd_run]; [by intros [= <-]|].
  destruct (decide _) as [Hl|]; [|done]. destruct (bdd_exec m0 c) as [[m1 r]|] eqn:He; [|done].
  apply IH. by eapply br_core.
Qed.

Lemma kofn_p m k xs : bss_reachable m → Forall (bdd_valid m) xs →
  ∃ m' r, kofn m k xs = Some (m', r) ∧ bdd_valid m' r ∧ bdd_keeps m m' ∧
    ∀ rho bs, Forall2 (λ x b, bdd_value m rho x (tvb b)) xs bs →
      bdd_value m' rho r (tvb (k <=? count_true bs)).
Proof. intros Hm%bss_wf Hv. destruct (kofn_l m k xs Hm Hv) as (m' & r & ? & _ & ?). by exists m', r. Qed.
Lemma and_list_p m xs : bss_reachable m → Forall (bdd_valid m) xs →
  ∃ m' r, kofn_and m xs = Some (m', r) ∧ bdd_valid m' r ∧ bdd_keeps m m' ∧
    ∀ rho bs, Forall2 (λ x b, bdd_value m rho x (tvb b)) xs bs →
      bdd_value m' rho r (tvb (forallb id bs)).
Proof. intros Hm%bss_wf Hv. destruct (and_list_l m xs Hm Hv) as (m' & r & ? & _ & ?). by exists m', r. Qed.
Lemma or_list_p m xs : bss_reachable m → Forall (bdd_valid m) xs →
  ∃ m' r, kofn_or m xs = Some (m', r) ∧ bdd_valid m' r ∧ bdd_keeps m m' ∧
    ∀ rho bs, Forall2 (λ x b, bdd_value m rho x (tvb b)) xs bs →
      bdd_value m' rho r (tvb (existsb id bs)).
Proof. intros Hm%bss_wf Hv. destruct (or_list_l m xs Hm Hv) as (m' & r & ? & _ & ?). by exists m', r. Qed.
Lemma dual_p m f : bss_reachable m → bdd_valid m f →
  ∃ m' r, bdd_dual m f = Some (m', r) ∧ bdd_valid m' r ∧ bdd_keeps m m' ∧
    (∀ rho t, bdd_value m (λ l, negb (rho l)) f t →
       bdd_value m' rho r match t with TZero => TOne | TOne => TZero | TUndet => TUndet end) ∧
    ∃ m'', bdd_dual m' r = Some (m'', f).
Proof. intros Hm%bss_wf Hv. destruct (dual_l m f Hm Hv) as (m' & r & ? & _ & ?). by exists m', r. Qed.
