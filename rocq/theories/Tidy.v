(** Nodes created by an operation are part of its result.  Used by proofs only. *)
From Verif Require Import Prelude Arena Trees ArenaProofs.

Section tidy.
Context {T : Type} (R : list nat → Prop).
Implicit Types (a : arena T).
Definition tidy a a' (r : nat) : Prop := ∀ id, live a' id → live a id ∨ reach a' [r] id.

Lemma tidy_refl a r : tidy a a r.
Proof. intros id Hl. by left. Qed.
Lemma reach_ext a a' r id : awf R a → ext a a' → live a r → reach a [r] id → reach a' [r] id.
Proof.
  intros Hwf [_ He] Hr Hre. induction Hre as [x Hx|x h cs c Hre IH Hn Hc]; [by constructor|].
  assert (live a x) as Hl. { eapply (reach_live R); [done| |exact Hre]. by intros ? ->%elem_of_list_singleton. }
  destruct (He _ _ Hl Hn) as [_ Hn']. by eapply reach_step.
Qed.

(** results of consecutive calls *)
Inductive chain : arena T → list nat → arena T → Prop :=
  | chain_nil a : chain a [] a
  | chain_cons a a1 a2 r rs : awf R a1 → ext a a1 → live a1 r → tidy a a1 r → chain a1 rs a2 → chain a (r :: rs) a2.
Lemma chain_ext a rs a' : chain a rs a' → ext a a'.
Proof. induction 1 as [|a a1 a2 r rs _ He _ _ _ IH]; [apply ext_refl|by eapply ext_trans]. Qed.
Lemma chain_new a rs a' : chain a rs a' → ∀ id, live a' id → live a id ∨ ∃ r, r ∈ rs ∧ reach a' [r] id.
Proof.
  induction 1 as [|a a1 a2 r rs Hwf He Hr Ht Hc IH]; intros id Hl; [by left|]. destruct (IH id Hl) as [Hl1|(r' & Hr' & Hre)].
  - destruct (Ht id Hl1) as [?|Hre]; [by left|]. right. exists r. split; [by left|]. eapply reach_ext; try done. by eapply chain_ext.
  - right. exists r'. split; [by right|done].
Qed.
(** the node built from the results, or the result they all are *)
Lemma chain_node a rs a2 a' r h : chain a rs a2 → ext a2 a' → awf R a2 → Forall (live a2) rs → ar_nodes a' !! r = Some (NT h rs) →
  (∀ i, live a' i → live a2 i ∨ i = r) → tidy a a' r.
Proof.
  intros Hc He Hwf Hlr Hn Hnew id Hl. destruct (Hnew id Hl) as [Hl2| ->].
  - destruct (chain_new _ _ _ Hc id Hl2) as [?|(r' & Hr' & Hre)]; [by left|]. right.
    assert (reach a' [r'] id) as Hre'. { eapply reach_ext; try done. rewrite Forall_forall in Hlr. by apply Hlr. }
    clear -Hre' Hn Hr'. induction Hre' as [x Hx|x h' cs c _ IH Hx Hc].
    + apply elem_of_list_singleton in Hx as ->. eapply reach_step; [constructor; by left|done|done].
    + by eapply reach_step.
  - right. constructor. by left.
Qed.
Lemma chain_same a rs a2 r : chain a rs a2 → Forall (λ x, x = r) rs → tidy a a2 r.
Proof.
  intros Hc Hs id Hl. destruct (chain_new _ _ _ Hc id Hl) as [?|(r' & Hr' & Hre)]; [by left|]. right.
  rewrite Forall_forall in Hs. by rewrite (Hs _ Hr') in Hre.
Qed.
Lemma tidy_trans_keep a a1 a' r : tidy a a1 r → awf R a1 → live a1 r → ext a1 a' → (∀ i, live a' i → live a1 i) → tidy a a' r.
Proof.
  intros Ht Hwf Hr He Hl id Hid. destruct (Ht id (Hl _ Hid)) as [?|Hre]; [by left|]. right. by eapply reach_ext.
Qed.
End tidy.

(** number of live nodes *)
Lemma live_count_list {T} R (a : arena T) : awf R a → ∃ l, NoDup l ∧ (∀ x, x ∈ l ↔ live a x) ∧ length l = ar_live_count a.
Proof.
  intros Hwf. set (l := filter (λ x, x ∉ ar_free a) (seq 0 (length (ar_nodes a)))).
  assert (Nl : NoDup l) by apply NoDup_filter, NoDup_seq.
  assert (Hl : ∀ x, x ∈ l ↔ live a x).
  { intros x. unfold l, live. rewrite elem_of_list_filter, elem_of_seq. naive_solver lia. }
  exists l. sp; try done. unfold ar_live_count.
  assert (length (l ++ ar_free a) = length (seq 0 (length (ar_nodes a)))) as Hlen; [|rewrite app_length, seq_length in Hlen; lia].
  apply Permutation_length, NoDup_Permutation; [|apply NoDup_seq|].
  - apply NoDup_app. sp; [done| |apply (aw_free_nodup _ _ Hwf)]. intros x Hx%Hl. apply Hx.
  - intros x. rewrite elem_of_app, Hl, elem_of_seq. unfold live. pose proof (aw_free_lt _ _ Hwf x).
    destruct (decide (x ∈ ar_free a)); naive_solver lia.
Qed.
Lemma tidy_count {T} R (a a' : arena T) r l : awf R a → awf R a' → tidy a a' r → (∀ x, reach a' [r] x → x ∈ l) →
  ar_live_count a' ≤ ar_live_count a + length l.
Proof.
  intros Hwf Hwf' Ht Hl. destruct (live_count_list R a Hwf) as (la & _ & Hla & <-). destruct (live_count_list R a' Hwf') as (la' & Nd & Hla' & <-).
  rewrite <- app_length. apply submseteq_length, NoDup_submseteq; [done|]. intros x Hx%Hla'. apply elem_of_app.
  destruct (Ht x Hx) as [Hx'%Hla|Hx'%Hl]; [by left|by right].
Qed.
