(** What a later arena keeps of an earlier one: the headers, and every node reachable from pinned ids. *)
From Verif Require Import Prelude Arena Trees ArenaProofs.

Section keeps.
Context {T : Type}.
Implicit Types (a : arena T).

Definition keeps a0 (p : list nat) a : Prop :=
  ar_headers a0 `prefix_of` ar_headers a ∧
  ∀ id, reach a0 p id → live a id ∧ ar_nodes a !! id = ar_nodes a0 !! id.

Lemma keeps_refl R a p : awf R a → (∀ r, r ∈ p → live a r) → keeps a p a.
Proof. intros Hw Hp. split; [done|]. intros id Hr. split; [|done]. by eapply reach_live. Qed.
Lemma keeps_ext a0 p a a' : keeps a0 p a → ext a a' → keeps a0 p a'.
Proof.
  intros [Hh Hk] He. split; [by etrans; [|apply He]|]. intros id Hr. destruct (Hk _ Hr) as [Hl Hn].
  destruct (live_lookup _ _ Hl) as [n Hx]. destruct (proj2 He _ _ Hl Hx) as [Hl' Hx']. split; [done|]. congruence.
Qed.
Lemma keeps_reach a0 p a id : keeps a0 p a → reach a0 p id → reach a p id.
Proof.
  intros [_ Hk]. induction 1 as [r Hr|id h cs c Hr IH Hn Hc]; [by constructor|].
  eapply reach_step; [exact IH| |done]. by rewrite (proj2 (Hk _ Hr)).
Qed.
Lemma keeps_gc a0 p a a' : keeps a0 p a → ar_headers a' = ar_headers a → ar_nodes a' = ar_nodes a →
  (∀ id, reach a p id → live a' id) → keeps a0 p a'.
Proof.
  intros Hk Hh Hn Hl. split; [rewrite Hh; apply Hk|]. intros id Hr. split; [by apply Hl; eapply keeps_reach|].
  rewrite Hn. by apply Hk.
Qed.
Lemma keeps_same a0 p a a' : keeps a0 p a → ar_headers a' = ar_headers a → ar_nodes a' = ar_nodes a →
  ar_free a' = ar_free a → keeps a0 p a'.
Proof.
  intros Hk Hh Hn Hf. split; [rewrite Hh; apply Hk|]. intros id Hr. destruct (proj2 Hk _ Hr) as [Hl Hx].
  unfold live. rewrite Hf, Hn. done.
Qed.
Lemma reach_mono a p p' id : (∀ r, r ∈ p → r ∈ p') → reach a p id → reach a p' id.
Proof. intros Hp. induction 1; [constructor; by apply Hp|by eapply reach_step]. Qed.
Lemma keeps_level R a0 p a id : awf R a0 → (∀ r, r ∈ p → live a0 r) → keeps a0 p a → reach a0 p id →
  ar_node_level a id = ar_node_level a0 id.
Proof.
  intros Hw Hp Hk Hr. unfold ar_node_level. rewrite (proj2 (proj2 Hk _ Hr)).
  destruct (ar_nodes a0 !! id) as [[t|h cs]|] eqn:Hn; [done| |done]. cbn [mbind option_bind].
  destruct (aw_nt _ _ Hw _ _ _ (reach_live _ _ _ _ Hw Hp Hr) Hn) as (hd & Hh & _).
  by rewrite Hh, (prefix_lookup _ _ _ _ Hh (proj1 Hk)).
Qed.
End keeps.
