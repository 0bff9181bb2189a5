(** Subdiagrams on trees: the subdiagrams of a combination are the combinations of subdiagrams.  Used by proofs only. *)
From Verif Require Import Prelude Arena Trees ArenaProofs.

Inductive sub {T} (s : dd T) : dd T → Prop :=
  | sub_refl : sub s s
  | sub_child hd cs c : c ∈ cs → sub s c → sub s (Br hd cs).

Lemma sub_trans {T} (s t d : dd T) : sub s t → sub t d → sub s d.
Proof. intros Hs Ht. induction Ht as [|hd cs c Hc _ IH]; [done|by eapply sub_child]. Qed.

Section sub.
Context {T : Type} (E : nat → nat).
Implicit Types (d c s : dd T).

Lemma sub_ok s d : okdd E d → sub s d → okdd E s.
Proof.
  intros Ho Hs. revert Ho. induction Hs as [|hd cs c Hc _ IH]; [done|]. intros [_ Hcs]%okdd_br. apply IH.
  rewrite Forall_forall in Hcs. by apply Hcs.
Qed.
Lemma sub_rank s d : okdd E d → sub s d → rank s ≤ rank d.
Proof.
  intros Ho Hs. revert Ho. induction Hs as [|hd cs c Hc _ IH]; [done|]. intros [_ Hcs]%okdd_br.
  rewrite Forall_forall in Hcs. destruct (Hcs _ Hc) as [Hr Ho]. specialize (IH Ho). cbn [rank] in *. lia.
Qed.
Lemma cof_sub d l i : okdd E d → i < E l → sub (cof d l i) d.
Proof.
  destruct d as [t|hd cs]; [constructor|]. intros [Hl _]%okdd_br Hi. cbn [cof]. destruct (decide _) as [<-|]; [|constructor].
  destruct (lookup_lt_is_Some_2 cs i) as [c Hc]; [lia|]. rewrite Hc. eapply sub_child; [by eapply elem_of_list_lookup_2|constructor].
Qed.
Lemma eval_cof_upd ρ d l i : okdd E d → vok E ρ → i < E l → rank d ≤ S l → eval ρ (cof d l i) = eval (upd ρ l i) d.
Proof.
  intros Ho Hv Hi Hr. rewrite <- (eval_cof E (upd ρ l i) d l) by (try done; by apply vok_upd). rewrite upd_same.
  symmetry. eapply eval_upd; [by apply cof_ok|by eapply cof_rank].
Qed.
End sub.

(** every subdiagram of a pointwise combination is the combination of subdiagrams of the operands *)
Lemma sub_comb {T U} (E : nat → nat) (Φ : list (option T) → option U) : (∀ l, 0 < E l) → ∀ n (dr : dd U) (ds : list (dd T)),
  okdd E dr → rank dr ≤ n → Forall (λ d, okdd E d ∧ rank d ≤ n) ds →
  (∀ ρ, vok E ρ → eval ρ dr = Φ (map (eval ρ) ds)) → ∀ s, sub s dr →
  ∃ ds', Forall2 sub ds' ds ∧ ∀ ρ, vok E ρ → eval ρ s = Φ (map (eval ρ) ds').
Proof.
  intros HE. induction n as [|l IH]; intros dr ds Hor Hrr Hds Heq s Hs.
  { destruct Hs as [|hd cs c Hc _]; [|cbn [rank] in Hrr; lia]. exists ds. split; [|done].
    apply Forall_Forall2_diag, Forall_forall. intros; constructor. }
  assert (Hcof : ∀ i, i < E l → Forall (λ d, okdd E d ∧ rank d ≤ l) (map (λ d, cof d l i) ds)).
  { intros i Hi. apply Forall_map. eapply Forall_impl; [exact Hds|]. intros d [Ho Hr]. cbn. split; [by apply cof_ok|by eapply cof_rank]. }
  assert (Hback : ∀ i ds', i < E l → Forall2 sub ds' (map (λ d, cof d l i) ds) → Forall2 sub ds' ds).
  { intros i ds' Hi. revert ds'. clear Heq Hcof. induction Hds as [|d ds [Ho _] _ IHd]; intros ds' Hf; inversion Hf as [|a b la lb Hab Hl Hea Heb]; subst; [constructor|].
    constructor; [eapply sub_trans; [exact Hab|by apply (cof_sub E)]|by apply IHd]. }
  assert (Hmap : ∀ ρ i, vok E ρ → i < E l → map (eval ρ) (map (λ d, cof d l i) ds) = map (eval (upd ρ l i)) ds).
  { intros ρ i Hv Hi. rewrite map_map. apply map_ext_in. intros d Hd%elem_of_list_In. rewrite Forall_forall in Hds.
    destruct (Hds _ Hd). by apply (eval_cof_upd E). }
  assert (Hstep : ∀ i dr', i < E l → dr' = cof dr l i → sub s dr' → ∃ ds', Forall2 sub ds' ds ∧ ∀ ρ, vok E ρ → eval ρ s = Φ (map (eval ρ) ds')).
  { intros i dr' Hi -> Hs'. destruct (IH (cof dr l i) (map (λ d, cof d l i) ds)) with (s := s) as (ds' & Hf & He); try done.
    - by apply cof_ok.
    - by eapply cof_rank.
    - by apply Hcof.
    - intros ρ Hv. rewrite Hmap, (eval_cof_upd E) by done. apply Heq. by apply vok_upd.
    - exists ds'. split; [by eapply Hback|done]. }
  inversion Hs as [Hsd|hd cs c Hc Hsc Hsd]; subst.
  { exists ds. split; [|done]. apply Forall_Forall2_diag, Forall_forall. intros; constructor. }
  destruct (decide (h_level hd = l)) as [<-|Hne].
  - apply elem_of_list_lookup in Hc as [i Hc]. pose proof Hor as [Hl _]%okdd_br.
    apply (Hstep i c); [rewrite <- Hl; by eapply lookup_lt_Some| |done]. cbn [cof]. rewrite decide_True by done. by rewrite Hc.
  - apply (Hstep 0 (Br hd cs)); [apply HE| |done]. cbn [cof]. by rewrite decide_False.
Qed.

(** ** subdiagrams are the nodes reachable *)
Section arena.
Context {T : Type} (R : list nat → Prop) (a : arena T).
Hypothesis Hwf : awf R a.
Lemma reach_sub d id s i : repr a d id → reach a [id] i → repr a s i → sub s d.
Proof.
  intros Hd Hre. revert s. induction Hre as [r Hr|x h cs c Hre IH Hn Hc]; intros s Hs.
  - apply elem_of_list_singleton in Hr as ->. rewrite (repr_fun _ _ _ _ Hs Hd). constructor.
  - assert (live a x) as Hlx.
    { eapply (reach_live R); [done| |exact Hre]. intros r ->%elem_of_list_singleton. by eapply repr_live. }
    destruct (repr_exists R _ _ Hwf Hlx) as [dx Hdx]. eapply sub_trans; [|by apply IH].
    destruct dx as [t|hd ds]; [apply repr_leaf in Hdx as [_ ?]; congruence|].
    apply repr_br in Hdx as [_ (h' & cs' & Hn' & _ & Hf)]. rewrite Hn in Hn'. injection Hn' as <- <-.
    apply elem_of_list_lookup in Hc as [k Hk]. destruct (Forall2_lookup_r _ _ _ _ _ Hf Hk) as (dc & Hdc & Hrc).
    rewrite (repr_fun _ _ _ _ Hs Hrc). eapply sub_child; [by eapply elem_of_list_lookup_2|constructor].
Qed.
Lemma sub_reach d id s : repr a d id → sub s d → ∃ i, reach a [id] i ∧ repr a s i.
Proof.
  intros Hd Hs. revert id Hd. induction Hs as [|hd ds c Hc _ IH]; intros id Hd.
  - exists id. split; [|done]. constructor. by left.
  - apply repr_br in Hd as [_ (h & cs & Hn & _ & Hf)]. apply elem_of_list_lookup in Hc as [k Hk].
    destruct (Forall2_lookup_l _ _ _ _ _ Hf Hk) as (x & Hx & Hrx). destruct (IH _ Hrx) as (i & Hi & Hri). exists i. split; [|done].
    clear - Hi Hn Hx. induction Hi as [r Hr|y h' cs' z _ IHi Hny Hz].
    + apply elem_of_list_singleton in Hr as ->. eapply reach_step; [constructor; by left|exact Hn|by eapply elem_of_list_lookup_2].
    + by eapply reach_step.
Qed.
End arena.

(** ** counting *)
Lemma count_inj {A B} (P : A → B → Prop) (l : list A) (l' : list B) : NoDup l →
  (∀ x, x ∈ l → ∃ y, y ∈ l' ∧ P x y) → (∀ x x' y, x ∈ l → x' ∈ l → P x y → P x' y → x = x') → length l ≤ length l'.
Proof.
  intros Hnd Hex Hinj. assert (∃ ys, Forall2 (λ x y, y ∈ l' ∧ P x y) l ys) as [ys Hf].
  { clear Hnd Hinj. induction l as [|x l IH]; [by exists []|]. destruct (Hex x) as [y Hy]; [by left|].
    destruct IH as [ys Hys]; [intros z Hz; apply Hex; by right|]. exists (y :: ys). by constructor. }
  rewrite (Forall2_length _ _ _ Hf). apply submseteq_length, NoDup_submseteq.
  - apply NoDup_alt. intros i j y Hi Hj.
    destruct (Forall2_lookup_r _ _ _ _ _ Hf Hi) as (x & Hx & _ & HP). destruct (Forall2_lookup_r _ _ _ _ _ Hf Hj) as (x' & Hx' & _ & HP').
    assert (x = x') as <- by (eapply Hinj; eauto using elem_of_list_lookup_2). by eapply NoDup_lookup.
  - intros y (i & Hi)%elem_of_list_lookup. by destruct (Forall2_lookup_r _ _ _ _ _ Hf Hi) as (x & _ & ? & _).
Qed.
(** all ways of choosing one element of each list *)
Fixpoint choices {A} (ls : list (list A)) : list (list A) :=
  match ls with [] => [[]] | l :: ls => l ≫= λ x, cons x <$> choices ls end.
Lemma choices_elem {A} (ls : list (list A)) xs : xs ∈ choices ls ↔ Forall2 (λ x l, x ∈ l) xs ls.
Proof.
  revert xs. induction ls as [|l ls IH]; intros xs; cbn [choices].
  - rewrite elem_of_list_singleton. split; [by intros ->|by inversion 1].
  - rewrite elem_of_list_bind. split.
    + intros (x & Hxs & Hx). apply elem_of_list_fmap in Hxs as (ys & -> & Hys). constructor; [done|by apply IH].
    + inversion 1 as [|x ? ys ? Hx Hys]; subst. exists x. split; [|done]. apply elem_of_list_fmap. exists ys. split; [done|by apply IH].
Qed.
Lemma choices_length {A} (ls : list (list A)) : length (choices ls) = foldr (λ l n, length l * n) 1 ls.
Proof.
  induction ls as [|l ls IH]; [done|]. cbn [choices foldr]. rewrite <- IH. clear IH.
  induction l as [|x l IHl]; [done|]. rewrite bind_cons, app_length, fmap_length, IHl. cbn [length]. lia.
Qed.
