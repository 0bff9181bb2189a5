(** More generic facts about arenas, for any terminal type. *)
From Verif Require Import Prelude Arena Trees ArenaProofs Bdd.

Section more.
Context {T : Type}.
Implicit Types (a : arena T) (d : dd T).

Lemma a_fuel_enough a d id : repr a d id → rank d < ar_fuel a.
Proof.
  intros Hr. unfold ar_fuel. destruct d as [t|hd ds]; [cbn; lia|].
  apply repr_br in Hr as [_ (h & cs & _ & Hh & _)]. cbn [rank].
  apply elem_of_list_lookup_2 in Hh.
  assert (∀ l, hd ∈ l → S (h_level hd) ≤ max_list_with (λ hd, S (h_level hd)) l) as Hmx.
  { induction l as [|x l IH]; [by intros ?%elem_of_nil|]. intros [->|Hin]%elem_of_cons; cbn; [lia|].
    specialize (IH Hin). lia. }
  specialize (Hmx _ Hh). lia.
Qed.

Lemma a_node_level a d id : repr a d id →
  ar_node_level a id = Some (match d with Leaf _ => None | Br hd _ => Some (h_level hd) end).
Proof.
  intros Hr. unfold ar_node_level. destruct d as [t|hd ds].
  - apply repr_leaf in Hr as [_ ->]. done.
  - apply repr_br in Hr as [_ (h & cs & -> & Hh & _)]. by rewrite Hh.
Qed.

Lemma a_hdr_level a h hd : ar_headers a !! h = Some hd → hdr_level a h = Some (h_level hd).
Proof. unfold hdr_level. by intros ->. Qed.

Lemma a_hdby a : NoDup (h_level <$> ar_headers a) → ∃ H, ∀ d id, repr a d id → hdby H d.
Proof.
  intros Hnd.
  exists (λ l, default (Header 0 0 String.EmptyString 0) (list_find (λ hd, h_level hd = l) (ar_headers a) ≫= λ p, Some p.2)).
  induction d as [t|hd ds IH] using dd_ind'; intros id Hr; [done|].
  apply repr_br in Hr as [_ (h & cs & _ & Hh & Hf)]. apply hdby_br. split.
  - destruct (list_find _ _) as [[i hd']|] eqn:Hfd.
    + apply list_find_Some in Hfd as (Hi & Hl & _). cbn.
      assert (i = h) as ->; [|congruence].
      eapply NoDup_lookup; [exact Hnd| |].
      * rewrite list_lookup_fmap, Hi. cbn. by rewrite Hl.
      * rewrite list_lookup_fmap, Hh. done.
    + exfalso. apply list_find_None in Hfd. rewrite Forall_lookup in Hfd. by apply (Hfd _ _ Hh).
  - rewrite Forall_forall in IH. apply Forall_lookup. intros i d Hd.
    destruct (Forall2_lookup_l _ _ _ _ _ Hf Hd) as (c & Hc & Hrc).
    eapply IH; [by eapply elem_of_list_lookup_2|done].
Qed.

Lemma a_free_count R a l : awf R a → NoDup l → (∀ id, id ∈ l ↔ live a id) →
  length l + length (ar_free a) = length (ar_nodes a).
Proof.
  intros Hwf Hnd Hl. rewrite <- app_length. rewrite <- (seq_length (length (ar_nodes a)) 0).
  apply Permutation_length, NoDup_Permutation.
  - apply NoDup_app. split; [done|]. split; [|apply Hwf]. intros x Hx. by apply Hl in Hx as [_ ?].
  - apply NoDup_seq.
  - intros x. rewrite elem_of_app, elem_of_seq, Hl. cbn. split.
    + intros [[? _]|Hin]; [lia|]. apply (aw_free_lt _ _ Hwf) in Hin. lia.
    + intros [_ Hx]. destruct (decide (x ∈ ar_free a)); [by right|left]. by split.
Qed.

(** a non-terminal with exactly two edges *)
Lemma a_node2 R a hd ds id : awf R a →
  (∀ h hd, ar_headers a !! h = Some hd → h_edges hd = 2) → repr a (Br hd ds) id →
  ∃ h lo hi dlo dhi, ds = [dlo; dhi] ∧ ar_nodes a !! id = Some (NT h [lo; hi]) ∧
    ar_headers a !! h = Some hd ∧ repr a dlo lo ∧ repr a dhi hi ∧
    rank dlo ≤ h_level hd ∧ rank dhi ≤ h_level hd ∧ R [lo; hi].
Proof.
  intros Hwf Hed Hr. pose proof (repr_ok R (λ _, 2) a _ _ Hwf Hed Hr) as [Hl Hcs]%okdd_br.
  apply repr_br in Hr as [Hlv (h & cs & Hn & Hh & Hf)].
  destruct (aw_nt _ _ Hwf _ _ _ Hlv Hn) as (_ & _ & _ & HR & _).
  destruct ds as [|dlo [|dhi [|]]]; try done.
  inversion Hf as [|? lo ? cs1 Hlo Hf1]; subst. inversion Hf1 as [|? hi ? cs2 Hhi Hf2]; subst.
  inversion Hf2; subst. rewrite !Forall_cons in Hcs.
  exists h, lo, hi, dlo, dhi. sp; try done; tauto.
Qed.
(** read a node back as a tree (used to evaluate concrete examples) *)
Fixpoint a_tree (n : nat) (a : arena T) (id : nat) : option (dd T) :=
  match n with
  | O => None
  | S n =>
      if decide (id < length (ar_nodes a) ∧ id ∉ ar_free a) then
        match ar_nodes a !! id with
        | Some (Term t) => Some (Leaf t)
        | Some (NT h cs) => hd ← ar_headers a !! h; ds ← mapM (a_tree n a) cs; Some (Br hd ds)
        | None => None
        end
      else None
  end.

Lemma a_tree_repr n a id d : a_tree n a id = Some d → repr a d id.
Proof.
  revert id d. induction n as [|n IH]; intros id d; cbn [a_tree]; [done|].
  destruct (decide _) as [Hl|]; [|done].
  destruct (ar_nodes a !! id) as [[t|h cs]|] eqn:Hn; [by intros [= <-]|idtac|done].
  destruct (ar_headers a !! h) as [hd|] eqn:Hh; [|done]. cbn [mbind option_bind].
  destruct (mapM (a_tree n a) cs) as [ds|] eqn:Hm; [|done]. cbn [mbind option_bind].
  intros [= <-]. apply repr_br. split; [done|]. exists h, cs. split; [done|]. split; [done|].
  apply mapM_Some in Hm. apply Forall2_flip. eapply Forall2_impl; [exact Hm|]. intros x y. apply IH.
Qed.

End more.

(** taking apart a computed tuple without reducing its components *)
Lemma some4_inj {A B C D} (a a' : A) (b b' : B) (c c' : C) (d d' : D) :
  Some (a, b, c, d) = Some (a', b', c', d') → a = a' ∧ b = b' ∧ c = c' ∧ d = d'.
Proof. intros H. split; [congruence|]. split; [congruence|]. split; congruence. Qed.
