(** Trees without the identity of their variables: only the levels are kept.  Used to compare trees of two managers. *)
From Verif Require Import Prelude Arena Trees.

Section strip.
Context {T : Type}.
Implicit Types (d c : dd T).

Definition bare (E : nat → nat) (l : nat) : header := Header 0 l String.EmptyString (E l).
Fixpoint strip (E : nat → nat) d : dd T :=
  match d with
  | Leaf t => Leaf t
  | Br hd cs => Br (bare E (h_level hd)) (map (strip E) cs)
  end.

Lemma strip_rank E d : rank (strip E d) = rank d.
Proof. by destruct d. Qed.

Lemma strip_cof E d l i : cof (strip E d) l i = strip E (cof d l i).
Proof.
  destruct d as [t|hd cs]; [done|]. cbn [cof strip]. cbn [bare h_level]. destruct (decide (h_level hd = l)) as [Hl|]; [|done].
  change (map (strip E) cs) with (strip E <$> cs). rewrite list_lookup_fmap. by destruct (cs !! i).
Qed.

Lemma strip_eval E ρ d : eval ρ (strip E d) = eval ρ d.
Proof.
  induction d as [t|hd cs IH] using dd_ind'; [done|]. cbn [strip]. rewrite !eval_br. cbn [bare h_level].
  change (map (strip E) cs) with (strip E <$> cs). rewrite list_lookup_fmap.
  destruct (cs !! _) as [c|] eqn:Hc; [|done]. cbn. rewrite Forall_lookup in IH. by eapply IH.
Qed.

Lemma strip_ok E F d : okdd F d → okdd F (strip E d).
Proof.
  induction d as [t|hd cs IH] using dd_ind'; [done|]. cbn [strip]. intros [Hl Hcs]%okdd_br. apply okdd_br.
  cbn [bare h_level]. rewrite map_length. split; [done|].
  rewrite Forall_lookup in IH, Hcs. apply Forall_lookup. intros i c Hc.
  change (map (strip E) cs) with (strip E <$> cs) in Hc. rewrite list_lookup_fmap in Hc.
  destruct (cs !! i) as [c'|] eqn:Hc'; [|done]. injection Hc as <-. rewrite strip_rank.
  destruct (Hcs _ _ Hc'). eauto.
Qed.

Lemma strip_inj E H d : ∀ d', hdby H d → hdby H d' → strip E d = strip E d' → d = d'.
Proof.
  induction d as [t|hd cs IH] using dd_ind'; intros [t'|hd' cs'] Hd Hd'; cbn [strip]; try done.
  apply hdby_br in Hd as [Hh Hcs]. apply hdby_br in Hd' as [Hh' Hcs'].
  intros [= Hl _ Hm]. assert (hd = hd') as <- by congruence. f_equal. clear Hh Hh' Hl.
  revert cs' Hcs' Hm. induction cs as [|c cs IHc]; intros [|c' cs'] Hcs' Hm; try done. cbn in Hm. injection Hm as H1 H2.
  rewrite Forall_cons in IH, Hcs, Hcs'. destruct IH, Hcs, Hcs'. f_equal; [auto|]. by apply IHc.
Qed.

Lemma strip_hdby E d : hdby (bare E) (strip E d).
Proof.
  induction d as [t|hd cs IH] using dd_ind'; [done|]. cbn [strip]. apply hdby_br. split; [done|].
  induction IH; cbn; constructor; done.
Qed.

Lemma strip_red E H d : hdby H d → redd d → redd (strip E d).
Proof.
  induction d as [t|hd cs IH] using dd_ind'; [done|]. intros [_ Hh]%hdby_br [Hne Hr]%redd_br. cbn [strip]. apply redd_br. split.
  - intros [c Hc]. apply Hne. destruct cs as [|c0 cs]; [by exists (Br hd [])|]. exists c0.
    rewrite Forall_lookup in Hc, Hh. apply Forall_lookup. intros i x Hx.
    assert (H0 : strip E c0 = c) by (symmetry; apply (Hc 0); done).
    assert (H1 : strip E x = c).
    { symmetry. apply (Hc i). change (map (strip E) (c0 :: cs)) with (strip E <$> (c0 :: cs)). rewrite list_lookup_fmap, Hx. done. }
    apply (strip_inj E H); [by apply (Hh 0)|by apply (Hh i)|congruence].
  - rewrite Forall_lookup in IH, Hh, Hr. apply Forall_lookup. intros i c Hc.
    change (map (strip E) cs) with (strip E <$> cs) in Hc. rewrite list_lookup_fmap in Hc.
    destruct (cs !! i) as [c'|] eqn:Hc'; [|done]. injection Hc as <-. eauto.
Qed.

Lemma hdby_cof H d l i : hdby H d → hdby H (cof d l i).
Proof.
  destruct d as [t|hd cs]; [done|]. intros Hd. cbn [cof]. destruct (decide _); [|done].
  destruct (cs !! i) as [c|] eqn:Hc; [|done]. cbn. apply hdby_br in Hd as [_ Hd]. rewrite Forall_lookup in Hd. by eapply Hd.
Qed.

(** Two trees with the same meaning, from two managers, are the same up to the identity of the variables. *)
Lemma strip_canon E H H' d d' : (∀ l, 0 < E l) → okdd E d → okdd E d' → redd d → redd d' → hdby H d → hdby H' d' →
  (∀ ρ, vok E ρ → eval ρ d = eval ρ d') → strip E d = strip E d'.
Proof.
  intros HE O O' R R' Hd Hd' Hev. apply (canon E (bare E)); try done; try by apply strip_ok.
  - by eapply strip_red.
  - by eapply strip_red.
  - apply strip_hdby.
  - apply strip_hdby.
  - intros ρ Hv. rewrite !strip_eval. by apply Hev.
Qed.
End strip.
