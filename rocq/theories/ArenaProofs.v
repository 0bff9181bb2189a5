(** Facts about the arena model: well-formedness, representation of trees, hash-consing, gc. *)
From Verif Require Import Prelude Arena Trees.

Section arena_proofs.
Context {T : Type}.
Implicit Types (a : arena T) (n : node T) (d : dd T).

(** an allocated slot that is not on the free list *)
Definition live a (id : nat) : Prop := id < length (ar_nodes a) ∧ id ∉ ar_free a.

Definition below a (c l : nat) : Prop :=
  ∀ h cs hd, ar_nodes a !! c = Some (NT h cs) → ar_headers a !! h = Some hd → h_level hd < l.

(** [R] is the manager's reduction rule: which child lists may be stored *)
Record awf (R : list nat → Prop) a : Prop := {
  aw_hdr : ∀ h hd, ar_headers a !! h = Some hd → h_id hd = h;
  aw_free_nodup : NoDup (ar_free a);
  aw_free_lt : ∀ id, id ∈ ar_free a → id < length (ar_nodes a);
  aw_nt : ∀ id h cs, live a id → ar_nodes a !! id = Some (NT h cs) →
    ∃ hd, ar_headers a !! h = Some hd ∧ length cs = h_edges hd ∧ R cs ∧
          Forall (λ c, live a c ∧ below a c (h_level hd)) cs;
  aw_ut : ∀ h cs id, ar_utable a !! (h, cs) = Some id ↔
    live a id ∧ ar_nodes a !! id = Some (NT h cs);
  aw_term : ∀ i j t, live a i → live a j →
    ar_nodes a !! i = Some (Term t) → ar_nodes a !! j = Some (Term t) → i = j;
}.

Definition ext a a' : Prop :=
  ar_headers a `prefix_of` ar_headers a' ∧
  ∀ id n, live a id → ar_nodes a !! id = Some n → live a' id ∧ ar_nodes a' !! id = Some n.

Lemma live_lookup a id : live a id → ∃ n, ar_nodes a !! id = Some n.
Proof. intros [H _]. by apply lookup_lt_is_Some_2. Qed.

Lemma ext_refl a : ext a a.
Proof. by split. Qed.
Lemma ext_trans a b c : ext a b → ext b c → ext a c.
Proof.
  intros [Hh1 Hn1] [Hh2 Hn2]. split; [by transitivity (ar_headers b)|].
  intros id n Hl Hn. destruct (Hn1 _ _ Hl Hn). by apply Hn2.
Qed.
Lemma ext_live a a' id : ext a a' → live a id → live a' id.
Proof. intros [_ H] Hl. destruct (live_lookup _ _ Hl) as [n Hn]. by eapply H. Qed.
Lemma ext_header a a' h hd : ext a a' → ar_headers a !! h = Some hd → ar_headers a' !! h = Some hd.
Proof. intros [H _] Hh. by eapply prefix_lookup. Qed.

(** ** Trees represented by ids *)
Fixpoint repr a d (id : nat) : Prop :=
  live a id ∧
  match d with
  | Leaf t => ar_nodes a !! id = Some (Term t)
  | Br hd ds => ∃ h cs, ar_nodes a !! id = Some (NT h cs) ∧ ar_headers a !! h = Some hd ∧
      (fix all ds cs := match ds, cs with
       | [], [] => True | d :: ds, c :: cs => repr a d c ∧ all ds cs | _, _ => False end) ds cs
  end.

Lemma repr_leaf a t id : repr a (Leaf t) id ↔ live a id ∧ ar_nodes a !! id = Some (Term t).
Proof. done. Qed.

Lemma repr_br a hd ds id : repr a (Br hd ds) id ↔
  live a id ∧ ∃ h cs, ar_nodes a !! id = Some (NT h cs) ∧ ar_headers a !! h = Some hd ∧
    Forall2 (repr a) ds cs.
Proof.
  cbn [repr]. assert (∀ ds cs, (fix all ds cs := match ds, cs with
       | [], [] => True | d :: ds, c :: cs => repr a d c ∧ all ds cs | _, _ => False end) ds cs
       ↔ Forall2 (repr a) ds cs) as Hall.
  { clear. induction ds as [|d ds IH]; intros [|c cs].
    - split; [constructor|done].
    - split; [done|]. inversion 1.
    - split; [done|]. inversion 1.
    - split; [intros [??]; constructor; [done|by apply IH]|].
      inversion 1; subst. split; [done|by apply IH]. }
  split; intros [Hl (h & cs & Hn & Hh & Hf)]; (split; [done|]); exists h, cs;
    (split; [done|]; split; [done|]); by apply Hall.
Qed.

Lemma repr_live a d id : repr a d id → live a id.
Proof. destruct d; cbn; by intros [? _]. Qed.

Lemma repr_fun a d d' id : repr a d id → repr a d' id → d = d'.
Proof.
  revert d' id. induction d as [t|hd ds IH] using dd_ind'; intros [t'|hd' ds'] id.
  - rewrite !repr_leaf. intros [_ H1] [_ H2]. congruence.
  - rewrite repr_leaf, repr_br. intros [_ H1] [_ (h & cs & H2 & _)]. congruence.
  - rewrite repr_leaf, repr_br. intros [_ (h & cs & H2 & _)] [_ H1]. congruence.
  - rewrite !repr_br. intros [_ (h & cs & H1 & Hh & Hf)] [_ (h' & cs' & H1' & Hh' & Hf')].
    rewrite H1 in H1'. injection H1' as <- <-. rewrite Hh in Hh'. injection Hh' as <-. f_equal.
    clear Hh H1. revert ds' cs Hf Hf'. induction IH as [|d ds Hd _ IHs]; intros ds' cs Hf Hf'.
    + inversion Hf; subst. by inversion Hf'.
    + inversion Hf as [|? c ? cs' Hc Hcs]; subst. inversion Hf' as [|d' ? ds'' ? Hc' Hcs']; subst.
      f_equal; eauto.
Qed.

Lemma repr_inj R a d i j : awf R a → repr a d i → repr a d j → i = j.
Proof.
  intros Hwf. revert i j. induction d as [t|hd ds IH] using dd_ind'; intros i j.
  - rewrite !repr_leaf. intros [??] [??]. by eapply aw_term.
  - rewrite !repr_br. intros [Hi (h & cs & H1 & Hh & Hf)] [Hj (h' & cs' & H1' & Hh' & Hf')].
    assert (cs = cs') as <-.
    { clear -IH Hf Hf'. revert cs cs' Hf Hf'. induction IH as [|d ds Hd _ IHs]; intros cs cs' Hf Hf'.
      - inversion Hf; inversion Hf'; by subst.
      - inversion Hf; inversion Hf'; subst. f_equal; eauto. }
    assert (h = h') as <-.
    { pose proof (aw_hdr _ _ Hwf _ _ Hh). pose proof (aw_hdr _ _ Hwf _ _ Hh'). congruence. }
    assert (ar_utable a !! (h, cs) = Some i) as E1 by by apply (aw_ut _ _ Hwf).
    assert (ar_utable a !! (h, cs) = Some j) as E2 by by apply (aw_ut _ _ Hwf).
    congruence.
Qed.

Lemma Forall2_impl_l {A B} (P : A → Prop) (R S : A → B → Prop) xs ys :
  Forall2 R xs ys → Forall P xs → (∀ x y, P x → R x y → S x y) → Forall2 S xs ys.
Proof.
  intros H HP HI. induction H; [constructor|]. inversion HP; subst. constructor; eauto.
Qed.

Lemma repr_mono a a' d id : ext a a' → repr a d id → repr a' d id.
Proof.
  intros He. revert id. induction d as [t|hd ds IH] using dd_ind'; intros id.
  - rewrite !repr_leaf. intros [Hl Hn]. by eapply He.
  - rewrite !repr_br. intros [Hl (h & cs & Hn & Hh & Hf)].
    destruct (proj2 He _ _ Hl Hn) as [Hl' Hn']. split; [done|].
    exists h, cs. split; [done|]. split; [by eapply ext_header|].
    eapply Forall2_impl_l; eauto.
Qed.

Lemma repr_rank_below a d id l : repr a d id → below a id l ↔ rank d ≤ l.
Proof.
  destruct d as [t|hd ds].
  - rewrite repr_leaf. intros [_ Hn]. cbn. split; [lia|]. intros _ h cs hd Hn'. congruence.
  - rewrite repr_br. intros [_ (h & cs & Hn & Hh & _)]. cbn. split.
    + intros Hb. by eapply Hb.
    + intros Hl h' cs' hd' Hn' Hh'. rewrite Hn in Hn'. injection Hn' as <- <-. by simplify_eq.
Qed.

(** every live id represents some tree *)
Definition arank a id : nat :=
  match ar_nodes a !! id with
  | Some (NT h _) => match ar_headers a !! h with Some hd => S (h_level hd) | None => 0 end
  | _ => 0
  end.

Lemma repr_exists R a id : awf R a → live a id → ∃ d, repr a d id.
Proof.
  intros Hwf. remember (arank a id) as k eqn:Hk. revert id Hk.
  induction (lt_wf k) as [k _ IH]. intros id -> Hl.
  destruct (live_lookup _ _ Hl) as [[t|h cs] Hn].
  - exists (Leaf t). done.
  - destruct (aw_nt _ _ Hwf _ _ _ Hl Hn) as (hd & Hh & _ & _ & Hcs).
    assert (∃ ds, Forall2 (repr a) ds cs) as [ds Hds].
    { assert (Forall (λ c, ∃ d, repr a d c) cs) as Hex.
      { eapply Fimpl; [exact Hcs|]. intros c [Hc Hb]. eapply IH; [|reflexivity|done].
        unfold arank at 2. rewrite Hn, Hh. unfold arank.
        destruct (ar_nodes a !! c) as [[|h' cs']|] eqn:Hc'; try lia.
        destruct (ar_headers a !! h') as [hd'|] eqn:Hh'; [|lia].
        specialize (Hb _ _ _ Hc' Hh'). lia. }
      clear -Hex. induction Hex as [|c cs [d Hd] _ [ds IH]]; [by exists []|].
      exists (d :: ds). by constructor. }
    exists (Br hd ds). apply repr_br. split; [done|]. by exists h, cs.
Qed.

Lemma Forall2_lookup_lr {A B} (R : A → B → Prop) xs ys i y :
  Forall2 R xs ys → ys !! i = Some y → ∃ x, xs !! i = Some x ∧ R x y.
Proof. intros. by eapply Forall2_lookup_r. Qed.

Lemma repr_ok R (E : nat → nat) a d id : awf R a →
  (∀ h hd, ar_headers a !! h = Some hd → h_edges hd = E (h_level hd)) →
  repr a d id → okdd E d.
Proof.
  intros Hwf HE. revert id. induction d as [t|hd ds IH] using dd_ind'; intros id; [done|].
  rewrite repr_br. intros [Hl (h & cs & Hn & Hh & Hf)]. rewrite okdd_br.
  destruct (aw_nt _ _ Hwf _ _ _ Hl Hn) as (hd' & Hh' & Hlen & _ & Hcs). simplify_eq.
  split.
  - rewrite (Forall2_length _ _ _ Hf), Hlen. by eapply HE.
  - apply Forall_lookup. intros i d Hd.
    destruct (Forall2_lookup_l _ _ _ _ _ Hf Hd) as (c & Hc & Hr).
    rewrite Forall_lookup in IH. rewrite Forall_lookup in Hcs. destruct (Hcs _ _ Hc) as [_ Hb]. split.
    + by eapply repr_rank_below.
    + by eapply IH.
Qed.

(** ** Allocation and hash-consing *)
Lemma alloc_spec a n a' id : NoDup (ar_free a) → (∀ id, id ∈ ar_free a → id < length (ar_nodes a)) →
  ar_alloc a n = (a', id) →
  ar_headers a' = ar_headers a ∧ ar_utable a' = ar_utable a ∧
  NoDup (ar_free a') ∧ (∀ id, id ∈ ar_free a' → id < length (ar_nodes a')) ∧
  ¬ live a id ∧ ar_nodes a' !! id = Some n ∧
  (∀ i, live a' i ↔ live a i ∨ i = id) ∧
  (∀ i, i ≠ id → i < length (ar_nodes a) → ar_nodes a' !! i = ar_nodes a !! i).
Proof.
  intros Hnd Hlt. unfold ar_alloc, live. destruct (ar_free a) as [|s rest] eqn:Hfree; intros [= <- <-]; cbn.
  - sp; try done.
    + intros i Hi. by apply elem_of_nil in Hi.
    + intros [Hl _]. lia.
    + rewrite lookup_app_r by lia. by rewrite Nat.sub_diag.
    + intros i. rewrite app_length. cbn. split.
      * intros [Hl _]. destruct (decide (i = length (ar_nodes a))); [by right|left].
        split; [lia|apply not_elem_of_nil].
      * intros [[? _]| ->]; (split; [lia|apply not_elem_of_nil]).
    + intros i Hi Hl. by rewrite lookup_app_l.
  - apply NoDup_cons in Hnd as [Hs Hnd].
    assert (Hsl : s < length (ar_nodes a)) by (apply Hlt; left).
    sp; try done.
    + intros i Hi. rewrite insert_length. apply Hlt. by right.
    + intros [_ Hn]. apply Hn. left.
    + by rewrite list_lookup_insert.
    + intros i. rewrite insert_length. split.
      * intros [Hl Hn]. destruct (decide (i = s)); [by right|left]. split; [done|].
        rewrite elem_of_cons. tauto.
      * intros [[Hl Hn]| ->]; [|done]. rewrite elem_of_cons in Hn. tauto.
    + intros i Hi _. by rewrite list_lookup_insert_ne.
Qed.

Lemma hashcons_spec R a h hd cs : awf R a → ar_headers a !! h = Some hd →
  length cs = h_edges hd → R cs →
  Forall (λ c, live a c ∧ below a c (h_level hd)) cs →
  ∃ a' id, ar_hashcons a h cs = (a', id) ∧ awf R a' ∧ ext a a' ∧
    ar_headers a' = ar_headers a ∧ live a' id ∧ ar_nodes a' !! id = Some (NT h cs) ∧
    (∀ i, live a' i ↔ live a i ∨ i = id).
Proof.
  intros Hwf Hh Hlen HR Hcs. unfold ar_hashcons.
  destruct (ar_utable a !! (h, cs)) as [id|] eqn:Hu.
  { apply (aw_ut _ _ Hwf) in Hu as [Hl Hn]. exists a, id.
    sp; try done. intros i. split; [by left|]. by intros [?| ->]. }
  destruct (ar_alloc a (NT h cs)) as [a1 id] eqn:Ha.
  destruct (alloc_spec _ _ _ _ (aw_free_nodup _ _ Hwf) (aw_free_lt _ _ Hwf) Ha)
    as (Hhd & Hut & Hnd & Hlt & Hfresh & Hnew & Hlive & Hold).
  set (a' := Arena _ _ _ _).
  assert (Hlive' : ∀ i, live a' i ↔ live a i ∨ i = id) by apply Hlive.
  assert (Hsame : ∀ i, live a i → ar_nodes a' !! i = ar_nodes a !! i).
  { intros i Hi. apply Hold; [by intros ->|apply Hi]. }
  assert (Hext : ext a a').
  { split; [cbn; by rewrite Hhd|]. intros i n Hi Hn. split; [apply Hlive'; by left|].
    by rewrite Hsame. }
  assert (Hbel : ∀ c l, live a c → below a c l → below a' c l).
  { intros c l Hc Hb h' cs' hd' Hn Hh'. rewrite Hsame in Hn by done.
    eapply Hb; [done|]. by rewrite <- Hhd. }
  exists a', id. split; [done|]. sp; try done; [|by apply Hlive'; right].
  constructor.
  - cbn. rewrite Hhd. apply Hwf.
  - done.
  - done.
  - intros i h' cs' Hi Hn. destruct (decide (i = id)) as [->|Hne].
    + change (ar_nodes a') with (ar_nodes a1) in Hn. rewrite Hnew in Hn. injection Hn as <- <-.
      exists hd. cbn. rewrite Hhd. sp; try done.
      eapply Fimpl; [exact Hcs|]. intros c [Hc Hb]. split; [apply Hlive'; by left|by apply Hbel].
    + apply Hlive' in Hi as [Hi|]; [|done]. rewrite Hsame in Hn by done.
      destruct (aw_nt _ _ Hwf _ _ _ Hi Hn) as (hd' & Hh' & Hl' & HR' & Hcs').
      exists hd'. cbn. rewrite Hhd. sp; try done.
      eapply Fimpl; [exact Hcs'|]. intros c [Hc Hb]. split; [apply Hlive'; by left|by apply Hbel].
  - intros h' cs' i. cbn [ar_utable a']. rewrite Hut.
    destruct (decide ((h', cs') = (h, cs))) as [Heq|Hne].
    + injection Heq as -> ->. rewrite lookup_insert. split.
      * intros [= <-]. split; [apply Hlive'; by right|done].
      * intros [Hi Hn]. apply Hlive' in Hi as [Hi| ->]; [|done]. rewrite Hsame in Hn by done.
        assert (ar_utable a !! (h, cs) = Some i) by by apply (aw_ut _ _ Hwf). congruence.
    + rewrite lookup_insert_ne by done. rewrite (aw_ut _ _ Hwf). split.
      * intros [Hi Hn]. split; [apply Hlive'; by left|]. by rewrite Hsame.
      * intros [Hi Hn]. apply Hlive' in Hi as [Hi| ->].
        -- rewrite Hsame in Hn by done. done.
        -- change (ar_nodes a') with (ar_nodes a1) in Hn. rewrite Hnew in Hn. congruence.
  - intros i j t Hi Hj Hni Hnj. apply Hlive' in Hi, Hj.
    assert (∀ k, ar_nodes a' !! k = Some (Term t) → k ≠ id) as Hk.
    { intros k Hk ->. change (ar_nodes a') with (ar_nodes a1) in Hk. rewrite Hnew in Hk. congruence. }
    destruct Hi as [Hi| ->]; [|by destruct (Hk _ Hni)].
    destruct Hj as [Hj| ->]; [|by destruct (Hk _ Hnj)].
    rewrite Hsame in Hni, Hnj by done. by eapply aw_term.
Qed.

(** allocating a fresh terminal *)
Lemma alloc_term_spec R a t a' id : awf R a → ar_alloc a (Term t) = (a', id) →
  (∀ i, live a i → ar_nodes a !! i ≠ Some (Term t)) →
  awf R a' ∧ ext a a' ∧ ar_headers a' = ar_headers a ∧ live a' id ∧ ¬ live a id ∧
  ar_nodes a' !! id = Some (Term t) ∧ (∀ i, live a' i ↔ live a i ∨ i = id).
Proof.
  intros Hwf Ha Hfr.
  destruct (alloc_spec _ _ _ _ (aw_free_nodup _ _ Hwf) (aw_free_lt _ _ Hwf) Ha)
    as (Hhd & Hut & Hnd & Hlt & Hfresh & Hnew & Hlive & Hold).
  assert (Hsame : ∀ i, live a i → ar_nodes a' !! i = ar_nodes a !! i).
  { intros i Hi. apply Hold; [by intros ->|apply Hi]. }
  assert (Hext : ext a a').
  { split; [by rewrite Hhd|]. intros i n Hi Hn. split; [apply Hlive; by left|].
    by rewrite Hsame. }
  assert (Hbel : ∀ c l, live a c → below a c l → below a' c l).
  { intros c l Hc Hb h' cs' hd' Hn Hh'. rewrite Hsame in Hn by done.
    eapply Hb; [done|]. by rewrite <- Hhd. }
  sp; try done; [|apply Hlive; by right].
  constructor; try done.
  - rewrite Hhd. apply Hwf.
  - intros i h' cs' Hi Hn. destruct (decide (i = id)) as [->|Hne]; [congruence|].
    apply Hlive in Hi as [Hi|]; [|done]. rewrite Hsame in Hn by done.
    destruct (aw_nt _ _ Hwf _ _ _ Hi Hn) as (hd' & Hh' & Hl' & HR' & Hcs').
    exists hd'. rewrite Hhd. sp; try done.
    eapply Fimpl; [exact Hcs'|]. intros c [Hc Hb]. split; [apply Hlive; by left|by apply Hbel].
  - intros h' cs' i. rewrite Hut, (aw_ut _ _ Hwf). split.
    + intros [Hi Hn]. split; [apply Hlive; by left|]. by rewrite Hsame.
    + intros [Hi Hn]. apply Hlive in Hi as [Hi| ->]; [|congruence]. by rewrite Hsame in Hn.
  - intros i j t' Hi Hj Hni Hnj. apply Hlive in Hi, Hj.
    destruct Hi as [Hi| ->], Hj as [Hj| ->]; try done.
    + rewrite Hsame in Hni, Hnj by done. by eapply aw_term.
    + rewrite Hnew in Hnj. injection Hnj as <-. rewrite Hsame in Hni by done. by destruct (Hfr i Hi).
    + rewrite Hnew in Hni. injection Hni as <-. rewrite Hsame in Hnj by done. by destruct (Hfr j Hj).
Qed.

(** create_header keeps everything *)
Lemma create_header_spec R a level label edges a' h : awf R a →
  ar_create_header a level label edges = (a', h) →
  awf R a' ∧ ext a a' ∧ ar_headers a' = ar_headers a ++ [Header h level label edges] ∧
  h = length (ar_headers a) ∧ ar_nodes a' = ar_nodes a ∧ (∀ i, live a' i ↔ live a i).
Proof.
  intros Hwf. unfold ar_create_header. intros [= <- <-]. set (a' := Arena _ _ _ _).
  assert (Hhd : ∀ h hd, ar_headers a !! h = Some hd → ar_headers a' !! h = Some hd).
  { intros h hd Hh. cbn. by apply lookup_app_l_Some. }
  assert (Hlive : ∀ i, live a' i ↔ live a i) by done.
  assert (Hext : ext a a').
  { split; [by apply prefix_app_r|]. intros id n Hl Hn. done. }
  sp; try done. constructor.
  - intros h hd Hh. cbn in Hh. apply lookup_app_Some in Hh as [Hh|[Hge Hh]]; [by apply (aw_hdr _ _ Hwf)|].
    destruct (h - length (ar_headers a)) as [|k] eqn:Hk; [|done]. cbn in Hh. injection Hh as <-. cbn. lia.
  - apply Hwf.
  - apply Hwf.
  - intros id h cs Hl Hn. destruct (aw_nt _ _ Hwf _ _ _ Hl Hn) as (hd & Hh & Hlen & HR & Hcs).
    exists hd. sp; try done; [by apply Hhd|].
    eapply Fimpl; [exact Hcs|]. intros c [Hc Hb]. split; [done|].
    intros h' cs' hd' Hn' Hh'. destruct (aw_nt _ _ Hwf _ _ _ Hc Hn') as (hd'' & Hh'' & _).
    rewrite (Hhd _ _ Hh'') in Hh'. injection Hh' as <-. by eapply Hb.
  - apply Hwf.
  - intros i j t Hi Hj. by eapply (aw_term _ _ Hwf).
Qed.

(** ** Garbage collection *)

(** reachability through child edges *)
Inductive reach a (roots : list nat) : nat → Prop :=
  | reach_root r : r ∈ roots → reach a roots r
  | reach_step id h cs c : reach a roots id → ar_nodes a !! id = Some (NT h cs) → c ∈ cs →
      reach a roots c.

Definition marked (l : list bool) (i : nat) : Prop := l !! i = Some true.

Definition todo (ns : list (node T)) (lv : list bool) : nat :=
  sum_list (zip_with (λ n (b : bool), if b then 0 else length (node_children n)) ns lv).

Lemma todo_mark ns lv id n : lv !! id = Some false → ns !! id = Some n →
  todo ns lv = length (node_children n) + todo ns (<[id := true]> lv).
Proof.
  unfold todo. revert lv id. induction ns as [|m ns IH]; intros lv id Hl Hn; [done|].
  destruct lv as [|b lv]; [done|]. destruct id as [|id]; simpl in *; simplify_eq.
  - lia.
  - rewrite (IH lv id) by done. destruct b; lia.
Qed.

Lemma todo_le ns lv : todo ns lv ≤ sum_list (length ∘ node_children <$> ns).
Proof.
  unfold todo. revert lv. induction ns as [|m ns IH]; intros [|b lv]; cbn; try lia.
  specialize (IH lv). destruct b; lia.
Qed.

Lemma mark_spec a roots (base : nat → Prop) fuel lv stack :
  length lv = length (ar_nodes a) →
  (∀ id, reach a roots id → id < length (ar_nodes a)) →
  (∀ id, id ∈ stack → reach a roots id) →
  (∀ id, marked lv id → base id ∨ reach a roots id) →
  (∀ id, base id → marked lv id) →
  (∀ id h cs c, marked lv id → ar_nodes a !! id = Some (NT h cs) → c ∈ cs → marked lv c ∨ c ∈ stack) →
  (∀ r, r ∈ roots → marked lv r ∨ r ∈ stack) →
  length stack + todo (ar_nodes a) lv ≤ fuel →
  ∃ lv', ar_mark fuel (ar_nodes a) lv stack = Some lv' ∧ length lv' = length (ar_nodes a) ∧
    ∀ id, marked lv' id ↔ base id ∨ reach a roots id.
Proof.
  intros Hlen Hlt. revert fuel lv stack Hlen.
  induction fuel as [|k IH]; intros lv stack Hlen Hst Hm Hb Hcl Hr Hf.
  { destruct stack as [|x st]; [|cbn in Hf; lia]. cbn [ar_mark]. exists lv. sp; try done.
    intros id. split; [apply Hm|]. intros [?|Hre]; [by apply Hb|].
    induction Hre as [r Hin|id h cs c Hre IHr Hn Hin].
    - destruct (Hr _ Hin) as [?|Hx]; [done|by apply elem_of_nil in Hx].
    - destruct (Hcl _ _ _ _ IHr Hn Hin) as [?|Hx]; [done|by apply elem_of_nil in Hx]. }
  destruct stack as [|x st]; cbn [ar_mark].
  { exists lv. sp; try done.
    intros id. split; [apply Hm|]. intros [?|Hre]; [by apply Hb|].
    induction Hre as [r Hin|id h cs c Hre IHr Hn Hin].
    - destruct (Hr _ Hin) as [?|Hx]; [done|by apply elem_of_nil in Hx].
    - destruct (Hcl _ _ _ _ IHr Hn Hin) as [?|Hx]; [done|by apply elem_of_nil in Hx]. }
  assert (Hx : reach a roots x) by (apply Hst; left).
  pose proof (Hlt _ Hx) as Hxl.
  destruct (lookup_lt_is_Some_2 lv x) as [b Hlb]; [lia|]. rewrite Hlb. cbn [mbind option_bind].
  cbn [length] in Hf. destruct b.
  - apply IH; try done.
    + intros id Hid. apply Hst. by right.
    + intros id h cs c Hi Hn Hc. destruct (Hcl _ _ _ _ Hi Hn Hc) as [?|Hin]; [by left|].
      apply elem_of_cons in Hin as [->|?]; [by left|by right].
    + intros r Hin. destruct (Hr _ Hin) as [?|Hin']; [by left|].
      apply elem_of_cons in Hin' as [->|?]; [by left|by right].
    + lia.
  - destruct (lookup_lt_is_Some_2 (ar_nodes a) x Hxl) as [n Hn]. rewrite Hn. cbn [mbind option_bind].
    assert (Hmk : ∀ i, marked (<[x:=true]> lv) i ↔ marked lv i ∨ i = x).
    { intros i. unfold marked. destruct (decide (i = x)) as [->|Hne].
      - rewrite list_lookup_insert by lia. split; [by right|done].
      - rewrite list_lookup_insert_ne by done. split; [by left|]. by intros [?|?]. }
    assert (Hch : ∀ c, c ∈ node_children n ↔ c ∈ rev (node_children n)).
    { intros c. rewrite rev_reverse, elem_of_reverse. done. }
    apply IH.
    + by rewrite insert_length.
    + intros id Hid. apply elem_of_app in Hid as [Hid|Hid]; [|apply Hst; by right].
      apply Hch in Hid. destruct n as [t|h cs]; cbn in Hid; [by apply elem_of_nil in Hid|].
      by eapply reach_step.
    + intros id Hid. apply Hmk in Hid as [?| ->]; [by apply Hm|by right].
    + intros id Hid. apply Hmk. left. by apply Hb.
    + intros id h cs c Hid Hn' Hc. rewrite Hmk, elem_of_app. apply Hmk in Hid as [Hid| ->].
      * destruct (Hcl _ _ _ _ Hid Hn' Hc) as [?|Hin]; [by auto|].
        apply elem_of_cons in Hin as [->|?]; auto.
      * rewrite Hn in Hn'. injection Hn' as ->. right. left. by apply Hch.
    + intros r Hin. rewrite Hmk, elem_of_app. destruct (Hr _ Hin) as [?|Hin']; [by auto|].
      apply elem_of_cons in Hin' as [->|?]; auto.
    + rewrite app_length, rev_length.
      rewrite (todo_mark _ _ _ _ Hlb Hn) in Hf. lia.
Qed.

Lemma dead_from_elem i lv id : id ∈ dead_from i lv ↔ i ≤ id ∧ lv !! (id - i) = Some false.
Proof.
  revert i. induction lv as [|b lv IH]; intros i; cbn [dead_from].
  { rewrite lookup_nil. split; [by intros H%elem_of_nil|by intros [_ ?]]. }
  assert (Hs : S i ≤ id ∧ lv !! (id - S i) = Some false ↔ i < id ∧ (b :: lv) !! (id - i) = Some false).
  { split; intros [Hle Hl]; (split; [lia|]).
    - replace (id - i) with (S (id - S i)) by lia. done.
    - replace (id - i) with (S (id - S i)) in Hl by lia. done. }
  destruct b.
  - rewrite IH, Hs. split; intros [Hle Hl]; (split; [|done]); [lia|].
    destruct (decide (i = id)) as [->|]; [|lia]. by rewrite Nat.sub_diag in Hl.
  - rewrite elem_of_cons, IH, Hs. split.
    + intros [->|[? ?]]; [|split; [lia|done]]. rewrite Nat.sub_diag. split; [lia|done].
    + intros [Hle Hl]. destruct (decide (id = i)) as [->|]; [by left|right]. split; [lia|done].
Qed.

Lemma dead_from_nodup i lv : NoDup (dead_from i lv).
Proof.
  revert i. induction lv as [|b lv IH]; intros i; cbn [dead_from]; [constructor|].
  destruct b; [apply IH|]. constructor; [|apply IH].
  rewrite dead_from_elem. lia.
Qed.

Lemma foldl_mark base lv id :
  (∀ b, b ∈ base → b < length lv) →
  (marked (foldl (λ l b, <[b := true]> l) lv base) id ↔ marked lv id ∨ id ∈ base) ∧
  length (foldl (λ l b, <[b := true]> l) lv base) = length lv.
Proof.
  revert lv. induction base as [|b base IH]; intros lv Hb; cbn [foldl].
  { split; [|done]. rewrite elem_of_nil. tauto. }
  destruct (IH (<[b:=true]> lv)) as [H1 H2].
  { intros b' Hb'. rewrite insert_length. apply Hb. by right. }
  rewrite insert_length in H2. split; [|done]. rewrite H1, elem_of_cons.
  assert (Hbl : b < length lv) by (apply Hb; left).
  unfold marked. destruct (decide (id = b)) as [->|Hne].
  - rewrite list_lookup_insert by done. tauto.
  - rewrite list_lookup_insert_ne by done. tauto.
Qed.

Lemma reach_live R a roots id : awf R a → (∀ r, r ∈ roots → live a r) → reach a roots id → live a id.
Proof.
  intros Hwf Hr. induction 1 as [r Hin|id h cs c _ IH Hn Hc]; [by apply Hr|].
  destruct (aw_nt _ _ Hwf _ _ _ IH Hn) as (hd & _ & _ & _ & Hcs).
  rewrite Forall_forall in Hcs. by apply Hcs.
Qed.

Lemma gc_spec R a base roots : awf R a →
  (∀ b, b ∈ base → live a b ∧ ∃ t, ar_nodes a !! b = Some (Term t)) →
  (∀ r, r ∈ roots → live a r) →
  ∃ a' lv, ar_gc a base roots = Some (a', lv) ∧ awf R a' ∧
    ar_headers a' = ar_headers a ∧ ar_nodes a' = ar_nodes a ∧
    length lv = length (ar_nodes a) ∧
    (∀ id, live a' id ↔ id ∈ base ∨ reach a roots id) ∧
    (∀ id, live a' id → live a id) ∧
    (∀ id, marked lv id ↔ live a' id).
Proof.
  intros Hwf Hbase Hroots. unfold ar_gc.
  set (n := length (ar_nodes a)).
  assert (Hfil : filter (λ r, r < n) roots = roots).
  { clear -Hroots. induction roots as [|r rs IH]; [done|]. rewrite filter_cons_True, IH; [done| |].
    - intros r' Hr'. apply Hroots. by right.
    - apply (Hroots r). left. }
  rewrite Hfil.
  set (lv0 := foldl _ _ _).
  assert (Hb0 : ∀ b, b ∈ base → b < length (replicate n false)).
  { intros b Hb. rewrite replicate_length. apply (Hbase b Hb). }
  assert (Hlv0 : ∀ id, marked lv0 id ↔ id ∈ base).
  { intros id. destruct (foldl_mark base (replicate n false) id Hb0) as [H _]. fold lv0 in H. rewrite H.
    split; [|by right]. intros [Hm|?]; [|done]. apply lookup_replicate in Hm as [? _]. done. }
  assert (Hlen0 : length lv0 = n).
  { destruct (foldl_mark base (replicate n false) 0 Hb0) as [_ H]. rewrite replicate_length in H. done. }
  assert (Hrl : ∀ id, reach a roots id → live a id) by (intros; by eapply reach_live).
  destruct (mark_spec a roots (λ i, i ∈ base) (ar_mark_fuel (ar_nodes a) roots) lv0 (rev roots))
    as (lv & -> & Hlen & Hlv); try done.
  { intros id Hid. by apply Hrl. }
  { intros id Hid. rewrite rev_reverse, elem_of_reverse in Hid. by constructor. }
  { intros id Hid. left. by apply Hlv0. }
  { intros id Hid. by apply Hlv0. }
  { intros id h cs c Hm Hn. apply Hlv0 in Hm. destruct (Hbase _ Hm) as [_ [t Ht]]. congruence. }
  { intros r Hr. right. by rewrite rev_reverse, elem_of_reverse. }
  { unfold ar_mark_fuel. rewrite rev_length. pose proof (todo_le (ar_nodes a) lv0). lia. }
  cbn [mbind option_bind]. unfold ar_retain. rewrite decide_True.
  2: { intros [h cs] v Hv. apply (aw_ut _ _ Hwf) in Hv as [[Hv _] _]. lia. }
  cbn [mbind option_bind]. eexists _, lv. split; [done|]. set (a' := Arena _ _ _ _).
  assert (Hlive : ∀ id, live a' id ↔ marked lv id).
  { intros id. unfold live. cbn. rewrite rev_reverse, elem_of_reverse, dead_from_elem, Nat.sub_0_r.
    unfold marked. split.
    - intros [Hl Hn]. destruct (lookup_lt_is_Some_2 lv id) as [[] Hb]; [lia|done|].
      destruct Hn. split; [lia|done].
    - intros Hm. split; [rewrite <- Hlen; by eapply lookup_lt_Some|]. intros [_ ?]. congruence. }
  assert (Hsub : ∀ id, live a' id → live a id).
  { intros id Hid. apply Hlive, Hlv in Hid as [Hb|Hr]; [by apply Hbase|by apply Hrl]. }
  sp; try done; [|by intros; rewrite Hlive, Hlv].
  constructor.
  - apply Hwf.
  - cbn. rewrite rev_reverse, reverse_Permutation. apply dead_from_nodup.
  - cbn. intros id Hid. rewrite rev_reverse, elem_of_reverse, dead_from_elem in Hid.
    destruct Hid as [_ Hid]. rewrite <- Hlen. rewrite Nat.sub_0_r in Hid. by eapply lookup_lt_Some.
  - intros id h cs Hl Hn. cbn in Hn.
    destruct (aw_nt _ _ Hwf _ _ _ (Hsub _ Hl) Hn) as (hd & Hh & Hlen' & HR & Hcs).
    exists hd. sp; try done. apply Forall_forall. intros c Hc.
    rewrite Forall_forall in Hcs. destruct (Hcs c Hc) as [_ Hb]. split; [|exact Hb].
    apply Hlive, Hlv. apply Hlive, Hlv in Hl as [Hb'|Hr].
    + destruct (Hbase _ Hb') as [_ [t Ht]]. congruence.
    + right. by eapply reach_step.
  - intros h cs id. cbn. rewrite map_filter_lookup_Some. cbn. rewrite (aw_ut _ _ Hwf).
    rewrite Hlive. split; [by intros [[_ ?] ?]|]. intros [Hm Hn]. split; [|done].
    split; [|done]. apply Hsub. by apply Hlive.
  - intros i j t Hi Hj. apply (aw_term _ _ Hwf); by apply Hsub.
Qed.

(** a collection keeps the tree of every surviving id *)
Lemma repr_gc R a a' d id : awf R a' → ar_headers a' = ar_headers a → ar_nodes a' = ar_nodes a →
  live a' id → repr a d id → repr a' d id.
Proof.
  intros Hwf Hhd Hns. revert id. induction d as [t|hd ds IH] using dd_ind'; intros id Hl.
  - rewrite !repr_leaf, Hns. by intros [_ ?].
  - rewrite !repr_br, Hns, Hhd. intros [_ (h & cs & Hn & Hh & Hf)]. split; [done|].
    exists h, cs. sp; try done.
    rewrite <- Hns in Hn. destruct (aw_nt _ _ Hwf _ _ _ Hl Hn) as (hd' & _ & _ & _ & Hcs).
    clear -IH Hf Hcs. revert cs Hf Hcs. induction IH as [|d ds Hd _ IHs]; intros cs Hf Hcs.
    + inversion Hf; constructor.
    + inversion Hf; subst. inversion Hcs as [|? ? [Hlc _] Hcs']; subst. constructor; eauto.
Qed.

Lemma repr_gc_inv a a' d id : ar_headers a' = ar_headers a → ar_nodes a' = ar_nodes a →
  (∀ i, live a' i → live a i) → repr a' d id → repr a d id.
Proof.
  intros Hhd Hns Hsub. revert id. induction d as [t|hd ds IH] using dd_ind'; intros id.
  - rewrite !repr_leaf, Hns. intros [??]. auto.
  - rewrite !repr_br, Hns, Hhd. intros [? (h & cs & Hn & Hh & Hf)]. split; [auto|].
    exists h, cs. sp; try done. eapply Forall2_impl_l; eauto.
Qed.

End arena_proofs.
