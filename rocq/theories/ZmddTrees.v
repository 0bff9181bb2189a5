(** Zero-suppressed families on trees: membership, cofactors, node creation, canonicity (proof layer). *)
From Verif Require Import Prelude Arena Trees MtMdd.

Definition und : dd vt := Leaf VUndet.

(** vector [x] is in the family with label [z] *)
Inductive zden : dd vt → (nat → nat) → Z → Prop :=
  | zd_leaf z x : (∀ l, x l = 0) → zden (Leaf (VVal z)) x z
  | zd_br hd cs x c z : cs !! x (h_level hd) = Some c → zden c (upd x (h_level hd) 0) z → zden (Br hd cs) x z.

Definition zeq (x y : nat → nat) : Prop := ∀ l, x l = y l.
Lemma zeq_upd x y l v : zeq x y → zeq (upd x l v) (upd y l v).
Proof. intros H l'. unfold upd. by destruct (decide _). Qed.
Lemma zeq_sym x y : zeq x y → zeq y x.
Proof. intros H l. by rewrite H. Qed.
Lemma upd_self x l : zeq (upd x l (x l)) x.
Proof. intros l'. unfold upd. destruct (decide _); by subst. Qed.
Lemma upd_0 x l : x l = 0 → zeq (upd x l 0) x.
Proof. intros H l'. unfold upd. destruct (decide _); by subst. Qed.
Lemma upd_upd x l v w : zeq (upd (upd x l v) l w) (upd x l w).
Proof. intros l'. unfold upd. by destruct (decide _). Qed.

Lemma zden_ext d x y z : zeq x y → zden d x z → zden d y z.
Proof.
  intros He H. revert y He. induction H as [z x H|hd cs x c z Hc _ IH]; intros y He.
  - constructor. intros l. by rewrite <- He.
  - econstructor; [by rewrite <- He|]. apply IH. by apply zeq_upd.
Qed.
Lemma zden_ext_iff d x y z : zeq x y → zden d x z ↔ zden d y z.
Proof. intros H. split; apply zden_ext; [done|by apply zeq_sym]. Qed.

Lemma zden_und x z : ¬ zden und x z.
Proof. by inversion 1. Qed.
Lemma zden_leaf a x z : zden (Leaf (VVal a)) x z ↔ a = z ∧ ∀ l, x l = 0.
Proof. split; [by inversion 1|]. intros [-> H]. by constructor. Qed.
Lemma zden_br hd cs x z : zden (Br hd cs) x z ↔ ∃ c, cs !! x (h_level hd) = Some c ∧ zden c (upd x (h_level hd) 0) z.
Proof. split; [inversion 1; subst; eauto|]. intros (c & ? & ?). by econstructor. Qed.
Lemma zden_fun d x z z' : zden d x z → zden d x z' → z = z'.
Proof.
  intros H. revert z'. induction H as [z x H|hd cs x c z Hc _ IH]; intros z' H'.
  - apply zden_leaf in H' as [? _]. done.
  - apply zden_br in H' as (c' & Hc' & H'). rewrite Hc in Hc'. injection Hc' as <-. by apply IH.
Qed.

(** members are zero above the root *)
Lemma zden_low E d x z l : okdd E d → rank d ≤ l → zden d x z → x l = 0.
Proof.
  intros Ho Hr H. revert Ho Hr. induction H as [z x H|hd cs x c z Hc _ IH]; intros Ho Hr; [done|].
  apply okdd_br in Ho as [_ Hcs]. rewrite Forall_lookup in Hcs. destruct (Hcs _ _ Hc) as [Hk Hok].
  cbn [rank] in Hr. rewrite <- IH; [|done|lia]. rewrite upd_other; [done|lia].
Qed.

(** ** Cofactors: edge [i] of [d] at level [l] *)
Definition zcof (d : dd vt) (l i : nat) : dd vt :=
  match d with
  | Br hd cs => if decide (h_level hd = l) then default und (cs !! i) else if decide (i = 0) then d else und
  | Leaf _ => if decide (i = 0) then d else und
  end.
Lemma zcof_low d l i : rank d ≤ l → zcof d l i = if decide (i = 0) then d else und.
Proof. destruct d as [|hd cs]; cbn; [done|]. intros. by rewrite decide_False by lia. Qed.
Lemma zden_cof E d x z l : okdd E d → rank d ≤ S l → zden d x z ↔ zden (zcof d l (x l)) (upd x l 0) z.
Proof.
  intros Ho Hr. destruct (decide (rank d ≤ l)) as [Hle|Hgt].
  - rewrite zcof_low by done. destruct (decide (x l = 0)) as [H0|H0].
    + symmetry. apply zden_ext_iff. by apply upd_0.
    + split; [|by intros ?%zden_und]. intros H. by rewrite (zden_low E d x z l) in H0.
  - destruct d as [|hd cs]; cbn [rank] in *; [lia|]. assert (h_level hd = l) as <- by lia.
    cbn [zcof]. rewrite decide_True by done. rewrite zden_br.
    destruct (cs !! x (h_level hd)) as [c|]; cbn.
    + split; [by intros (? & [= <-] & ?)|eauto].
    + split; [by intros (? & ? & _)|by intros ?%zden_und].
Qed.

(** ** create_node *)
Definition mkz (hd : header) (ds : list (dd vt)) (dr : dd vt) : Prop :=
  (Forall (eq und) (tail ds) ∧ ds !! 0 = Some dr) ∨ (¬ Forall (eq und) (tail ds) ∧ dr = Br hd ds).
Lemma mkz_rank hd ds dr : mkz hd ds dr → Forall (λ d, rank d ≤ h_level hd) ds → rank dr ≤ S (h_level hd).
Proof.
  intros [[_ H]|[_ ->]] Hf; [|done]. rewrite Forall_lookup in Hf. specialize (Hf _ _ H). cbn in Hf. lia.
Qed.
Lemma mkz_den E hd ds dr x z : mkz hd ds dr → Forall (λ d, rank d ≤ h_level hd ∧ okdd E d) ds →
  zden dr x z ↔ ∃ d, ds !! x (h_level hd) = Some d ∧ zden d (upd x (h_level hd) 0) z.
Proof.
  intros [[Ht H0]|[_ ->]] Hf; [|apply zden_br].
  destruct ds as [|d ds]; [done|]. cbn in H0, Ht. injection H0 as <-.
  apply Forall_cons in Hf as [[Hk Ho] _].
  destruct (x (h_level hd)) as [|i] eqn:Hx; cbn [lookup list_lookup].
  - split.
    + intros H. exists d. split; [done|]. eapply zden_ext; [|done]. apply zeq_sym. by apply upd_0.
    + intros (d' & [= <-] & H). eapply zden_ext; [|done]. by apply upd_0.
  - split.
    + intros H. by rewrite (zden_low E d x z (h_level hd)) in Hx.
    + intros (d' & Hd & H). rewrite Forall_lookup in Ht. rewrite <- (Ht _ _ Hd) in H. by apply zden_und in H.
Qed.

(** ** Reduced trees *)
Fixpoint redz (d : dd vt) : Prop :=
  match d with
  | Leaf _ => True
  | Br hd cs => ¬ Forall (eq und) (tail cs) ∧
      (fix all cs := match cs with [] => True | c :: cs => redz c ∧ all cs end) cs
  end.
Lemma redz_br hd cs : redz (Br hd cs) ↔ ¬ Forall (eq und) (tail cs) ∧ Forall redz cs.
Proof.
  cbn [redz]. assert (∀ l, (fix all cs := match cs with [] => True | c :: cs => redz c ∧ all cs end) l ↔
       Forall redz l) as Hl.
  { induction l as [|c l IH]; [by split|]. rewrite Forall_cons, <- IH. done. }
  by rewrite Hl.
Qed.

Global Instance dd_vt_und_dec (d : dd vt) : Decision (und = d).
Proof. destruct d as [[|z]|hd cs]; [left|right|right]; done. Defined.

Lemma Forall_und_neg cs : ¬ Forall (eq und) (tail cs) → ∃ i c, cs !! S i = Some c ∧ c ≠ und.
Proof.
  destruct cs as [|c0 cs]; cbn [tail]; intros H.
  { destruct H. constructor. }
  apply not_Forall_Exists in H; [|apply _]. apply Exists_exists in H as (c & Hin & Hc).
  apply elem_of_list_lookup in Hin as [i Hi]. exists i, c. split; [done|]. intros ->. by apply Hc.
Qed.

(** a reduced non-empty family has a member, and one that uses the root variable *)
Lemma redz_member E d : okdd E d → redz d → d ≠ und → ∃ x z, zden d x z ∧ (0 < rank d → 0 < x (pred (rank d))).
Proof.
  induction d as [[|a]|hd cs IH] using dd_ind'; intros Ho Hr Hne; [done| |].
  - exists (λ _, 0), a. split; [by constructor|]. cbn. lia.
  - apply redz_br in Hr as [Hn Hrs]. destruct (Forall_und_neg _ Hn) as (i & c & Hc & Hcn).
    apply okdd_br in Ho as [Hl Hcs]. rewrite Forall_lookup in IH, Hcs, Hrs.
    destruct (Hcs _ _ Hc) as [Hk Hok].
    destruct (IH _ _ Hc Hok (Hrs _ _ Hc) Hcn) as (x & z & Hm & _).
    exists (upd x (h_level hd) (S i)), z. split.
    + apply zden_br. exists c. rewrite upd_same. split; [done|].
      eapply zden_ext; [|exact Hm]. apply zeq_sym. intros l. rewrite (upd_upd x (h_level hd) (S i) 0 l).
      revert l. apply upd_0. by eapply zden_low.
    + intros _. cbn [rank pred]. rewrite upd_same. lia.
Qed.

Lemma zcanon_aux E H n : ∀ d1 d2,
  rank d1 + rank d2 < n → okdd E d1 → okdd E d2 → redz d1 → redz d2 → hdby H d1 → hdby H d2 →
  (∀ x z, zden d1 x z ↔ zden d2 x z) → d1 = d2.
Proof.
  induction n as [|n IH]; [lia|].
  intros d1 d2 Hn Ho1 Ho2 Hr1 Hr2 Hh1 Hh2 Heq.
  assert (Hlow : ∀ da db, okdd E da → okdd E db → redz da → rank db < rank da →
    (∀ x z, zden da x z ↔ zden db x z) → False).
  { intros da db Oa Ob Ra Hlt Hq.
    destruct (redz_member E da Oa Ra) as (x & z & Hm & Hx).
    { intros ->. cbn in Hlt. lia. }
    apply Hq in Hm. apply (zden_low E _ _ _ (pred (rank da))) in Hm; [lia|done|lia]. }
  destruct (Nat.lt_trichotomy (rank d1) (rank d2)) as [Hlt|[Hre|Hlt]].
  - exfalso. eapply (Hlow d2 d1); eauto. intros. by rewrite Heq.
  - destruct d1 as [t1|hd1 cs1], d2 as [t2|hd2 cs2]; cbn [rank] in *; try lia.
    + destruct t1 as [|z1], t2 as [|z2]; try done.
      * destruct (zden_und (λ _, 0) z2). apply Heq. by constructor.
      * destruct (zden_und (λ _, 0) z1). apply Heq. by constructor.
      * specialize (Heq (λ _, 0) z1). rewrite !zden_leaf in Heq. destruct Heq as [[-> _] _]; done.
    + pose proof Ho1 as [Hl1 Hcs1]%okdd_br. pose proof Hr1 as [_ Hrs1]%redz_br.
      pose proof Hh1 as [He1 Hhs1]%hdby_br.
      pose proof Ho2 as [Hl2 Hcs2]%okdd_br. pose proof Hr2 as [_ Hrs2]%redz_br.
      pose proof Hh2 as [He2 Hhs2]%hdby_br.
      injection Hre as Hre. assert (hd1 = hd2) as <- by congruence. clear He2. f_equal.
      apply list_eq_same_length with (length cs1); [congruence|congruence|].
      intros i c1 c2 Hi Hc1 Hc2.
      rewrite Forall_lookup in Hcs1, Hrs1, Hhs1, Hcs2, Hrs2, Hhs2.
      destruct (Hcs1 _ _ Hc1) as [Hk1 Hok1], (Hcs2 _ _ Hc2) as [Hk2 Hok2].
      apply IH; eauto; [lia|]. intros x z.
      assert (Hgen : ∀ csa ca csb cb, csa !! i = Some ca → csb !! i = Some cb → rank ca ≤ h_level hd1 → okdd E ca →
        (∀ x z, zden (Br hd1 csa) x z → zden (Br hd1 csb) x z) → zden ca x z → zden cb x z).
      { intros csa ca csb cb Ha Hb Hka Hoa Hq Hm.
        assert (Hx0 : x (h_level hd1) = 0) by by eapply zden_low.
        assert (Hu : zeq (upd (upd x (h_level hd1) i) (h_level hd1) 0) x).
        { intros l. rewrite (upd_upd x (h_level hd1) i 0 l). revert l. by apply upd_0. }
        assert (Hbr : zden (Br hd1 csa) (upd x (h_level hd1) i) z).
        { apply zden_br. exists ca. rewrite upd_same. split; [done|]. eapply zden_ext; [apply zeq_sym, Hu|done]. }
        apply Hq, zden_br in Hbr as (c & Hc & Hd). rewrite upd_same in Hc. rewrite Hb in Hc. injection Hc as <-.
        eapply zden_ext; [apply Hu|done]. }
      split; [eapply (Hgen cs1 c1 cs2 c2)|eapply (Hgen cs2 c2 cs1 c1)]; try done; intros; by apply Heq.
  - exfalso. eapply (Hlow d1 d2); eauto.
Qed.
Lemma zcanon E H d1 d2 : okdd E d1 → okdd E d2 → redz d1 → redz d2 → hdby H d1 → hdby H d2 →
  (∀ x z, zden d1 x z ↔ zden d2 x z) → d1 = d2.
Proof. intros. eapply (zcanon_aux E H (S (rank d1 + rank d2))); eauto. Qed.
