(** Minimal solutions on trees with many-valued branches: families read off fully reduced diagrams, subtraction,
    minimal solutions, monotonicity. *)
From Verif Require Import Prelude ComputeCache Arena Trees ArenaProofs Bdd ArenaMore Mdd NaryProofs MtMdd ZmddTrees.

Section fam.
Context {T : Type} (o : T → option T).
Implicit Types (d c : dd T).

(** vector [x] is listed with origin [t] *)
Inductive fden : dd T → (nat → nat) → T → Prop :=
  | fd_leaf l x t : o l = Some t → (∀ k, x k = 0) → fden (Leaf l) x t
  | fd_br hd cs x c t : cs !! x (h_level hd) = Some c → fden c (upd x (h_level hd) 0) t → fden (Br hd cs) x t.

Lemma fden_leaf l x t : fden (Leaf l) x t ↔ o l = Some t ∧ ∀ k, x k = 0.
Proof. split; [by inversion 1|]. intros [H1 H2]. by constructor. Qed.
Lemma fden_br hd cs x t : fden (Br hd cs) x t ↔ ∃ c, cs !! x (h_level hd) = Some c ∧ fden c (upd x (h_level hd) 0) t.
Proof. split; [inversion 1; subst; eauto|]. intros (c & ? & ?). by econstructor. Qed.
Lemma fden_ext d x y t : zeq x y → fden d x t → fden d y t.
Proof.
  intros He H. revert y He. induction H as [l x t Ho H|hd cs x c t Hc _ IH]; intros y He.
  - constructor; [done|]. intros k. by rewrite <- He.
  - econstructor; [by rewrite <- He|]. apply IH. by apply zeq_upd.
Qed.
Lemma fden_ext_iff d x y t : zeq x y → fden d x t ↔ fden d y t.
Proof. intros H. split; apply fden_ext; [done|by apply zeq_sym]. Qed.
Lemma fden_low E d x t l : okdd E d → rank d ≤ l → fden d x t → x l = 0.
Proof.
  intros Ho Hr H. revert Ho Hr. induction H as [k x t _ H|hd cs x c t Hc _ IH]; intros Ho Hr; [done|].
  apply okdd_br in Ho as [_ Hcs]. rewrite Forall_lookup in Hcs. destruct (Hcs _ _ Hc) as [Hk Hok].
  cbn [rank] in Hr. rewrite <- IH; [|done|lia]. rewrite upd_other; [done|lia].
Qed.
(** members are in range *)
Lemma fden_vok E d x t : okdd E d → (∀ l, 0 < E l) → fden d x t → vok E x.
Proof.
  intros Ho HE H. revert Ho. induction H as [k x t _ H|hd cs x c t Hc _ IH]; intros Ho l; [by rewrite H|].
  apply okdd_br in Ho as [Hl Hcs]. rewrite Forall_lookup in Hcs. destruct (Hcs _ _ Hc) as [Hk Hok].
  specialize (IH Hok l). unfold upd in IH. destruct (decide (l = h_level hd)) as [->|]; [|done].
  apply lookup_lt_Some in Hc. lia.
Qed.
Lemma fden_vokh hs d x t : hcons hs → okh hs d → fden d x t → vokh hs x.
Proof.
  intros Hc Ho H. apply (vok_vokh hs (λ _, 0)); [done|]. eapply fden_vok; [apply Ho| |done].
  intros l. by apply Eof_pos.
Qed.

(** sibling families are disjoint, at every node *)
Fixpoint disj d : Prop :=
  match d with
  | Leaf _ => True
  | Br _ cs => (∀ i j c c' x t, i < j → cs !! i = Some c → cs !! j = Some c' → fden c x t → fden c' x t → False) ∧
      (fix all l := match l with [] => True | c :: l => disj c ∧ all l end) cs
  end.
Definition sdisj (cs : list (dd T)) : Prop :=
  ∀ i j c c' x t, i < j → cs !! i = Some c → cs !! j = Some c' → fden c x t → fden c' x t → False.
Lemma disj_br hd cs : disj (Br hd cs) ↔ sdisj cs ∧ Forall disj cs.
Proof.
  cbn [disj]. assert (∀ l, (fix all l := match l with [] => True | c :: l => disj c ∧ all l end) l ↔
       Forall disj l) as Hl.
  { induction l as [|c l IH]; [by split|]. rewrite Forall_cons, <- IH. done. }
  by rewrite Hl.
Qed.

(** the reducing constructor preserves the family when the sibling families are disjoint *)
Lemma mkrel_fden E hd ds dr x t : mkrel hd ds dr → sdisj ds → Forall (λ d, rank d ≤ h_level hd ∧ okdd E d) ds →
  fden dr x t ↔ ∃ d, ds !! x (h_level hd) = Some d ∧ fden d (upd x (h_level hd) 0) t.
Proof.
  intros [[Hf Hne]|[_ ->]] Hs Hok; [|apply fden_br].
  destruct ds as [|d0 [|d1 ds]]; [done| |].
  - apply Forall_cons in Hf as [-> _]. apply Forall_cons in Hok as [[Hk Ho] _]. split.
    + intros H. assert (Hx : x (h_level hd) = 0) by by eapply fden_low. exists d0. rewrite Hx. split; [done|].
      eapply fden_ext; [apply zeq_sym; by apply upd_0|done].
    + intros (d & Hd & H). destruct (x (h_level hd)) as [|i] eqn:Hx; [|done]. injection Hd as <-.
      eapply fden_ext; [by apply upd_0|done].
  - rewrite !Forall_cons in Hf. destruct Hf as (<- & <- & Hf).
    assert (Hno : ∀ y, ¬ fden dr y t) by (intros y H; by eapply (Hs 0 1 dr dr y t); [lia|done..]).
    split; [by intros ?%Hno|]. intros (d & Hd & H).
    assert (d = dr) as ->; [|by apply Hno in H].
    destruct (x (h_level hd)) as [|[|i]]; [by injection Hd as <-|by injection Hd as <-|].
    cbn in Hd. rewrite Forall_lookup in Hf. symmetry. by eapply Hf.
Qed.
Lemma mkrel_disj hd ds dr : mkrel hd ds dr → sdisj ds → Forall disj ds → disj dr.
Proof.
  intros [[Hf Hne]|[_ ->]] Hs Hd; [|by apply disj_br].
  destruct ds as [|d0 ds]; [done|]. apply Forall_cons in Hf as [-> _]. by apply Forall_cons in Hd as [? _].
Qed.

(** ** Subtraction: members of [dg] at which [df] does not take the value they are listed under *)
Definition wspec (df dg dr : dd T) : Prop := ∀ x t, fden dr x t ↔ fden dg x t ∧ eval x df ≠ Some t.

Lemma sdisj_sub cs ds : sdisj cs → length ds = length cs →
  (∀ i c d x t, cs !! i = Some c → ds !! i = Some d → fden d x t → fden c x t) → sdisj ds.
Proof.
  intros Hs Hl H i j c c' x t Hij Hc Hc' Hx Hx'.
  destruct (lookup_lt_is_Some_2 cs i) as [b Hb]; [rewrite <- Hl; by eapply lookup_lt_Some|].
  destruct (lookup_lt_is_Some_2 cs j) as [b' Hb']; [rewrite <- Hl; by eapply lookup_lt_Some|].
  eapply (Hs i j b b' x t); eauto.
Qed.

(** [f] above [g]: members of [g] have component 0 there *)
Lemma wspec_base E hd cs c0 dg dr : okdd E (Br hd cs) → okdd E dg → rank dg ≤ h_level hd →
  cs !! 0 = Some c0 → wspec c0 dg dr → wspec (Br hd cs) dg dr.
Proof.
  intros Ho Hg Hr Hc H x t. rewrite (H x t). split; intros [Hm He]; (split; [done|]).
  - assert (Hx : x (h_level hd) = 0) by by eapply fden_low. by rewrite eval_br, Hx, Hc.
  - assert (Hx : x (h_level hd) = 0) by by eapply fden_low. by rewrite eval_br, Hx, Hc in He.
Qed.
(** [g] at the top: child by child; [df i] is what [f] becomes when the component is [i] *)
Lemma wspec_over E hd hd' cs ds df dr : okdd E df → rank df ≤ S (h_level hd) → h_level hd' = h_level hd →
  okdd E (Br hd cs) → disj (Br hd cs) → length ds = length cs →
  Forall (λ d, rank d ≤ h_level hd ∧ okdd E d) ds → mkrel hd' ds dr →
  (∀ i c d, cs !! i = Some c → ds !! i = Some d → wspec (cof df (h_level hd) i) c d ∧ disj d) →
  wspec df (Br hd cs) dr ∧ disj dr.
Proof.
  intros Hof Hrf Hlv Hog Hd Hl Hok Hmk H. apply disj_br in Hd as [Hs Hd].
  assert (Hsd : sdisj ds).
  { eapply sdisj_sub; [exact Hs|done|]. intros i c d x t Hc Hdi Hx. destruct (H i c d Hc Hdi) as [Hw _].
    by apply Hw in Hx as [? _]. }
  split.
  - intros x t. rewrite <- Hlv in Hok. rewrite (mkrel_fden E hd' ds dr x t Hmk Hsd Hok), fden_br. rewrite Hlv in Hok |- *.
    set (i := x (h_level hd)) in *. pose proof Hog as [Hlen _]%okdd_br.
    assert (He : ∀ c, cs !! i = Some c →
      eval (upd x (h_level hd) 0) (cof df (h_level hd) i) = eval x df).
    { intros c Hc. assert (i < E (h_level hd)) by (rewrite <- Hlen; by eapply lookup_lt_Some).
      rewrite (eval_upd E); [|by apply cof_ok|by eapply cof_rank].
      destruct df as [|hdf cs']; [done|]. cbn [cof]. destruct (decide _) as [Heq|]; [|done].
      rewrite eval_br, Heq. fold i. destruct (cs' !! i) eqn:Hi; [done|].
      apply okdd_br in Hof as [Hl' _]. apply lookup_ge_None in Hi. rewrite Heq in Hl'. lia. }
    split.
    + intros (d & Hdi & Hx). destruct (lookup_lt_is_Some_2 cs i) as [c Hc]; [rewrite <- Hl; by eapply lookup_lt_Some|].
      destruct (H i c d Hc Hdi) as [Hw _]. destruct (proj1 (Hw _ _) Hx) as [Hx' Hn]. rewrite (He c Hc) in Hn. split; [eauto|done].
    + intros [(c & Hc & Hx) Hn]. destruct (lookup_lt_is_Some_2 ds i) as [d Hdi]; [rewrite Hl; by eapply lookup_lt_Some|].
      exists d. split; [done|]. destruct (H i c d Hc Hdi) as [Hw _]. apply Hw. split; [done|]. by rewrite (He c Hc).
  - eapply mkrel_disj; [done|done|]. apply Forall_lookup. intros i d Hi.
    destruct (lookup_lt_is_Some_2 cs i) as [c Hc]; [rewrite <- Hl; by eapply lookup_lt_Some|]. by eapply H.
Qed.

(** ** Minimal solutions *)
(** [x] is a solution for [t] that stops being one when any component is lowered by one *)
Definition locmin (hs : list header) (df : dd T) (x : nat → nat) (t : T) : Prop :=
  vokh hs x ∧ eval x df = Some t ∧ ∀ l, 0 < x l → eval (upd x l (pred (x l))) df ≠ Some t.
Definition solspec hs (listed : T → Prop) (df dr : dd T) : Prop :=
  ∀ x t, fden dr x t ↔ listed t ∧ locmin hs df x t.

Context (le : T → T → Prop).
(** children ascend, at every node *)
Definition below hs (c c' : dd T) : Prop :=
  ∀ x, vokh hs x → ∃ a b, eval x c = Some a ∧ eval x c' = Some b ∧ le a b.
Definition ascend hs (cs : list (dd T)) : Prop :=
  ∀ i c c', cs !! i = Some c → cs !! S i = Some c' → below hs c c'.
Fixpoint chain hs d : Prop :=
  match d with
  | Leaf _ => True
  | Br _ cs => (∀ i c c', cs !! i = Some c → cs !! S i = Some c' → below hs c c') ∧
      (fix all l := match l with [] => True | c :: l => chain hs c ∧ all l end) cs
  end.
Lemma chain_br hs hd cs : chain hs (Br hd cs) ↔ ascend hs cs ∧ Forall (chain hs) cs.
Proof.
  cbn [chain]. assert (∀ l, (fix all l := match l with [] => True | c :: l => chain hs c ∧ all l end) l ↔
       Forall (chain hs) l) as Hl.
  { induction l as [|c l IH]; [by split|]. rewrite Forall_cons, <- IH. done. }
  by rewrite Hl.
Qed.

Context (le_refl : ∀ a, le a a) (le_trans : ∀ a b e, le a b → le b e → le a e)
  (le_anti : ∀ a b, le a b → le b a → a = b).

Lemma ascend_le hs cs i j c c' x a b : ascend hs cs → vokh hs x → i ≤ j → cs !! i = Some c → cs !! j = Some c' →
  eval x c = Some a → eval x c' = Some b → le a b.
Proof.
  intros Ha Hv Hij. revert c' b. induction Hij as [|j Hij IH]; intros c' b Hc Hc' Hea Heb.
  - rewrite Hc in Hc'. injection Hc' as <-. rewrite Hea in Heb. by injection Heb as <-.
  - destruct (lookup_lt_is_Some_2 cs j) as [cj Hcj]; [apply lookup_lt_Some in Hc'; lia|].
    destruct (Ha j cj c' Hcj Hc' x Hv) as (aj & b' & He1 & He2 & Hle). rewrite Heb in He2. injection He2 as <-.
    eapply le_trans; [|exact Hle]. by eapply IH.
Qed.

Lemma sol_leaf hs (listed : T → Prop) t l :
  (∀ t', o l = Some t' ↔ t' = t ∧ listed t) → hcons hs → solspec hs listed (Leaf t) (Leaf l).
Proof.
  intros H Hc x t'. rewrite fden_leaf, H. unfold locmin. cbn [eval]. split.
  - intros [[-> Hli] Hx]. sp; try done.
    + intros hd Hin. rewrite Hx. by apply Hc.
    + intros k Hk. rewrite Hx in Hk. lia.
  - intros (Hli & Hv & [= ->] & Hm). sp; try done. intros k. destruct (x k) eqn:Hk; [done|].
    exfalso. apply (Hm k); [lia|done].
Qed.

Lemma sol_br hs (listed : T → Prop) hd cs ss ds dr :
  hcons hs → hd ∈ hs → okh hs (Br hd cs) → ascend hs cs →
  length ss = length cs → length ds = length cs →
  (∀ i c s, cs !! i = Some c → ss !! i = Some s → solspec hs listed c s ∧ disj s) →
  (∀ s d, ss !! 0 = Some s → ds !! 0 = Some d → d = s) →
  (∀ i c s d, cs !! i = Some c → ss !! S i = Some s → ds !! S i = Some d → wspec c s d ∧ disj d) →
  Forall (λ d, rank d ≤ h_level hd ∧ okh hs d) ds → mkrel hd ds dr →
  solspec hs listed (Br hd cs) dr ∧ disj dr.
Proof.
  intros Hc Hin Ho Ha Hls Hlds Hss H0 HS Hok Hmk.
  set (lv := h_level hd) in *.
  assert (Hkid : ∀ i c, cs !! i = Some c → rank c ≤ lv ∧ okh hs c).
  { intros i c Hi. split; [|intros ρ]; [specialize (Ho (λ _, 0))|specialize (Ho ρ)];
      apply okdd_br in Ho as [_ Ho]; rewrite Forall_lookup in Ho; by eapply Ho. }
  assert (Hed : length cs = h_edges hd).
  { rewrite (Eof_edges hs (λ _, 0) hd Hc Hin). specialize (Ho (λ _, 0)). by apply okdd_br in Ho as [? _]. }
  (* what being listed in child [i] means *)
  assert (Hds : ∀ i d c x t, ds !! i = Some d → cs !! i = Some c →
    fden d x t ↔ (listed t ∧ locmin hs c x t) ∧ ∀ j cj, i = S j → cs !! j = Some cj → eval x cj ≠ Some t).
  { intros i d c x t Hd Hci. destruct (lookup_lt_is_Some_2 ss i) as [s Hs]; [rewrite Hls; by eapply lookup_lt_Some|].
    destruct (Hss _ _ _ Hci Hs) as [Hsol _]. destruct i as [|i].
    - rewrite (H0 s d Hs Hd). rewrite (Hsol x t). split; [intros ?; split; [done|]; intros; lia|by intros [? _]].
    - destruct (lookup_lt_is_Some_2 cs i) as [cj Hcj]; [apply lookup_lt_Some in Hci; lia|].
      destruct (HS i cj s d Hcj Hs Hd) as [Hw _]. rewrite (Hw x t), (Hsol x t). split.
      + intros [? Hn]. split; [done|]. intros j cj' [= <-] Hcj'. congruence.
      + intros [? Hn]. split; [done|]. by eapply Hn. }
  assert (Hdis : ∀ i d, ds !! i = Some d → disj d).
  { intros i d Hd. destruct (lookup_lt_is_Some_2 ss i) as [s Hs]; [rewrite Hls, <- Hlds; by eapply lookup_lt_Some|].
    destruct (lookup_lt_is_Some_2 cs i) as [c Hci]; [rewrite <- Hlds; by eapply lookup_lt_Some|].
    destruct i as [|i]; [rewrite (H0 s d Hs Hd); by eapply Hss|].
    destruct (lookup_lt_is_Some_2 cs i) as [cj Hcj]; [apply lookup_lt_Some in Hci; lia|]. by eapply HS. }
  assert (Hsd : sdisj ds).
  { intros i j d d' x t Hij Hd Hd' Hx Hx'.
    destruct (lookup_lt_is_Some_2 cs i) as [c Hci]; [rewrite <- Hlds; by eapply lookup_lt_Some|].
    destruct (lookup_lt_is_Some_2 cs j) as [c' Hcj]; [rewrite <- Hlds; by eapply lookup_lt_Some|].
    apply (Hds i d c x t Hd Hci) in Hx as [(_ & Hv & He & _) _].
    apply (Hds j d' c' x t Hd' Hcj) in Hx' as [(_ & _ & He' & _) Hn].
    destruct j as [|j]; [lia|].
    destruct (lookup_lt_is_Some_2 cs j) as [cj Hj]; [apply lookup_lt_Some in Hcj; lia|].
    apply (Hn j cj eq_refl Hj). destruct (okh_total hs cj x) as [u Hu]; [by eapply Hkid|done|].
    rewrite Hu. f_equal. apply le_anti.
    - exact (ascend_le hs cs j (S j) cj c' x u t Ha Hv ltac:(lia) Hj Hcj Hu He').
    - exact (ascend_le hs cs i j c cj x t u Ha Hv ltac:(lia) Hci Hj He Hu). }
  assert (Hokd : Forall (λ d, rank d ≤ lv ∧ okdd (Eof hs (λ _, 0)) d) ds).
  { eapply Forall_impl; [exact Hok|]. intros d [? Hd]. split; [done|apply Hd]. }
  split; [|eapply mkrel_disj; [done|done|]; by apply Forall_lookup].
  intros x t. rewrite (mkrel_fden _ hd ds dr x t Hmk Hsd Hokd). fold lv.
  set (y := upd x lv 0).
  assert (Hye : ∀ i c, cs !! i = Some c → eval y c = eval x c).
  { intros i c Hi. destruct (Hkid i c Hi) as [Hk Hoc]. by apply (okh_upd hs). }
  assert (Hyl : ∀ i c l v, cs !! i = Some c → l ≠ lv → eval (upd y l v) c = eval (upd x l v) c).
  { intros i c l v Hi Hl. destruct (Hkid i c Hi) as [Hk Hoc]. eapply eval_agree; [apply (Hoc (λ _, 0))|].
    intros k Hkl. unfold y, upd. destruct (decide (k = l)); [done|]. rewrite decide_False by lia. done. }
  assert (Hbr : ∀ ρ c, cs !! ρ lv = Some c → eval ρ (Br hd cs) = eval ρ c).
  { intros ρ c Hi. rewrite eval_br. fold lv. by rewrite Hi. }
  split.
  - intros (d & Hd & Hx). set (i := x lv) in *.
    destruct (lookup_lt_is_Some_2 cs i) as [c Hci]; [rewrite <- Hlds; by eapply lookup_lt_Some|].
    destruct (proj1 (Hds i d c y t Hd Hci) Hx) as [(Hli & Hv & He & Hm) Hn].
    split; [done|]. split; [|split].
    + intros hd' Hin'. specialize (Hv hd' Hin'). unfold y, upd in Hv.
      destruct (decide (h_level hd' = lv)) as [Heq|]; [|done].
      destruct Hc as [_ Hc]. rewrite (Hc hd' hd Hin' Hin Heq), Heq, <- Hed. by eapply lookup_lt_Some.
    + rewrite (Hbr x c Hci), <- (Hye i c Hci). done.
    + intros l Hl. destruct (decide (l = lv)) as [->|Hlv].
      * fold i in Hl |- *. destruct i as [|j] eqn:Ei; [lia|]. cbn [pred].
        destruct (lookup_lt_is_Some_2 cs j) as [cj Hj]; [apply lookup_lt_Some in Hci; lia|].
        rewrite (Hbr (upd x lv j) cj) by (by rewrite upd_same).
        rewrite (okh_upd hs cj x lv j) by (by eapply Hkid).
        rewrite <- (Hye j cj Hj). by eapply Hn.
      * rewrite (Hbr _ c) by (by rewrite upd_other by congruence).
        rewrite <- (Hyl i c l _ Hci Hlv). specialize (Hm l). unfold y in Hm. rewrite upd_other in Hm by congruence.
        fold y in Hm. by apply Hm.
  - intros (Hli & Hv & He & Hm). set (i := x lv) in *.
    assert (Hi : i < length cs). { rewrite Hed. by apply Hv. }
    destruct (lookup_lt_is_Some_2 cs i Hi) as [c Hci].
    destruct (lookup_lt_is_Some_2 ds i) as [d Hd]; [by rewrite Hlds|]. exists d. split; [done|].
    apply (Hds i d c y t Hd Hci). rewrite (Hbr x c Hci) in He. split; [split; [done|]; split; [|split]|].
    + apply vokh_upd; try done. by apply Hc.
    + by rewrite (Hye i c Hci).
    + intros l Hl. unfold y in Hl. destruct (decide (l = lv)) as [->|Hlv]; [rewrite upd_same in Hl; lia|].
      rewrite upd_other in Hl by done. specialize (Hm l Hl).
      rewrite (Hbr _ c) in Hm by (by rewrite upd_other by congruence).
      rewrite (Hyl i c l _ Hci Hlv). unfold y. by rewrite upd_other.
    + intros j cj Hij Hj. specialize (Hm lv). fold i in Hm. rewrite Hij in Hm. cbn [pred] in Hm.
      rewrite (Hbr (upd x lv j) cj) in Hm by (by rewrite upd_same).
      rewrite (okh_upd hs cj x lv j) in Hm by (by eapply Hkid).
      rewrite (Hye j cj Hj). apply Hm. lia.
Qed.

(** ** Monotonicity *)
Definition monot hs (d : dd T) : Prop :=
  ∀ x y a b, vokh hs x → vokh hs y → (∀ l, x l ≤ y l) → eval x d = Some a → eval y d = Some b → le a b.

Lemma chain_monot hs d : hcons hs → okh hs d → chain hs d → monot hs d.
Proof.
  intros Hc. induction d as [t|hd cs IH] using dd_ind'; intros Ho Hch x y a b Hx Hy Hxy Ha Hb.
  - cbn in *. rewrite Ha in Hb. injection Hb as <-. apply le_refl.
  - apply chain_br in Hch as [Has Hch]. rewrite eval_br in Ha, Hb.
    destruct (cs !! x (h_level hd)) as [c|] eqn:Hcx; [|done]. destruct (cs !! y (h_level hd)) as [c'|] eqn:Hcy; [|done].
    cbn in Ha, Hb.
    assert (Hkid : ∀ i c, cs !! i = Some c → okh hs c).
    { intros i c0 Hi ρ. specialize (Ho ρ). apply okdd_br in Ho as [_ Ho]. rewrite Forall_lookup in Ho. by eapply Ho. }
    destruct (okh_total hs c y (Hkid _ _ Hcx) Hy) as [u Hu].
    rewrite Forall_lookup in IH, Hch.
    eapply le_trans; [exact (IH _ _ Hcx (Hkid _ _ Hcx) (Hch _ _ Hcx) x y a u Hx Hy Hxy Ha Hu)|].
    exact (ascend_le hs cs _ _ c c' y u b Has Hy (Hxy (h_level hd)) Hcx Hcy Hu Hb).
Qed.
(** the level of a node carries a header *)
Lemma okh_level hs hd cs : hcons hs → okh hs (Br hd (cs : list (dd T))) →
  ∃ hd', hd' ∈ hs ∧ h_level hd' = h_level hd ∧ h_edges hd' = length cs.
Proof.
  intros Hc Ho. destruct (list_find (λ hd', h_level hd' = h_level hd) hs) as [[i hd']|] eqn:Hf.
  - apply list_find_Some in Hf as (Hi & Hl & _). apply elem_of_list_lookup_2 in Hi. exists hd'. sp; try done.
    rewrite (Eof_edges hs (λ _, 0) hd' Hc Hi), Hl. specialize (Ho (λ _, 0)). by apply okdd_br in Ho as [-> _].
  - exfalso. pose proof (Ho (λ _, 0)) as [H0 _]%okdd_br. pose proof (Ho (λ _, 1)) as [H1 _]%okdd_br.
    unfold Eof in H0, H1. rewrite Hf in H0, H1. lia.
Qed.
Lemma okh_kid hs hd cs i c : okh hs (Br hd (cs : list (dd T))) → cs !! i = Some c → rank c ≤ h_level hd ∧ okh hs c.
Proof.
  intros Ho Hi. split; [|intros ρ]; [specialize (Ho (λ _, 0))|specialize (Ho ρ)];
    apply okdd_br in Ho as [_ Ho]; rewrite Forall_lookup in Ho; by eapply Ho.
Qed.

Lemma monot_chain hs d : hcons hs → okh hs d → monot hs d → chain hs d.
Proof.
  intros Hc. induction d as [t|hd cs IH] using dd_ind'; intros Ho Hm; [done|].
  destruct (okh_level hs hd cs Hc Ho) as (hd' & Hin & Hl & He).
  assert (Hev : ∀ i c x, cs !! i = Some c → vokh hs x →
    vokh hs (upd x (h_level hd) i) ∧ eval (upd x (h_level hd) i) (Br hd cs) = eval x c).
  { intros i c x Hi Hv. destruct (okh_kid hs hd cs i c Ho Hi) as [Hk Hoc]. split.
    - rewrite <- Hl. apply vokh_upd; try done. rewrite He. by eapply lookup_lt_Some.
    - rewrite eval_br, upd_same, Hi. cbn. by apply (okh_upd hs). }
  apply chain_br. split.
  - intros i c c' Hi Hi' x Hv. destruct (okh_kid hs hd cs _ c Ho Hi) as [_ Hoc].
    destruct (okh_kid hs hd cs _ c' Ho Hi') as [_ Hoc'].
    destruct (okh_total hs c x Hoc Hv) as [a Ha]. destruct (okh_total hs c' x Hoc' Hv) as [b Hb].
    exists a, b. sp; try done. destruct (Hev i c x Hi Hv) as [V1 E1]. destruct (Hev (S i) c' x Hi' Hv) as [V2 E2].
    eapply (Hm _ _ a b V1 V2); [|congruence|congruence]. intros l. unfold upd. destruct (decide _); lia.
  - apply Forall_lookup. intros i c Hi. rewrite Forall_lookup in IH.
    destruct (okh_kid hs hd cs _ c Ho Hi) as [_ Hoc]. apply (IH i c Hi Hoc).
    intros x y a b Hx Hy Hxy Ha Hb. destruct (Hev i c x Hi Hx) as [V1 E1]. destruct (Hev i c y Hi Hy) as [V2 E2].
    eapply (Hm _ _ a b V1 V2); [|congruence|congruence]. intros l. unfold upd. destruct (decide _); [lia|done].
Qed.

(** for a monotone function the local condition says: minimal among the vectors with the same value *)
Lemma locmin_min hs d x t : hcons hs → okh hs d → monot hs d →
  locmin hs d x t ↔ vokh hs x ∧ eval x d = Some t ∧
    ∀ y, (∀ l, y l ≤ x l) → eval y d = Some t → ∀ l, y l = x l.
Proof.
  intros Hc Ho Hm. unfold locmin. split; intros (Hv & He & Hx); sp; try done.
  - intros y Hyx Hy l. destruct (decide (y l = x l)) as [|Hne]; [done|]. exfalso.
    assert (Hlt : y l < x l) by (specialize (Hyx l); lia).
    apply (Hx l); [lia|]. set (z := upd x l (pred (x l))).
    assert (Hyz : ∀ k, y k ≤ z k).
    { intros k. unfold z, upd. destruct (decide (k = l)) as [->|]; [lia|apply Hyx]. }
    assert (Hzx : ∀ k, z k ≤ x k). { intros k. unfold z, upd. destruct (decide (k = l)) as [->|]; lia. }
    assert (Vz : vokh hs z). { intros hd Hin. specialize (Hv hd Hin). specialize (Hzx (h_level hd)). lia. }
    assert (Vy : vokh hs y). { intros hd Hin. specialize (Hv hd Hin). specialize (Hyx (h_level hd)). lia. }
    destruct (okh_total hs d z Ho Vz) as [u Hu]. rewrite Hu. f_equal. apply le_anti.
    + by eapply (Hm z x u t).
    + by eapply (Hm y z t u).
  - intros l Hl Hlow. specialize (Hx (upd x l (pred (x l)))).
    assert (upd x l (pred (x l)) l = x l) as Hb; [|rewrite upd_same in Hb; lia].
    apply Hx; [|done]. intros k. unfold upd. destruct (decide (k = l)) as [->|]; lia.
Qed.
End fam.
