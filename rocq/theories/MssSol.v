(** Correctness of the generic subtraction and solution functions of mdd_minsol.rs (internal, stated on trees).
    In the mirrored functions ([top]) diagrams are read with every child list reversed, which turns the top edge
    into edge 0. *)
From Verif Require Import Prelude ComputeCache Arena Trees ArenaProofs Bdd ArenaMore Mdd NaryProofs MtMdd MtMdd2
  MddMinsol ZmddTrees MssTrees.

(** ** Reversed trees *)
Fixpoint drev {T} (d : dd T) : dd T :=
  match d with Leaf t => Leaf t | Br hd cs => Br hd (reverse (map drev cs)) end.
Lemma drev_drev {T} (d : dd T) : drev (drev d) = d.
Proof.
  induction d as [t|hd cs IH] using dd_ind'; [done|]. cbn. f_equal.
  change (reverse (drev <$> reverse (drev <$> cs)) = cs).
  rewrite <- fmap_reverse, reverse_involutive, <- list_fmap_compose.
  induction IH as [|c cs Hc _ IHcs]; [done|]. cbn. by rewrite Hc, IHcs.
Qed.
Lemma drev_rank {T} (d : dd T) : rank (drev d) = rank d.
Proof. by destruct d. Qed.
Lemma drev_ok {T} E (d : dd T) : okdd E d → okdd E (drev d).
Proof.
  induction d as [t|hd cs IH] using dd_ind'; [done|]. intros [Hl Hf]%okdd_br. cbn [drev]. apply okdd_br.
  rewrite reverse_length, map_length. split; [done|]. rewrite Forall_forall in IH, Hf. apply Forall_forall.
  intros c Hc. apply elem_of_reverse, elem_of_list_In, in_map_iff in Hc as (c' & <- & Hc'). apply elem_of_list_In in Hc'.
  rewrite drev_rank. destruct (Hf c' Hc') as [? ?]. split; [done|]. by apply IH.
Qed.

(** the vector read from the other end *)
Definition flipx (hs : list header) (x : nat → nat) : nat → nat := λ l,
  match list_find (λ hd, h_level hd = l) hs with Some p => h_edges p.2 - 1 - x l | None => x l end.
Lemma flipx_at hs x hd : hcons hs → hd ∈ hs → flipx hs x (h_level hd) = h_edges hd - 1 - x (h_level hd).
Proof.
  intros Hc Hin. unfold flipx. pose proof (Eof_edges hs x hd Hc Hin) as He. unfold Eof in He.
  destruct (list_find _ hs) as [[i hd']|] eqn:Hf; [by rewrite <- He|].
  apply list_find_None in Hf. rewrite Forall_forall in Hf. by destruct (Hf _ Hin).
Qed.
Lemma flipx_vokh hs x : hcons hs → vokh hs (flipx hs x).
Proof. intros Hc hd Hin. rewrite flipx_at by done. destruct Hc as [Hp _]. specialize (Hp hd Hin). lia. Qed.
Lemma flipx_flipx hs x : hcons hs → vokh hs x → zeq (flipx hs (flipx hs x)) x.
Proof.
  intros Hc Hv l. unfold flipx. destruct (list_find _ hs) as [[i hd']|] eqn:Hf; [|done].
  apply list_find_Some in Hf as (Hi & <- & _). apply elem_of_list_lookup_2 in Hi. cbn. specialize (Hv hd' Hi). lia.
Qed.
Lemma eval_zeq {T} ρ ρ' (d : dd T) : zeq ρ ρ' → eval ρ d = eval ρ' d.
Proof.
  intros He. induction d as [t|hd cs IH] using dd_ind'; [done|]. rewrite !eval_br, He.
  destruct (cs !! _) as [c|] eqn:Hc; [|done]. cbn. rewrite Forall_lookup in IH. by eapply IH.
Qed.
Lemma drev_okh {T} hs (d : dd T) : okh hs d → okh hs (drev d).
Proof. intros H ρ. apply drev_ok, H. Qed.
Lemma eval_drev {T} hs x (d : dd T) : hcons hs → okh hs d → vokh hs x → eval x (drev d) = eval (flipx hs x) d.
Proof.
  intros Hc. induction d as [t|hd cs IH] using dd_ind'; intros Ho Hv; [done|]. cbn [drev]. rewrite !eval_br.
  destruct (okh_level hs hd cs Hc Ho) as (hd' & Hin & Hl & He). specialize (Hv hd' Hin) as Hx.
  rewrite <- Hl, (flipx_at hs x hd' Hc Hin), He in *.
  assert (Hrl : reverse (map drev cs) !! x (h_level hd') = drev <$> (cs !! (length cs - 1 - x (h_level hd')))).
  { change (map drev cs) with (drev <$> cs). rewrite reverse_lookup by (by rewrite fmap_length).
    rewrite fmap_length, list_lookup_fmap. do 2 f_equal. lia. }
  rewrite Hrl. destruct (cs !! _) as [c|] eqn:Hcc; [|done]. cbn. rewrite Forall_lookup in IH.
  destruct (okh_kid hs hd cs _ c Ho Hcc) as [_ Hoc]. by eapply IH.
Qed.

(** ** Reading a diagram from the baseline end *)
Section read.
Context (top : bool).
Definition ch {A} (l : list A) : list A := if top then reverse l else l.
Definition fl {T} (d : dd T) : dd T := if top then drev d else d.
Definition lrepr {T} (a : arena T) (d : dd T) (id : nat) : Prop := repr a (fl d) id.

Lemma ch_ch {A} (l : list A) : ch (ch l) = l.
Proof. unfold ch. destruct top; [apply reverse_involutive|done]. Qed.
Lemma ch_length {A} (l : list A) : length (ch l) = length l.
Proof. unfold ch. destruct top; [apply reverse_length|done]. Qed.
Lemma ch_map {A B} (f : A → B) l : ch (map f l) = map f (ch l).
Proof. unfold ch. destruct top; [|done]. symmetry. apply (fmap_reverse f). Qed.
Lemma ch_elem {A} (l : list A) x : x ∈ ch l ↔ x ∈ l.
Proof. unfold ch. destruct top; [apply elem_of_reverse|done]. Qed.
Lemma ch_Forall2 {A B} (R : A → B → Prop) l k : Forall2 R l k → Forall2 R (ch l) (ch k).
Proof. unfold ch. destruct top; [apply Forall2_reverse|done]. Qed.
Lemma ch_base l : base_edge top l = ch l !! 0.
Proof. unfold ch, base_edge. destruct top; [|by destruct l].
  destruct l as [|x l] using rev_ind; [done|]. by rewrite last_snoc, reverse_snoc. Qed.
Lemma fl_fl {T} (d : dd T) : fl (fl d) = d.
Proof. unfold fl. destruct top; [apply drev_drev|done]. Qed.
Lemma fl_rank {T} (d : dd T) : rank (fl d) = rank d.
Proof. unfold fl. destruct top; [apply drev_rank|done]. Qed.
Lemma fl_okh {T} hs (d : dd T) : okh hs (fl d) ↔ okh hs d.
Proof.
  unfold fl. destruct top; [|done]. split; intros H.
  - rewrite <- (drev_drev d). by apply drev_okh.
  - by apply drev_okh.
Qed.
Lemma fl_leaf {T} (t : T) : fl (Leaf t) = Leaf t.
Proof. unfold fl. by destruct top. Qed.
Lemma fl_br {T} hd (cs : list (dd T)) : fl (Br hd cs) = Br hd (ch (map fl cs)).
Proof. unfold fl, ch. destruct top; [done|]. by rewrite map_id. Qed.

Lemma lrepr_leaf {T} (a : arena T) t id : lrepr a (Leaf t) id ↔ live a id ∧ ar_nodes a !! id = Some (Term t).
Proof. unfold lrepr. rewrite fl_leaf. apply repr_leaf. Qed.
Lemma Forall2_fl {T} (a : arena T) ds cs : Forall2 (repr a) (map fl ds) cs ↔ Forall2 (lrepr a) ds cs.
Proof. change (map fl ds) with (fl <$> ds). by rewrite Forall2_fmap_l. Qed.
Lemma lrepr_br {T} (a : arena T) hd ds id : lrepr a (Br hd ds) id ↔
  live a id ∧ ∃ h cs, ar_nodes a !! id = Some (NT h cs) ∧ ar_headers a !! h = Some hd ∧ Forall2 (lrepr a) ds (ch cs).
Proof.
  unfold lrepr at 1. rewrite fl_br, repr_br.
  assert (H : ∀ cs, Forall2 (repr a) (ch (map fl ds)) cs ↔ Forall2 (lrepr a) ds (ch cs)).
  { intros cs. rewrite <- Forall2_fl. split; intros H%ch_Forall2; by rewrite ch_ch in H. }
  by setoid_rewrite H.
Qed.
Lemma lrepr_fun {T} (a : arena T) d d' id : lrepr a d id → lrepr a d' id → d = d'.
Proof. intros H H'. rewrite <- (fl_fl d), <- (fl_fl d'). f_equal. by eapply repr_fun. Qed.
Lemma lrepr_mono {T} (a a' : arena T) d id : ext a a' → lrepr a d id → lrepr a' d id.
Proof. apply repr_mono. Qed.
Lemma lrepr_live {T} (a : arena T) d id : lrepr a d id → live a id.
Proof. apply repr_live. Qed.
Lemma lrepr_okh {T} (a : arena T) d id : awf Rn a → hcons (ar_headers a) → lrepr a d id → okh (ar_headers a) d.
Proof. intros Hw Hc H. apply fl_okh. by eapply repr_okh. Qed.
Lemma lrepr_fuel {T} (a : arena T) d id : lrepr a d id → rank d < ar_fuel a.
Proof. intros H. rewrite <- fl_rank. by eapply a_fuel_enough. Qed.
Lemma lrepr_kids {T} (a : arena T) hd ds id h cs : awf Rn a → hcons (ar_headers a) → lrepr a (Br hd ds) id →
  ar_nodes a !! id = Some (NT h cs) →
  ar_headers a !! h = Some hd ∧ Forall2 (lrepr a) ds (ch cs) ∧ length cs = h_edges hd ∧ 0 < length cs.
Proof.
  intros Hw Hc Hr Hn. pose proof (lrepr_okh _ _ _ Hw Hc Hr) as Ho.
  apply lrepr_br in Hr as [_ (h' & cs' & Hn' & Hh & Hf)]. rewrite Hn in Hn'. injection Hn' as <- <-.
  sp; try done.
  - rewrite <- (ch_length cs), <- (Forall2_length _ _ _ Hf).
    specialize (Ho (λ _, 0)). apply okdd_br in Ho as [-> _]. symmetry. apply Eof_edges; [done|].
    by eapply elem_of_list_lookup_2.
  - rewrite <- (ch_length cs), <- (Forall2_length _ _ _ Hf).
    specialize (Ho (λ _, 0)). apply okdd_br in Ho as [-> _]. by apply Eof_pos.
Qed.

(** the reducing constructor commutes with reversal *)
Lemma mkrel_fl {T} hd (ds : list (dd T)) dr : mkrel hd (map fl (ch ds)) dr → mkrel hd ds (fl dr).
Proof.
  intros [[Hf Hne]|[Hn ->]].
  - left. split.
    + apply Forall_forall. intros d Hd. rewrite Forall_forall in Hf. rewrite (Hf (fl d)), fl_fl; [done|].
      apply elem_of_list_In, in_map, elem_of_list_In. by apply ch_elem.
    + intros ->. apply Hne. unfold ch. by destruct top.
  - right. split.
    + intros [c Hc]. apply Hn. exists (fl c). apply Forall_forall. intros d Hd.
      apply elem_of_list_In, in_map_iff in Hd as (d' & <- & Hd'). apply elem_of_list_In in Hd'. apply (proj1 (ch_elem _ _)) in Hd'.
      rewrite Forall_forall in Hc. by rewrite (Hc d' Hd').
    + rewrite fl_br, !ch_map, ch_ch, map_map. f_equal. rewrite <- (map_id ds) at 2.
      apply map_ext. intros. apply fl_fl.
Qed.

(** the order seen from the baseline end *)
Definition lle {T} (le : T → T → Prop) (a b : T) : Prop := if top then le b a else le a b.
Lemma below_fl {T} (le : T → T → Prop) hs (c c' : dd T) : hcons hs → okh hs c → okh hs c' →
  below le hs (fl c) (fl c') ↔ below le hs c c'.
Proof.
  intros Hc Ho Ho'. unfold fl. destruct top; [|done]. split; intros H x Hv.
  - destruct (H (flipx hs x) (flipx_vokh hs x Hc)) as (a & b & Ha & Hb & Hle).
    rewrite (eval_drev hs), (eval_zeq _ x) in Ha by (try done; try apply flipx_flipx; try apply flipx_vokh; done).
    rewrite (eval_drev hs), (eval_zeq _ x) in Hb by (try done; try apply flipx_flipx; try apply flipx_vokh; done).
    by exists a, b.
  - destruct (H (flipx hs x) (flipx_vokh hs x Hc)) as (a & b & Ha & Hb & Hle).
    exists a, b. rewrite !(eval_drev hs) by done. done.
Qed.
Lemma ascend_ch {T} (le : T → T → Prop) hs (ds : list (dd T)) : hcons hs → Forall (okh hs) ds →
  ascend le hs (ch (map fl ds)) ↔ ascend (lle le) hs ds.
Proof.
  intros Hc Ho. rewrite Forall_lookup in Ho.
  assert (Hmap : ascend le hs (ch (map fl ds)) ↔ ∀ i c c', ch ds !! i = Some c → ch ds !! S i = Some c' → below le hs c c').
  { unfold ascend. rewrite ch_map. change (map fl (ch ds)) with (fl <$> ch ds).
    assert (Hok : ∀ i c, ch ds !! i = Some c → okh hs c).
    { intros i c Hi. apply elem_of_list_lookup_2 in Hi. apply (proj1 (ch_elem _ _)), elem_of_list_lookup in Hi as [j Hj]. by eapply Ho. }
    split; intros H i c c' Hi Hi'.
    - apply below_fl; eauto. eapply H; by rewrite list_lookup_fmap, ?Hi, ?Hi'.
    - rewrite list_lookup_fmap in Hi, Hi'. destruct (ch ds !! i) as [d|] eqn:Hd; [|done].
      destruct (ch ds !! S i) as [d'|] eqn:Hd'; [|done]. injection Hi as <-. injection Hi' as <-.
      apply below_fl; eauto. }
  rewrite Hmap. clear Hmap. unfold ascend, ch, below, lle. destruct top; [|done].
  split; intros H i c c' Hi Hi' x Hv.
  - pose proof (lookup_lt_Some _ _ _ Hi'). 
    destruct (H (length ds - S (S i)) c' c) with (x := x) as (a & b & ? & ? & ?); try done.
    + rewrite reverse_lookup by lia. replace (length ds - S (length ds - S (S i))) with (S i) by lia. done.
    + rewrite reverse_lookup by lia. replace (length ds - S (S (length ds - S (S i)))) with i by lia. done.
    + by exists b, a.
  - pose proof (lookup_lt_Some _ _ _ Hi') as Hlt. rewrite reverse_length in Hlt.
    rewrite reverse_lookup in Hi, Hi' by lia.
    destruct (H (length ds - S (S i)) c' c) with (x := x) as (a & b & ? & ? & ?); try done.
    + by replace (S (length ds - S (S i))) with (length ds - S i) by lia.
    + by exists b, a.
Qed.
End read.

(** ** The recursions *)
Lemma Forall2_pick {A B C} (P : A → B → C → Prop) l k : Forall2 (λ a b, ∃ c, P a b c) l k →
  ∃ cs, length cs = length l ∧ ∀ i a b c, l !! i = Some a → k !! i = Some b → cs !! i = Some c → P a b c.
Proof.
  induction 1 as [|a b l k (c & Hc) _ (cs & Hl & H)]; [by exists []|].
  exists (c :: cs). split; [cbn; lia|]. intros [|i] a' b' c'; cbn.
  - by intros [= <-] [= <-] [= <-].
  - apply H.
Qed.

Lemma tail_length {A} (l : list A) : length (tail l) = length l - 1.
Proof. destruct l; cbn; lia. Qed.
Lemma ch_zip top {A B} (l : list A) (k : list B) : length l = length k → ch top (zip l k) = zip (ch top l) (ch top k).
Proof.
  intros H. unfold ch. destruct top; [|done]. revert k H.
  induction l as [|a l IH]; intros [|b k] H; try done. injection H as H. cbn [zip_with].
  rewrite !reverse_cons, IH by done. rewrite zip_with_app; [done|by rewrite !reverse_length].
Qed.

Section sol.
Context {S T : Type} (F : forest S T) (top : bool) (warm_of : nat → nat → node T → node T → warm)
  (leaf_of : nat → T → nat) (o : T → option T) (le : T → T → Prop) (listed : T → Prop)
  (wf : S → Prop) (stp : S → S → Prop) (det : dd T → Prop).
Notation ar := (fo_ar F).
Notation hs s := (ar_headers (ar s)).
Notation lrepr := (lrepr top).
Notation ch := (ch top).
Notation fl := (fl top).
Notation lle := (lle top le).
Context
  (wf_ar : ∀ s, wf s → awf Rn (ar s) ∧ hcons (hs s))
  (stp_refl : ∀ s, wf s → stp s s)
  (stp_trans : ∀ s s' s'', stp s s' → stp s' s'' → stp s s'')
  (stp_ok : ∀ s s', stp s s' → wf s' ∧ ext (ar s) (ar s') ∧ hs s' = hs s)
  (mk_ok : ∀ s h hd ns ds, wf s → hs s !! h = Some hd → length ns = h_edges hd → Forall2 (repr (ar s)) ds ns →
     Forall (λ d, rank d ≤ h_level hd) ds →
     ∃ s' r dr, fo_mk F s h ns = (s', r) ∧ stp s s' ∧ repr (ar s') dr r ∧ mkrel hd ds dr)
  (det_kid : ∀ hd ds i d, det (Br hd ds) → ds !! i = Some d → det d)
  (det_fl : ∀ d, det d → det (fl d))
  (meet_ok : ∀ s a b da db, wf s → repr (ar s) da a → repr (ar s) db b → det da → det db →
     ∃ s' r, fo_meet F s a b = Some (s', r) ∧ stp s s' ∧ (r = a ↔ below le (hs s) da db))
  (leaf_ok : ∀ s id t, wf s → repr (ar s) (Leaf t) id →
     ∃ l, repr (ar s) (Leaf l) (leaf_of id t) ∧ ∀ t', o l = Some t' ↔ t' = t ∧ listed t)
  (arm_ok : ∀ s f g df dg fn gn, wf s → lrepr (ar s) df f → lrepr (ar s) dg g →
     ar_nodes (ar s) !! f = Some fn → ar_nodes (ar s) !! g = Some gn → disj o dg →
     match warm_of f g fn gn with
     | WRet x => ∃ dr, lrepr (ar s) dr x ∧ rank dr ≤ rank dg ∧ wspec o df dg dr ∧ disj o dr
     | WBase => ∃ hd ds, df = Br hd ds ∧ rank dg = 0
     | WMap => rank df = 0 ∧ ∃ hd ds, dg = Br hd ds
     | WLevel => (∃ hd ds, df = Br hd ds) ∧ ∃ hd ds, dg = Br hd ds
     end)
  (le_refl : ∀ a, le a a) (le_trans : ∀ a b e, le a b → le b e → le a e)
  (le_anti : ∀ a b, le a b → le b a → a = b).

(** create_node, read from the baseline end *)
Lemma lmk s h hd ns ds : wf s → hs s !! h = Some hd → length ns = h_edges hd → Forall2 (lrepr (ar s)) ds (ch ns) →
  Forall (λ d, rank d ≤ h_level hd) ds →
  ∃ s' r dr, fo_mk F s h ns = (s', r) ∧ stp s s' ∧ lrepr (ar s') dr r ∧ mkrel hd ds dr ∧ rank dr ≤ Datatypes.S (h_level hd).
Proof.
  intros Hw Hh Hl Hf Hr. apply (ch_Forall2 top) in Hf. rewrite (ch_ch top) in Hf.
  destruct (mk_ok s h hd ns (map fl (ch ds))) as (s' & r & dr & Heq & Hst & Hrep & Hmk); try done.
  - by apply Forall2_fl.
  - apply Forall_forall. intros d Hd. apply elem_of_list_In, in_map_iff in Hd as (d' & <- & Hd').
    rewrite fl_rank. rewrite Forall_forall in Hr. apply Hr, (ch_elem top), elem_of_list_In, Hd'.
  - apply mkrel_fl in Hmk. exists s', r, (fl dr). sp; try done.
    + unfold MssSol.lrepr. by rewrite fl_fl.
    + by eapply mkrel_rank.
Qed.

Definition wpost (df dg dr : dd T) : Prop := wspec o df dg dr ∧ disj o dr ∧ rank dr ≤ rank dg.
Definition c2ok (a : arena T) (c2 : gmap (nat * nat) nat) : Prop :=
  ∀ f g r, c2 !! (f, g) = Some r → ∃ df dg dr, lrepr a df f ∧ lrepr a dg g ∧ lrepr a dr r ∧ wpost df dg dr.
Lemma c2ok_mono a a' c2 : ext a a' → c2ok a c2 → c2ok a' c2.
Proof.
  intros He H f g r Hr. destruct (H f g r Hr) as (df & dg & dr & ? & ? & ? & ?). exists df, dg, dr.
  sp; try done; by eapply lrepr_mono.
Qed.
Definition pst (x y : S * gmap (nat * nat) nat) : Prop := stp x.1 y.1 ∧ c2ok (ar y.1) y.2.

Lemma without_spec n : ∀ s c2 f g df dg, wf s → c2ok (ar s) c2 → lrepr (ar s) df f → lrepr (ar s) dg g → disj o dg →
  rank df `max` rank dg < n →
  ∃ s' c2' r dr, without_f F top warm_of n (s, c2) f g = Some ((s', c2'), r) ∧ stp s s' ∧ c2ok (ar s') c2' ∧
    lrepr (ar s') dr r ∧ wpost df dg dr.
Proof.
  induction n as [|n IH]; intros s c2 f g df dg Hw H2 Hf Hg Hd Hn; [lia|]. cbn [without_f fst snd].
  destruct (c2 !! (f, g)) as [x|] eqn:Hhit.
  { destruct (H2 _ _ _ Hhit) as (df' & dg' & dr & Hf' & Hg' & Hr & Hp).
    rewrite (lrepr_fun _ _ _ _ _ Hf Hf'), (lrepr_fun _ _ _ _ _ Hg Hg'). exists s, c2, x, dr. sp; try done. by apply stp_refl. }
  destruct (wf_ar s Hw) as [Hwf Hc].
  destruct (live_lookup _ _ (lrepr_live _ _ _ _ Hf)) as [fn Hfn].
  destruct (live_lookup _ _ (lrepr_live _ _ _ _ Hg)) as [gn Hgn].
  rewrite Hfn, Hgn. cbn [mbind option_bind].
  pose proof (lrepr_okh _ _ _ _ Hwf Hc Hf) as Of. pose proof (lrepr_okh _ _ _ _ Hwf Hc Hg) as Og.
  (* storing the result *)
  assert (Hfin : ∀ (R : option ((S * gmap (nat * nat) nat) * nat)),
    (∃ s' c2' r dr, R = Some ((s', c2'), r) ∧ stp s s' ∧ c2ok (ar s') c2' ∧ lrepr (ar s') dr r ∧ wpost df dg dr) →
    ∃ s' c2' r dr, ('(st, result) ← R; Some ((st.1, <[(f, g) := result]> st.2), result)) = Some ((s', c2'), r) ∧
      stp s s' ∧ c2ok (ar s') c2' ∧ lrepr (ar s') dr r ∧ wpost df dg dr).
  { intros R (s' & c2' & r & dr & -> & Hst & H2' & Hr & Hp). cbn [mbind option_bind fst snd].
    exists s', (<[(f, g):=r]> c2'), r, dr. sp; try done.
    intros f' g' r' Hk. destruct (decide ((f, g) = (f', g'))) as [[= <- <-]|Hne].
    - rewrite lookup_insert in Hk. injection Hk as <-. exists df, dg, dr. destruct (stp_ok _ _ Hst) as (_ & He & _).
      sp; try done; by eapply lrepr_mono.
    - rewrite lookup_insert_ne in Hk by done. by apply H2'. }
  apply Hfin. clear Hfin.
  (* following the baseline edge of [f] *)
  assert (Hbase : ∀ hd ds h fc, df = Br hd ds → rank dg ≤ h_level hd → fn = NT h fc →
    ∃ s' c2' r dr, (e ← base_edge top fc; without_f F top warm_of n (s, c2) e g) = Some ((s', c2'), r) ∧
      stp s s' ∧ c2ok (ar s') c2' ∧ lrepr (ar s') dr r ∧ wpost df dg dr).
  { intros hd ds h fc -> Hr ->. destruct (lrepr_kids _ _ _ _ _ _ _ Hwf Hc Hf Hfn) as (Hh & Hk & Hle & Hpos).
    rewrite (ch_base top).
    destruct (lookup_lt_is_Some_2 (ch fc) 0) as [e He]; [by rewrite ch_length|].
    destruct (Forall2_lookup_r _ _ _ _ _ Hk He) as (d0 & Hd0 & Hr0). rewrite He. cbn [mbind option_bind].
    destruct (okh_kid _ _ _ _ _ Of Hd0) as [Hk0 _]. cbn [rank] in Hn.
    destruct (IH s c2 e g d0 dg) as (s' & c2' & r & dr & Heq & Hst & H2' & Hrr & Hw0 & Hdr & Hrk); try done; [lia|].
    exists s', c2', r, dr. sp; try done. split; [|done].
    eapply (wspec_base o (Eof (hs s) (λ _, 0))); [apply Of|apply Og|done|done|done]. }
  (* visiting the children of [g] *)
  assert (Hover : ∀ hd ds h hd' ps, dg = Br hd ds → hs s !! h = Some hd' → h_level hd' = h_level hd →
    rank df ≤ Datatypes.S (h_level hd) → length ps = length ds →
    (∀ i p d, ch ps !! i = Some p → ds !! i = Some d →
       lrepr (ar s) (cof df (h_level hd) i) p.1 ∧ lrepr (ar s) d p.2) →
    ∃ s' c2' r dr, ('(st, ns) ← mapst (λ st p, without_f F top warm_of n st p.1 p.2) (s, c2) ps;
             let '(s, x) := fo_mk F st.1 h ns in Some ((s, st.2), x)) = Some ((s', c2'), r) ∧
      stp s s' ∧ c2ok (ar s') c2' ∧ lrepr (ar s') dr r ∧ wpost df dg dr).
  { intros hd ds h hd' ps -> Hh Hlv Hrf Hlp Hps.
    pose proof (proj1 (disj_br o hd ds) Hd) as [Hsd Hdk]. rewrite Forall_lookup in Hdk.
    assert (Hlen : length ds = h_edges hd').
    { specialize (Og (λ _, 0)). apply okdd_br in Og as [-> _]. rewrite <- Hlv. symmetry. apply Eof_edges; [done|].
      by eapply elem_of_list_lookup_2. }
    assert (Hcr : ∀ i, i < length ds → rank (cof df (h_level hd) i) ≤ h_level hd).
    { intros i Hi. eapply cof_rank; [apply (Of (λ _, 0))| |done]. rewrite <- Hlv, <- (Eof_edges _ _ hd' Hc), <- Hlen; [done|].
      by eapply elem_of_list_lookup_2. }
    assert (Hm : match mapst (λ st p, without_f F top warm_of n st p.1 p.2) (s, c2) ps with
      | Some (s', bs) => pst (s, c2) s' ∧ Forall2 (λ (p : nat * nat) r, ∃ dr, lrepr (ar s'.1) dr r ∧
          ∃ d1 d2, lrepr (ar s'.1) d1 p.1 ∧ lrepr (ar s'.1) d2 p.2 ∧ wpost d1 d2 dr) ps bs
      | None => ∃ a : nat * nat, a ∈ ps ∧ False end).
    { apply (mapst_spec pst (λ (st : S * gmap (nat * nat) nat) (p : nat * nat) r, ∃ dr, lrepr (ar st.1) dr r ∧
          ∃ d1 d2, lrepr (ar st.1) d1 p.1 ∧ lrepr (ar st.1) d2 p.2 ∧ wpost d1 d2 dr) (λ _, False)).
      - intros x y z [H1 _] [H3 H4]. split; [by eapply stp_trans|done].
      - intros x y [H1 H3]. split; [|done]. apply stp_refl. by eapply stp_ok.
      - split; [by apply stp_refl|done].
      - intros x y p r _ [Hxy _] (dr & Hr & d1 & d2 & ? & ? & ?). destruct (stp_ok _ _ Hxy) as (_ & He & _).
        exists dr. split; [by eapply lrepr_mono|]. exists d1, d2. sp; try done; by eapply lrepr_mono.
      - intros [s' c'] p Hin [Hst H2']. cbn [fst snd] in *.
        apply (proj2 (ch_elem top ps p)), elem_of_list_lookup in Hin as [i Hi].
        destruct (lookup_lt_is_Some_2 ds i) as [d Hdi].
        { rewrite <- Hlp, <- (ch_length top ps). by eapply lookup_lt_Some. }
        destruct (Hps i p d Hi Hdi) as [Hr1 Hr2]. destruct (stp_ok _ _ Hst) as (Hw' & He & Hh').
        destruct (okh_kid _ _ _ _ _ Og Hdi) as [Hkd _].
        assert (Hrc : rank (cof df (h_level hd) i) ≤ h_level hd) by by apply Hcr; eapply lookup_lt_Some.
        cbn [rank] in Hn.
        destruct (IH s' c' p.1 p.2 (cof df (h_level hd) i) d) as (s'' & c'' & r & dr & -> & Hst2 & H2'' & Hr & Hp); try done.
        + by eapply lrepr_mono.
        + by eapply lrepr_mono.
        + by eapply Hdk.
        + lia.
        + destruct (stp_ok _ _ Hst2) as (_ & He2 & _). split; [done|]. exists dr. split; [done|].
          exists (cof df (h_level hd) i), d. sp; try done; (eapply lrepr_mono; [exact He2|]); by eapply lrepr_mono. }
    destruct (mapst _ (s, c2) ps) as [[[s1 c21] ns]|]; [|by destruct Hm as (? & _ & [])].
    destruct Hm as [[Hst1 H21] HF]. cbn [fst snd mbind option_bind] in *.
    destruct (stp_ok _ _ Hst1) as (Hw1 & He1 & Hh1).
    pose proof (Forall2_length _ _ _ HF) as Hlns.
    destruct (Forall2_pick _ _ _ (ch_Forall2 top _ _ _ HF)) as (rs & Hlrs & Hrs). rewrite ch_length in Hlrs.
    assert (Hrsp : ∀ i dr d, rs !! i = Some dr → ds !! i = Some d →
      wpost (cof df (h_level hd) i) d dr ∧ ∃ r, ch ns !! i = Some r ∧ lrepr (ar s1) dr r).
    { intros i dr d Hi Hdi.
      destruct (lookup_lt_is_Some_2 (ch ps) i) as [p Hp]; [rewrite ch_length, Hlp; by eapply lookup_lt_Some|].
      destruct (lookup_lt_is_Some_2 (ch ns) i) as [r Hr]; [rewrite ch_length, <- Hlns, Hlp; by eapply lookup_lt_Some|].
      destruct (Hrs i p r dr Hp Hr Hi) as (Hrep & d1 & d2 & Hd1 & Hd2 & Hpo).
      destruct (Hps i p d Hp Hdi) as [Hr1 Hr2].
      rewrite (lrepr_fun _ _ _ _ _ Hd1 (lrepr_mono _ _ _ _ _ He1 Hr1)) in Hpo.
      rewrite (lrepr_fun _ _ _ _ _ Hd2 (lrepr_mono _ _ _ _ _ He1 Hr2)) in Hpo. eauto. }
    assert (Hrs_ok : ∀ i dr, rs !! i = Some dr → rank dr ≤ h_level hd ∧ okh (hs s) dr).
    { intros i dr Hi. destruct (lookup_lt_is_Some_2 ds i) as [d Hdi]; [rewrite <- Hlp, <- Hlrs; by eapply lookup_lt_Some|].
      destruct (Hrsp i dr d Hi Hdi) as [(_ & _ & Hrk) (r & _ & Hr)].
      destruct (okh_kid _ _ _ _ _ Og Hdi) as [Hkd _]. split; [lia|]. rewrite <- Hh1.
      destruct (wf_ar s1 Hw1). by eapply lrepr_okh. }
    destruct (lmk s1 h hd' ns rs) as (s2 & r & dr & Heq & Hst2 & Hr & Hmk & Hrk); try done.
    - by rewrite Hh1.
    - lia.
    - apply Forall2_lookup. intros i. destruct (rs !! i) as [dr|] eqn:Hi.
      + destruct (lookup_lt_is_Some_2 ds i) as [d Hdi]; [rewrite <- Hlp, <- Hlrs; by eapply lookup_lt_Some|].
        destruct (Hrsp i dr d Hi Hdi) as [_ (r & -> & Hr)]. by constructor.
      + apply lookup_ge_None in Hi. rewrite (lookup_ge_None_2 (ch ns) i); [constructor|]. rewrite ch_length. lia.
    - apply Forall_lookup. intros i dr Hi. rewrite Hlv. by eapply Hrs_ok.
    - rewrite Heq. exists s2, c21, r, dr. destruct (stp_ok _ _ Hst2) as (_ & He2 & _). sp; try done.
      + by eapply stp_trans.
      + by eapply c2ok_mono.
      + destruct (wspec_over o (Eof (hs s) (λ _, 0)) hd hd' ds rs df dr) as [H1 H2']; try done.
        * lia.
        * apply Forall_lookup. intros i d Hi. destruct (Hrs_ok i d Hi) as [? Hok]. split; [done|apply Hok].
        * intros i c d Hi Hdi. destruct (Hrsp i d c Hdi Hi) as [(? & ? & _) _]. done.
        * split; [done|]. split; [done|]. cbn [rank]. lia. }
  pose proof (arm_ok s f g df dg fn gn Hw Hf Hg Hfn Hgn Hd) as Harm.
  destruct (warm_of f g fn gn) as [x| | |].
  - destruct Harm as (dr & Hr & Hrk & Hws & Hdj). exists s, c2, x, dr. sp; try done. by apply stp_refl.
  - destruct Harm as (hd & ds & -> & Hr0). pose proof Hf as (_ & h & fc & Hfn' & _)%lrepr_br.
    rewrite Hfn in Hfn'. injection Hfn' as ->. eapply Hbase; [done|lia|done].
  - destruct Harm as (Hr0 & hd & ds & ->). pose proof Hg as (_ & h & gc & Hgn' & _)%lrepr_br.
    rewrite Hgn in Hgn'. injection Hgn' as ->.
    destruct (lrepr_kids _ _ _ _ _ _ _ Hwf Hc Hg Hgn) as (Hh & Hk & Hle & Hpos).
    assert (Hlk : length gc = length ds) by (apply Forall2_length in Hk; by rewrite ch_length in Hk).
    destruct (Hover hd ds h hd (map (λ c, (f, c)) gc)) as (s' & c2' & r & dr & Heq & Hrest); try done; [lia|by rewrite map_length| |].
    { intros i p d Hp Hdi. rewrite ch_map in Hp. apply list_lookup_fmap_Some in Hp as (c & Hci & ->). cbn [fst snd].
      split; [|exact (list.Forall2_lookup_lr _ _ _ _ _ _ Hk Hdi Hci)]. rewrite cof_low; [done|lia]. }
    exists s', c2', r, dr. by destruct fn.
  - destruct Harm as [(hd & ds & ->) (hd2 & ds2 & ->)].
    pose proof Hf as (_ & h & fc & Hfn' & _)%lrepr_br. rewrite Hfn in Hfn'. injection Hfn' as ->.
    pose proof Hg as (_ & h2 & gc & Hgn' & _)%lrepr_br. rewrite Hgn in Hgn'. injection Hgn' as ->.
    destruct (lrepr_kids _ _ _ _ _ _ _ Hwf Hc Hg Hgn) as (Hh2 & Hk2 & Hle2 & Hpos2).
    destruct (lrepr_kids _ _ _ _ _ _ _ Hwf Hc Hf Hfn) as (Hh & Hk & Hle & Hpos).
    assert (Hlk : length fc = length ds) by (apply Forall2_length in Hk; by rewrite ch_length in Hk).
    assert (Hlk2 : length gc = length ds2) by (apply Forall2_length in Hk2; by rewrite ch_length in Hk2).
    unfold hdr_level. rewrite Hh, Hh2. cbn [fmap option_fmap option_map mbind option_bind].
    destruct (h_level hd2 <? h_level hd) eqn:Hlt; [|destruct (h_level hd <? h_level hd2) eqn:Hlt2].
    + apply Nat.ltb_lt in Hlt. eapply Hbase; [done| |done]. cbn [rank]. lia.
    + apply Nat.ltb_lt in Hlt2. eapply (Hover hd2 ds2 h2 hd2 (map (λ c, (f, c)) gc)); [done|done|done| |by rewrite map_length|].
      * cbn [rank]. lia.
      * intros i p d Hp Hdi. rewrite ch_map in Hp. apply list_lookup_fmap_Some in Hp as (c & Hci & ->). cbn [fst snd].
        split; [|exact (list.Forall2_lookup_lr _ _ _ _ _ _ Hk2 Hdi Hci)]. rewrite cof_low; [done|cbn [rank]; lia].
    + apply Nat.ltb_ge in Hlt, Hlt2. assert (Hlv : h_level hd = h_level hd2) by lia.
      assert (Hll : length fc = length gc).
      { rewrite Hlk, Hlk2. destruct (okh_level _ _ _ Hc Of) as (h1 & Hi1 & Hl1 & <-).
        destruct (okh_level _ _ _ Hc Og) as (h3 & Hi3 & Hl3 & <-). apply Hc; [done|done|lia]. }
      eapply (Hover hd2 ds2 h hd (zip fc gc)); [done|exact Hh|done|cbn [rank]; lia|rewrite zip_with_length; lia|].
      intros i p d Hp Hdi. rewrite ch_zip in Hp by done. apply lookup_zip_with_Some in Hp as (c1 & c3 & -> & Hc1 & Hc3).
      cbn [fst snd]. split; [|exact (list.Forall2_lookup_lr _ _ _ _ _ _ Hk2 Hdi Hc3)].
      rewrite <- Hlv. cbn [cof]. rewrite decide_True by done.
      destruct (Forall2_lookup_r _ _ _ _ _ Hk Hc1) as (d1 & Hd1 & Hr1). by rewrite Hd1.
Qed.

Lemma mono_spec : ∀ cs ds s, wf s → Forall2 (repr (ar s)) ds cs → Forall det ds →
  ∃ s' b, mono_f F s cs = Some (s', b) ∧ stp s s' ∧ (b = true ↔ ascend le (hs s) ds).
Proof.
  induction cs as [|a cs IH]; intros ds s Hw Hf Hdt; cbn [mono_f].
  { exists s, true. sp; [done|by apply stp_refl|]. split; [|done]. intros _ i c c' Hi.
    apply Forall2_length in Hf. apply lookup_lt_Some in Hi. cbn in Hf. lia. }
  destruct ds as [|da ds]; [by inversion Hf|]. apply Forall2_cons in Hf as [Ha Hf]. apply Forall_cons in Hdt as [Hda Hdt].
  destruct cs as [|b cs].
  { exists s, true. sp; [done|by apply stp_refl|]. split; [|done]. intros _ i c c' _ Hi.
    apply Forall2_length in Hf. apply lookup_lt_Some in Hi. cbn in Hf, Hi. lia. }
  destruct ds as [|db ds]; [by inversion Hf|]. pose proof Hf as [Hb _]%Forall2_cons. pose proof Hdt as [Hdb _]%Forall_cons.
  destruct (meet_ok s a b da db Hw Ha Hb Hda Hdb) as (s1 & r & Hm & Hst & Hiff). rewrite Hm. cbn [mbind option_bind].
  destruct (stp_ok _ _ Hst) as (Hw1 & He1 & Hh1).
  destruct (r =? a) eqn:Hra.
  - apply Nat.eqb_eq in Hra.
    destruct (IH (db :: ds) s1 Hw1) as (s2 & bb & Hgo & Hst2 & Hb2).
    { eapply Forall2_impl; [exact Hf|]. intros. by eapply repr_mono. }
    { done. }
    exists s2, bb. sp; [exact Hgo|by eapply stp_trans|]. rewrite Hb2, Hh1. split.
    + intros Has [|i] c c' Hi Hi'; cbn in Hi, Hi'; [|by eapply Has].
      injection Hi as <-. injection Hi' as <-. by apply Hiff.
    + intros Has i c c' Hi Hi'. by apply (Has (Datatypes.S i)).
  - apply Nat.eqb_neq in Hra. exists s1, false. sp; [done|done|]. split; [done|]. intros Has. exfalso. apply Hra, Hiff.
    by apply (Has 0).
Qed.

Lemma lle_refl a : lle a a.
Proof. unfold MssSol.lle. by destruct top. Qed.
Lemma lle_trans a b e : lle a b → lle b e → lle a e.
Proof. unfold MssSol.lle. destruct top; intros; by eapply le_trans. Qed.
Lemma lle_anti a b : lle a b → lle b a → a = b.
Proof. unfold MssSol.lle. destruct top; intros; by apply le_anti. Qed.

Lemma nbr_ch (cs : list nat) i c p : ch (zip cs (sol_nbr top cs)) !! i = Some (c, p) →
  ch cs !! i = Some c ∧ match i with 0 => p = None | Datatypes.S j => ∃ q, ch cs !! j = Some q ∧ p = Some q end.
Proof.
  unfold MssSol.ch, sol_nbr. destruct top.
  - intros Hi. pose proof (lookup_lt_Some _ _ _ Hi) as Hlt.
    rewrite reverse_length, zip_with_length, app_length, map_length, tail_length in Hlt. cbn [length] in Hlt.
    assert (Hz : length (zip cs (map Some (tail cs) ++ [None])) = length cs).
    { rewrite zip_with_length, app_length, map_length, tail_length. cbn [length]. lia. }
    rewrite reverse_lookup, Hz in Hi by lia.
    apply lookup_zip_with_Some in Hi as (c' & p' & [= <- <-] & Hc & Hp). rewrite reverse_lookup by lia. split; [done|].
    destruct i as [|j].
    + rewrite lookup_app_r in Hp by (rewrite map_length, tail_length; lia).
      rewrite map_length, tail_length in Hp. replace (length cs - 1 - (length cs - 1)) with 0 in Hp by lia. by injection Hp as <-.
    + rewrite lookup_app_l in Hp by (rewrite map_length, tail_length; lia).
      apply list_lookup_fmap_Some in Hp as (q & Hq & ->). exists q. split; [|done].
      rewrite lookup_tail in Hq. rewrite reverse_lookup by lia.
      by replace (length cs - Datatypes.S j) with (Datatypes.S (length cs - Datatypes.S (Datatypes.S j))) by lia.
  - intros Hi. apply lookup_zip_with_Some in Hi as (c' & p' & [= <- <-] & Hc & Hp). split; [done|].
    destruct i as [|j]; cbn in Hp; [by injection Hp as <-|].
    apply list_lookup_fmap_Some in Hp as (q & Hq & ->). by exists q.
Qed.
Lemma nbr_len (cs : list nat) : 0 < length cs → length (zip cs (sol_nbr top cs)) = length cs.
Proof.
  intros H. rewrite zip_with_length. unfold sol_nbr. destruct top.
  - rewrite app_length, map_length, tail_length. cbn [length]. lia.
  - cbn [length]. rewrite map_length. lia.
Qed.

Section headers.
Context (H : list header).
Definition spost (dc dr : dd T) : Prop :=
  chain lle H dc ∧ solspec o H listed dc dr ∧ disj o dr ∧ rank dr ≤ rank dc.
Definition c1ok (a : arena T) (c1 : gmap nat (option nat)) : Prop := ∀ f x, c1 !! f = Some x →
  ∃ df, lrepr a df f ∧ match x with Some r => ∃ dr, lrepr a dr r ∧ spost df dr | None => ¬ chain lle H df end.
Lemma c1ok_mono a a' c1 : ext a a' → c1ok a c1 → c1ok a' c1.
Proof.
  intros He Hc f x Hx. destruct (Hc f x Hx) as (df & Hf & Hx'). exists df. split; [by eapply lrepr_mono|].
  destruct x as [r|]; [|done]. destruct Hx' as (dr & Hr & Hp). exists dr. split; [by eapply lrepr_mono|done].
Qed.
Definition sok (st : sol_st) : Prop := wf st.1.1 ∧ hs st.1.1 = H ∧ c1ok (ar st.1.1) st.1.2 ∧ c2ok (ar st.1.1) st.2.
Definition sstp (x y : sol_st) : Prop := stp x.1.1 y.1.1 ∧ sok y.

Definition gpost (st : sol_st) (dc : dd T) (m : option nat) : Prop :=
  match m with Some r => ∃ dr, lrepr (ar st.1.1) dr r ∧ spost dc dr | None => ¬ chain lle H dc end.
Definition lpre (n : nat) (st : sol_st) (p : nat * option nat) : Prop :=
  ∃ dc, lrepr (ar st.1.1) dc p.1 ∧ (det dc ∧ rank dc < n) ∧ match p.2 with Some q => ∃ dq, lrepr (ar st.1.1) dq q | None => True end.
Definition lpost (st : sol_st) (p : nat * option nat) (v : nat) : Prop :=
  ∃ dc sc dv, lrepr (ar st.1.1) dc p.1 ∧ spost dc sc ∧ lrepr (ar st.1.1) dv v ∧
    match p.2 with Some q => ∃ dq, lrepr (ar st.1.1) dq q ∧ wpost dq sc dv | None => dv = sc end.

Lemma loop_spec n (G : sol_st → nat → option (sol_st * option nat)) :
  (∀ st c dc, sok st → lrepr (ar st.1.1) dc c → det dc → rank dc < n →
     ∃ st' m, G st c = Some (st', m) ∧ sstp st st' ∧ gpost st' dc m) →
  ∀ l st, sok st → Forall (lpre n st) l →
  ∃ st' res, sol_loop F top warm_of G st l = Some (st', res) ∧ sstp st st' ∧
    match res with
    | Some vs => Forall2 (lpost st') l vs
    | None => ∃ p dc, p ∈ l ∧ lrepr (ar st.1.1) dc p.1 ∧ ¬ chain lle H dc
    end.
Proof.
  intros HG. induction l as [|[c p] l IH]; intros st Hok Hl; cbn [sol_loop].
  { exists st, (Some []). sp; [done|split; [apply stp_refl, Hok|done]|constructor]. }
  apply Forall_cons in Hl as [(dc & Hc & (Hdt & Hrc) & Hp) Hl]. cbn [fst snd] in *.
  destruct (HG st c dc Hok Hc Hdt Hrc) as (st1 & m & Hg & [Hst1 Hok1] & Hpost). rewrite Hg. cbn [mbind option_bind].
  destruct (stp_ok _ _ Hst1) as (Hw1 & He1 & Hh1).
  destruct m as [m|].
  2:{ exists st1, None. sp; [done|done|]. exists (c, p), dc. sp; [left|done|done]. }
  destruct Hpost as (sc & Hm & Hs).
  (* subtraction of the neighbour *)
  assert (Hsub : ∃ st2 v dv,
    match p with
    | None => Some (st1, m)
    | Some q => '(w, v) ← without_f F top warm_of (ar_fuel (ar st1.1.1)) (st1.1.1, st1.2) q m; Some ((w.1, st1.1.2, w.2), v)
    end = Some (st2, v) ∧ sstp st1 st2 ∧ lrepr (ar st2.1.1) dv v ∧
    match p with Some q => ∃ dq, lrepr (ar st2.1.1) dq q ∧ wpost dq sc dv | None => dv = sc end).
  { destruct p as [q|].
    - destruct Hp as (dq & Hq). destruct Hok1 as (_ & HhH & Hc1 & Hc2).
      pose proof (lrepr_mono _ _ _ _ _ He1 Hq) as Hq1.
      destruct (without_spec (ar_fuel (ar st1.1.1)) st1.1.1 st1.2 q m dq sc) as (s2 & c2 & v & dv & Hwo & Hst2 & Hc2' & Hv & Hpo);
        try done.
      + apply Hs.
      + apply lrepr_fuel in Hq1, Hm. lia.
      + rewrite Hwo. cbn [mbind option_bind fst snd]. destruct (stp_ok _ _ Hst2) as (Hw2 & He2 & Hh2).
        exists (s2, st1.1.2, c2), v, dv. cbn [fst snd]. sp; try done.
        * split; [done|]. unfold sok; sp; cbn [fst snd]; try done; [by rewrite Hh2|by eapply c1ok_mono].
        * exists dq. split; [by eapply lrepr_mono|done].
    - exists st1, m, sc. sp; try done. split; [by apply stp_refl|done]. }
  destruct Hsub as (st2 & v & dv & Hsub & [Hst2 Hok2] & Hv & Hvp).
  match goal with |- context [@mbind _ _ _ _ _ ?E] => replace E with (Some (st2, v)) by (symmetry; exact Hsub) end.
  cbn [mbind option_bind].
  destruct (stp_ok _ _ Hst2) as (Hw2 & He2 & Hh2).
  assert (Hup : ∀ d id, lrepr (ar st.1.1) d id → lrepr (ar st2.1.1) d id).
  { intros d id Hd. eapply lrepr_mono; [exact He2|]. by eapply lrepr_mono. }
  destruct (IH st2 Hok2) as (st3 & res & Hgo & [Hst3 Hok3] & Hres).
  { eapply Forall_impl; [exact Hl|]. intros [c' p'] (d' & Hd' & (? & ?) & Hp'). exists d'. sp; [by apply Hup|done|done|].
    cbn [fst snd] in *. destruct p' as [q'|]; [|done]. destruct Hp' as (dq' & Hq'). exists dq'. by apply Hup. }
  rewrite Hgo. cbn [mbind option_bind]. destruct (stp_ok _ _ Hst3) as (Hw3 & He3 & Hh3).
  exists st3, (option_map (cons v) res). sp; [done| |].
  - split; [|done]. eapply stp_trans; [exact Hst1|]. by eapply stp_trans.
  - destruct res as [vs|]; cbn [option_map].
    + constructor; [|done]. exists dc, sc, dv. cbn [fst snd].
      sp; [by eapply lrepr_mono, Hup|done|by eapply lrepr_mono|]. destruct p as [q|]; [|done].
      destruct Hvp as (dq & Hq & Hw). exists dq. split; [by eapply lrepr_mono|done].
    + destruct Hres as (p' & d' & Hin & Hd' & Hn). rewrite Forall_forall in Hl.
      destruct (Hl p' Hin) as (d2 & Hd2 & _). rewrite (lrepr_fun _ _ _ _ _ Hd' (Hup _ _ Hd2)) in Hn.
      exists p', d2. sp; [by right|done|done].
Qed.

Lemma sol_spec n : ∀ st f df, sok st → lrepr (ar st.1.1) df f → det df → rank df < n →
  ∃ st' m, sol_f F top warm_of leaf_of n st f = Some (st', m) ∧ sstp st st' ∧ gpost st' df m.
Proof.
  induction n as [|n IH]; intros st f df Hok Hf Hdt Hn; [lia|]. cbn [sol_f].
  pose proof Hok as (Hw & HH & Hc1 & Hc2).
  destruct (st.1.2 !! f) as [x|] eqn:Hhit.
  { destruct (Hc1 f x Hhit) as (df' & Hf' & Hx). rewrite (lrepr_fun _ _ _ _ _ Hf' Hf) in Hx.
    exists st, x. sp; [done|split; [by apply stp_refl|done]|done]. }
  destruct (live_lookup _ _ (lrepr_live _ _ _ _ Hf)) as [nd Hnd]. rewrite Hnd. cbn [mbind option_bind].
  destruct (wf_ar _ Hw) as [Hwf Hcons].
  pose proof (lrepr_okh _ _ _ _ Hwf Hcons Hf) as Hokh. rewrite HH in Hokh, Hcons.
  assert (Hfin : ∀ (R : option (sol_st * option nat)),
    (∃ st' m, R = Some (st', m) ∧ sstp st st' ∧ gpost st' df m) →
    ∃ st' m, ('(st, result) ← R; Some ((st.1.1, <[f := result]> st.1.2, st.2), result)) = Some (st', m) ∧
      sstp st st' ∧ gpost st' df m).
  { intros R (st' & m & -> & [Hst (Hw' & HH' & Hc1' & Hc2')] & Hp). cbn [mbind option_bind].
    eexists _, m. split; [reflexivity|]. cbn [fst snd]. split; [|done]. split; [done|]. unfold sok; sp; cbn [fst snd]; try done.
    intros f' x Hx. destruct (decide (f = f')) as [<-|Hne].
    - rewrite lookup_insert in Hx. injection Hx as <-. exists df. split; [|done].
      destruct (stp_ok _ _ Hst) as (_ & He & _). by eapply lrepr_mono.
    - rewrite lookup_insert_ne in Hx by done. by apply Hc1'. }
  apply Hfin. clear Hfin. destruct df as [t|hd ds].
  { pose proof Hf as [_ Hn']%lrepr_leaf. rewrite Hnd in Hn'. injection Hn' as ->.
    destruct (leaf_ok _ f t Hw) as (l & Hl & Ho); [unfold MssSol.lrepr in Hf; by rewrite fl_leaf in Hf|].
    exists st, (Some (leaf_of f t)). sp; [done|split; [by apply stp_refl|done]|]. exists (Leaf l). split.
    - unfold MssSol.lrepr. by rewrite fl_leaf.
    - unfold spost. sp; try done. by apply sol_leaf. }
  pose proof Hf as (_ & h & cs & Hn' & _)%lrepr_br. rewrite Hnd in Hn'. injection Hn' as ->.
  destruct (lrepr_kids _ _ _ _ _ _ _ Hwf (eq_ind_r hcons Hcons HH) Hf Hnd) as (Hh & Hk & Hle & Hpos).
  assert (Hlk : length ds = length cs) by (apply Forall2_length in Hk; by rewrite ch_length in Hk).
  assert (Hdok : Forall (okh H) ds).
  { apply Forall_lookup. intros i d Hi. by destruct (okh_kid _ _ _ _ _ Hokh Hi). }
  destruct (mono_spec cs (ch (map fl ds)) st.1.1 Hw) as (s1 & b & Hmono & Hst1 & Hb).
  { rewrite ch_map. apply Forall2_fl. rewrite <- (ch_ch top cs). by apply ch_Forall2. }
  { apply Forall_forall. intros d Hd. apply (proj1 (ch_elem top _ _)), elem_of_list_In, in_map_iff in Hd as (d' & <- & Hd').
    apply elem_of_list_In, elem_of_list_lookup in Hd' as [i Hi]. by eapply det_fl, det_kid. }
  rewrite HH, ascend_ch in Hb by done. rewrite Hmono. cbn [mbind option_bind].
  destruct (stp_ok _ _ Hst1) as (Hw1 & He1 & Hh1). rewrite HH in Hh1.
  assert (Hok1 : sok (s1, st.1.2, st.2)).
  { unfold sok; sp; cbn [fst snd]; try done; [by eapply c1ok_mono|by eapply c2ok_mono]. }
  destruct b.
  2:{ exists (s1, st.1.2, st.2), None. sp; [done|done|]. cbn [gpost]. rewrite chain_br. intros [Ha _].
      by apply Hb in Ha. }
  pose proof (proj1 Hb eq_refl) as Has. clear Hb.
  rewrite (proj2 (Nat.eqb_neq (length cs) 0)) by lia. rewrite andb_false_r.
  assert (Hkl : ∀ i d, ds !! i = Some d → ∃ c, ch cs !! i = Some c ∧ lrepr (ar s1) d c).
  { intros i d Hi. destruct (Forall2_lookup_l _ _ _ _ _ Hk Hi) as (c & Hc & Hr). exists c. split; [done|by eapply lrepr_mono]. }
  assert (Hkr : ∀ i c, ch cs !! i = Some c → ∃ d, ds !! i = Some d ∧ lrepr (ar s1) d c).
  { intros i c Hi. destruct (Forall2_lookup_r _ _ _ _ _ Hk Hi) as (d & Hd & Hr). exists d. split; [done|by eapply lrepr_mono]. }
  destruct (loop_spec n (sol_f F top warm_of leaf_of n) IH (zip cs (sol_nbr top cs)) (s1, st.1.2, st.2))
    as (st2 & res & Hgo & [Hst2 Hok2] & Hres); [done| |].
  { apply Forall_forall. intros [c p] Hin. apply (proj2 (ch_elem top _ _)), elem_of_list_lookup in Hin as [i Hi].
    apply nbr_ch in Hi as [Hci Hp]. destruct (Hkr i c Hci) as (d & Hd & Hr). exists d. cbn [fst snd].
    destruct (okh_kid _ _ _ _ _ Hokh Hd) as [Hrk _]. cbn [rank] in Hn. sp; [done|by eapply det_kid|lia|].
    destruct i as [|j]; [by rewrite Hp|]. destruct Hp as (q & Hq & ->). destruct (Hkr j q Hq) as (d' & _ & Hr'). eauto. }
  rewrite Hgo. cbn [mbind option_bind]. cbn [fst snd] in *.
  assert (Hst02 : stp st.1.1 st2.1.1) by by eapply stp_trans.
  destruct res as [vs|].
  2:{ exists st2, None. sp; [done|done|]. cbn [gpost]. destruct Hres as ([c p] & dc & Hin & Hdc & Hnc). cbn [fst snd] in *.
      apply (proj2 (ch_elem top _ _)), elem_of_list_lookup in Hin as [i Hi]. apply nbr_ch in Hi as [Hci _].
      destruct (Hkr i c Hci) as (d & Hd & Hr). rewrite (lrepr_fun _ _ _ _ _ Hdc Hr) in Hnc.
      rewrite chain_br. intros [_ Hall]. rewrite Forall_lookup in Hall. by eapply Hnc, Hall. }
  destruct (stp_ok _ _ Hst2) as (Hw2 & He2 & Hh2). pose proof Hok2 as (_ & HH2 & Hc12 & Hc22).
  pose proof (Forall2_length _ _ _ Hres) as Hlv. rewrite nbr_len in Hlv by done.
  assert (Hres' : Forall2 (λ p v, ∃ q : dd T * dd T * dd T, lrepr (ar st2.1.1) q.1.1 p.1 ∧ spost q.1.1 q.1.2 ∧ lrepr (ar st2.1.1) q.2 v ∧
    match p.2 with Some x => ∃ dq, lrepr (ar st2.1.1) dq x ∧ wpost dq q.1.2 q.2 | None => q.2 = q.1.2 end)
    (zip cs (sol_nbr top cs)) vs).
  { eapply Forall2_impl; [exact Hres|]. intros p v (dc & sc & dv & Hr). by exists (dc, sc, dv). }
  apply (ch_Forall2 top) in Hres'. destruct (Forall2_pick _ _ _ Hres') as (qs & Hlq & Hqs).
  rewrite ch_length, nbr_len in Hlq by done.
  assert (Hq : ∀ i q, qs !! i = Some q → ds !! i = Some q.1.1 ∧ spost q.1.1 q.1.2 ∧
    (∃ v, ch vs !! i = Some v ∧ lrepr (ar st2.1.1) q.2 v) ∧ rank q.2 ≤ rank q.1.1 ∧
    match i with 0 => q.2 = q.1.2 | Datatypes.S j => ∃ d, ds !! j = Some d ∧ wpost d q.1.2 q.2 end).
  { intros i q Hi. pose proof (lookup_lt_Some _ _ _ Hi) as Hlt.
    destruct (lookup_lt_is_Some_2 (ch (zip cs (sol_nbr top cs))) i) as [[c p] Hp]; [rewrite ch_length, nbr_len by done; lia|].
    destruct (lookup_lt_is_Some_2 (ch vs) i) as [v Hv]; [rewrite ch_length; lia|].
    destruct (Hqs i (c, p) v q Hp Hv Hi) as (H1 & H2 & H3 & H4). cbn [fst snd] in *.
    apply nbr_ch in Hp as [Hci Hp]. destruct (Hkr i c Hci) as (d & Hd & Hr).
    rewrite (lrepr_fun _ _ _ _ _ (lrepr_mono _ _ _ _ _ He2 Hr) H1) in Hd. sp; try done; [eauto| |].
    - destruct H2 as (_ & _ & _ & Hrk). destruct p as [x|]; [|by rewrite H4]. destruct H4 as (dq & _ & _ & _ & Hr4). lia.
    - destruct i as [|j]; [by rewrite Hp in H4|]. destruct Hp as (x & Hx & ->). destruct H4 as (dq & Hdq & Hwq).
      destruct (Hkr j x Hx) as (d' & Hd' & Hr').
      rewrite (lrepr_fun _ _ _ _ _ (lrepr_mono _ _ _ _ _ He2 Hr') Hdq) in Hd'. eauto. }
  assert (Hvok : ∀ i q, qs !! i = Some q → rank q.2 ≤ h_level hd ∧ okh H q.2).
  { intros i q Hi. destruct (Hq i q Hi) as (Hd & _ & (v & _ & Hv) & Hrk & _).
    destruct (okh_kid _ _ _ _ _ Hokh Hd) as [Hkd _]. split; [lia|]. rewrite <- HH2. destruct (wf_ar _ Hw2). by eapply lrepr_okh. }
  destruct (lmk st2.1.1 h hd vs (map snd qs)) as (s3 & r & dr & Hmk & Hst3 & Hr & Hmr & Hrk); try done.
  - by rewrite HH2, <- HH.
  - lia.
  - apply Forall2_lookup. intros i. change (map snd qs) with (snd <$> qs). rewrite list_lookup_fmap.
    destruct (qs !! i) as [q|] eqn:Hi.
    + destruct (Hq i q Hi) as (_ & _ & (v & -> & Hv) & _). by constructor.
    + apply lookup_ge_None in Hi. rewrite (lookup_ge_None_2 (ch vs) i); [constructor|]. rewrite ch_length. lia.
  - apply Forall_lookup. intros i d Hi. apply list_lookup_fmap_Some in Hi as (q & Hqi & ->). by eapply Hvok.
  - rewrite Hmk. destruct (stp_ok _ _ Hst3) as (Hw3 & He3 & Hh3). eexists _, (Some r). split; [reflexivity|].
    split; [split; cbn [fst snd]; [by eapply stp_trans|]|].
    + unfold sok; sp; cbn [fst snd]; [done|by rewrite Hh3|by eapply c1ok_mono|by eapply c2ok_mono].
    + cbn [gpost fst snd]. exists dr. split; [done|].
      assert (Hch : chain lle H (Br hd ds)).
      { apply chain_br. split; [done|]. apply Forall_lookup. intros i d Hi.
        destruct (lookup_lt_is_Some_2 qs i) as [q Hqi]; [rewrite Hlq, <- Hlk; by eapply lookup_lt_Some|].
        destruct (Hq i q Hqi) as (Hd & Hsp & _). rewrite Hi in Hd. injection Hd as ->. apply Hsp. }
      destruct (sol_br o lle lle_refl lle_trans lle_anti H listed hd ds (map (λ q, q.1.2) qs) (map snd qs) dr) as [Hss Hsd]; try done.
      * apply elem_of_list_lookup. exists h. by rewrite <- HH.
      * rewrite map_length. lia.
      * rewrite map_length. lia.
      * intros i c s Hi Hsi. apply list_lookup_fmap_Some in Hsi as (q & Hqi & ->).
        destruct (Hq i q Hqi) as (Hd & Hsp & _). rewrite Hi in Hd. injection Hd as ->. split; apply Hsp.
      * intros s d Hsi Hdi. apply list_lookup_fmap_Some in Hsi as (q & Hqi & ->).
        apply list_lookup_fmap_Some in Hdi as (q' & Hqi' & ->). rewrite Hqi in Hqi'. injection Hqi' as <-.
        by destruct (Hq 0 q Hqi) as (_ & _ & _ & _ & ?).
      * intros i c s d Hi Hsi Hdi. apply list_lookup_fmap_Some in Hsi as (q & Hqi & ->).
        apply list_lookup_fmap_Some in Hdi as (q' & Hqi' & ->). rewrite Hqi in Hqi'. injection Hqi' as <-.
        destruct (Hq _ q Hqi) as (_ & _ & _ & _ & d' & Hd' & Hwp). rewrite Hi in Hd'. injection Hd' as <-. split; apply Hwp.
      * apply Forall_lookup. intros i d Hi. apply list_lookup_fmap_Some in Hi as (q & Hqi & ->). by eapply Hvok.
Qed.
End headers.

(** the recursion from empty tables: a result exactly when the function is monotone *)
Lemma sol_ok s f df : wf s → lrepr (ar s) df f → det df →
  ∃ s' m, sol F top warm_of leaf_of s f = Some (s', m) ∧ stp s s' ∧
    match m with
    | Some r => ∃ dr, lrepr (ar s') dr r ∧ rank dr ≤ rank df ∧ chain lle (hs s) df ∧ solspec o (hs s) listed df dr ∧ disj o dr
    | None => ¬ chain lle (hs s) df
    end.
Proof.
  intros Hw Hf Hdt. unfold sol.
  destruct (sol_spec (hs s) (ar_fuel (ar s)) (s, ∅, ∅) f df) as (st' & m & Hgo & [Hst _] & Hp); [|done|done|by eapply lrepr_fuel|].
  { unfold sok; sp; cbn [fst snd]; [done|done| |].
    - intros ? ?. by rewrite lookup_empty.
    - intros ? ? ?. by rewrite lookup_empty. }
  rewrite Hgo. cbn [mbind option_bind]. exists st'.1.1, m. sp; [done|done|]. destruct m as [r|]; [|done].
  destruct Hp as (dr & Hr & ? & ? & ? & ?). by exists dr.
Qed.
End sol.
