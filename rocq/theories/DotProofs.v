(** The Graphviz output is the drawing of the diagram, and reading it gives the function. *)
From stdpp Require Import strings.
From Verif Require Import Prelude Arena Trees ArenaProofs Bdd ArenaMore MtMdd Dot SpecDot SpecMss Zdd SpecZddMgr.

Lemma drawing_ext {T} (l l' : T → string) (h h' : T → bool) a root ls : (∀ t, l t = l' t) → (∀ t, h t = h' t) →
  drawing l h a root ls → drawing l' h' a root ls.
Proof.
  intros Hl Hh [Hnd Hls]. split; [done|].
  assert (Hs : ∀ c, shown h a c ↔ shown h' a c).
  { intros c. unfold shown. destruct (ar_nodes a !! c) as [[]|]; [|done..]. by rewrite Hh. }
  assert (Ha : ∀ p i c, arrow h a p i c ↔ arrow h' a p i c).
  { intros p i c. unfold arrow. by setoid_rewrite Hs. }
  assert (Hd : ∀ c, drawn h a root c ↔ drawn h' a root c).
  { intros c. split; (induction 1 as [|p i c _ IH Hc]; [constructor|]); (eapply dr_arrow; [exact IH|]); by apply Ha. }
  intros x. rewrite Hls. destruct x as [id sq s|p c i]; cbn [line_right]; rewrite Hd; [|by rewrite Ha].
  assert (caption l a id sq s ↔ caption l' a id sq s) as ->; [|done].
  unfold caption. destruct (ar_nodes a !! id) as [[]|]; [|done..]. by rewrite Hl.
Qed.
Lemma b_says t : b_tlabel t = bdd_says t. Proof. by destruct t. Qed.
Lemma z_says t : z_tlabel t = zdd_says t. Proof. by destruct t. Qed.
Lemma m_says t : m_tlabel t = mdd_says t. Proof. by destruct t. Qed.
Lemma v_says t : v_tlabel t = val_says t. Proof. by destruct t. Qed.
Lemma b_out t : b_hidden t = undet_out t. Proof. by destruct t. Qed.
Lemma z_out t : z_hidden t = all_but_one_out t. Proof. by destruct t. Qed.
Lemma v_out t : v_hidden t = val_out t. Proof. by destruct t. Qed.

Section dot.
Context {T : Type} (tlabel : T → string) (hidden : T → bool) (a : arena T).
Local Notation shown := (shown hidden a).
Local Notation arrow := (arrow hidden a).
Local Notation drawn := (drawn hidden a).
Local Notation caption := (caption tlabel a).
Local Notation line_right := (line_right tlabel hidden a).

Lemma shown_hides c nd : ar_nodes a !! c = Some nd → (shown c ↔ hides hidden nd = false).
Proof. intros Hc. unfold SpecDot.shown, hides. rewrite Hc. by destruct nd. Qed.
Lemma drawn_trans f p x : drawn f p → drawn p x → drawn f x.
Proof. intros Hp. induction 1 as [|q i c Hq IH Ha]; [done|]. by eapply dr_arrow. Qed.
Lemma drawn_inv f x : drawn f x → x = f ∨ ∃ i c, arrow f i c ∧ drawn c x.
Proof.
  induction 1 as [|p i c Hp IH Ha]; [by left|]. right. destruct IH as [->|(j & d & Hj & Hd)].
  - exists i, c. split; [done|]. constructor.
  - exists j, d. split; [done|]. by eapply dr_arrow.
Qed.

Context (RR : list nat → Prop) (Hwf : awf RR a).
Lemma kid_repr hd ds id h cs i c : repr a (Br hd ds) id → ar_nodes a !! id = Some (NT h cs) → cs !! i = Some c →
  ∃ dc, repr a dc c ∧ rank dc ≤ h_level hd.
Proof.
  intros Hd Hn Hc. pose proof Hd as (Hlv & h' & cs' & Hn' & Hh & HF)%repr_br. rewrite Hn in Hn'. injection Hn' as <- <-.
  destruct (Forall2_lookup_r _ _ _ _ _ HF Hc) as (dc & _ & Hdc). exists dc. split; [done|].
  destruct (aw_nt _ _ Hwf _ _ _ Hlv Hn) as (hd' & Hh' & _ & _ & Hall). rewrite Hh in Hh'. injection Hh' as <-.
  destruct (Forall_lookup_1 _ _ _ _ Hall Hc) as [_ Hb]. by apply (repr_rank_below a dc c) in Hb.
Qed.
Lemma arrow_rank d p i c : repr a d p → arrow p i c → ∃ dc, repr a dc c ∧ rank dc < rank d.
Proof.
  intros Hd (h & cs & Hn & Hc & _). destruct d as [t|hd ds].
  - apply repr_leaf in Hd as [_ Hl]. by rewrite Hn in Hl.
  - destruct (kid_repr _ _ _ _ _ _ _ Hd Hn Hc) as (dc & Hdc & Hr). exists dc. split; [done|]. cbn [rank]. lia.
Qed.
Lemma drawn_rank d f x : repr a d f → drawn f x → ∃ d', repr a d' x ∧ rank d' ≤ rank d.
Proof.
  intros Hd. induction 1 as [|p i c Hp IH Ha]; [eauto|]. destruct IH as (d1 & Hd1 & Hr).
  destruct (arrow_rank _ _ _ _ Hd1 Ha) as (dc & Hdc & ?). exists dc. split; [done|lia].
Qed.
Lemma arrow_acyclic d p i c : repr a d p → arrow p i c → ¬ drawn c p.
Proof.
  intros Hd Ha Hc. destruct (arrow_rank _ _ _ _ Hd Ha) as (dc & Hdc & Hlt). destruct (drawn_rank _ _ _ Hdc Hc) as (d' & Hd' & Hle).
  rewrite (repr_fun _ _ _ _ Hd' Hd) in Hle. lia.
Qed.

Definition subject (l : dline) : nat := match l with DNode id _ _ => id | DEdge p _ _ => p end.
Definition fact (l : dline) : Prop := match l with DNode id sq s => caption id sq s | DEdge p c i => arrow p i c end.
Definition closed (V : gset nat) : Prop := ∀ p i c, p ∈ V → arrow p i c → c ∈ V.
Lemma closed_drawn V p x : closed V → p ∈ V → drawn p x → x ∈ V.
Proof. intros HV Hp. induction 1; [done|]. by eapply HV. Qed.

Lemma dot_spec n : ∀ d id V out, repr a d id → rank d < n → closed V →
  ∃ V' new, dot_f tlabel hidden a n id (V, out) = Some (V', new ++ out) ∧ (∀ x, x ∈ V' ↔ x ∈ V ∨ drawn id x) ∧ NoDup new ∧
    ∀ l, l ∈ new ↔ subject l ∉ V ∧ drawn id (subject l) ∧ fact l.
Proof.
  induction n as [|n IH]; intros d id V out Hd Hr HV; [lia|]. cbn [dot_f]. destruct (decide (id ∈ V)) as [Hin|Hin].
  { exists V, []. sp; [done| |constructor|].
    - intros x. split; [auto|]. intros [?|?]; [done|]. by eapply closed_drawn.
    - intros l. split; [by intros ?%elem_of_nil|]. intros (Hn & Hdr & _). destruct Hn. by eapply closed_drawn. }
  destruct d as [t|hd ds].
  - apply repr_leaf in Hd as [Hlv Hn]. rewrite Hn. cbn [mbind option_bind].
    assert (Hna : ∀ i c, ¬ arrow id i c) by (intros i c (h & cs & Hn' & _); by rewrite Hn in Hn').
    assert (Hdr : ∀ x, drawn id x ↔ x = id).
    { intros x. split; [|intros ->; constructor]. intros [->|(i & c & Ha & _)]%drawn_inv; [done|]. by destruct (Hna i c). }
    exists ({[id]} ∪ V), [DNode id true (tlabel t)]. sp; [done| | |].
    + intros x. rewrite Hdr. set_solver.
    + apply NoDup_singleton.
    + intros l. rewrite elem_of_list_singleton, Hdr. split.
      * intros ->. cbn. unfold SpecDot.caption. by rewrite Hn.
      * intros (_ & Hs & Hf). destruct l as [id' sq s|p c i]; cbn in Hs, Hf; subst.
        -- unfold SpecDot.caption in Hf. rewrite Hn in Hf. by destruct Hf as [-> ->].
        -- by destruct (Hna i c).
  - pose proof Hd as (Hlv & h & cs & Hn & Hh & HF)%repr_br. rewrite Hn. cbn [mbind option_bind]. rewrite Hh. cbn [mbind option_bind].
    lazymatch goal with |- context [?g 0 cs (V, DNode id false (h_label hd) :: out)] => set (go := g) end.
    set (Inv := λ (i : nat) (V1 : gset nat) (acc : list dline), closed V1 ∧
      (∀ x, x ∈ V1 ↔ x ∈ V ∨ ∃ j c, j < i ∧ arrow id j c ∧ drawn c x) ∧ NoDup acc ∧
      ∀ l, l ∈ acc ↔ (subject l ∉ V ∧ subject l ∈ V1 ∧ fact l) ∨ l = DNode id false (h_label hd) ∨
                     ∃ c j, l = DEdge id c j ∧ j < i ∧ arrow id j c).
    assert (Hid : ∀ i V1 acc, Inv i V1 acc → id ∉ V1).
    { intros i V1 acc (_ & HV1 & _) H1. apply HV1 in H1 as [?|(j & c & _ & Ha & Hc)]; [done|]. by eapply arrow_acyclic. }
    assert (Hgo : ∀ rest i V1 acc, drop i cs = rest → i ≤ length cs → Inv i V1 acc →
      ∃ V2 acc2, go i rest (V1, acc ++ out) = Some (V2, acc2 ++ out) ∧ Inv (length cs) V2 acc2).
    { induction rest as [|x rest IHr]; intros i V1 acc Hdrop Hi HI.
      - exists V1, acc. split; [done|]. assert (length cs = i) as ->; [|done].
        pose proof (drop_length cs i) as Hl. rewrite Hdrop in Hl. cbn in Hl. lia.
      - assert (Hx : cs !! i = Some x) by (rewrite <- (Nat.add_0_r i), <- lookup_drop, Hdrop; done).
        assert (Hdrop' : drop (S i) cs = rest).
        { rewrite <- Nat.add_1_r, <- drop_drop, Hdrop. done. }
        assert (Hi' : S i ≤ length cs) by (by apply lookup_lt_Some in Hx).
        destruct (kid_repr _ _ _ _ _ _ _ Hd Hn Hx) as (dx & Hdx & Hrx).
        destruct (live_lookup a x (repr_live _ _ _ Hdx)) as [nx Hnx].
        change (go i (x :: rest)) with (λ st : gset nat * list dline, nx ← ar_nodes a !! x;
           if hides hidden nx then go (S i) rest st else '(visited, out) ← dot_f tlabel hidden a n x st; go (S i) rest (visited, DEdge id x i :: out)).
        cbv beta. rewrite Hnx. cbn [mbind option_bind]. destruct (hides hidden nx) eqn:Hhid.
        + apply IHr; [done|done|]. destruct HI as (Hc1 & HV1 & Hnd & Hel). unfold Inv.
          assert (Hna : ∀ c, ¬ arrow id i c).
          { intros c (h' & cs' & Hn' & Hc & Hs). rewrite Hn in Hn'. injection Hn' as <- <-. rewrite Hx in Hc. injection Hc as <-.
            apply (shown_hides _ _ Hnx) in Hs. congruence. }
          assert (Hlt : ∀ j c, arrow id j c → j < S i ↔ j < i).
          { intros j c Ha. split; [|lia]. intros Hj. destruct (decide (j = i)) as [->|]; [by destruct (Hna c)|lia]. }
          sp; [done| |done|].
          * intros y. rewrite HV1. split; (intros [?|(j & c & Hj & Ha & Hc)]; [by left|right; exists j, c; sp; try done; by eapply Hlt]).
          * intros l. rewrite Hel. split; (intros [?|[?|(c & j & -> & Hj & Ha)]]; [by left|by right; left|]; right; right; exists c, j; sp; try done; by eapply Hlt).
        + pose proof (Hid _ _ _ HI) as Hid1. destruct HI as (Hc1 & HV1 & Hnd & Hel).
          assert (Ha : arrow id i x) by (exists h, cs; sp; [done..|by apply (shown_hides _ _ Hnx)]).
          cbn [rank] in Hr.
          destruct (IH dx x V1 (acc ++ out) Hdx ltac:(lia) Hc1) as (V2 & new & Hrun & HV2 & Hnd2 & Hel2). rewrite Hrun. cbn [mbind option_bind].
          assert (Hlx : ∀ l, l ∈ new → subject l ≠ id).
          { intros l (_ & Hdl & _)%Hel2 Heq. rewrite Heq in Hdl. exact (arrow_acyclic _ _ _ _ Hd Ha Hdl). }
          destruct (IHr (S i) V2 (DEdge id x i :: new ++ acc) Hdrop' Hi') as (V3 & acc3 & Hr3 & HI3).
          * unfold Inv. sp.
            -- intros p j c Hp Hac. apply HV2. apply HV2 in Hp as [Hp|Hp]; [left; by eapply Hc1|right; by eapply dr_arrow].
            -- intros y. rewrite HV2, HV1. split.
               ++ intros [[?|(j & c & Hj & Hac & Hc)]|Hy]; [by left|right; exists j, c; sp; [lia|done..]|right; exists i, x; sp; [lia|done..]].
               ++ intros [?|(j & c & Hj & Hac & Hc)]; [by left; left|]. destruct (decide (j = i)) as [->|Hne].
                  ** right. destruct Hac as (h' & cs' & Hn' & Hc' & _). rewrite Hn in Hn'. injection Hn' as <- <-. rewrite Hx in Hc'. by injection Hc' as <-.
                  ** left. right. exists j, c. sp; [lia|done..].
            -- constructor.
               ++ intros [Hin1|Hin1]%elem_of_app; [by apply Hlx in Hin1|]. apply Hel in Hin1 as [(_ & Hs & _)|[?|(c & j & [= <- <-] & Hj & _)]]; [done|done|lia].
               ++ apply NoDup_app. sp; [done| |done]. intros l Hl Hl'. pose proof (Hlx l Hl). apply Hel2 in Hl as (Hs & _).
                  apply Hel in Hl' as [(_ & ? & _)|[->|(c & j & -> & _)]]; done.
            -- intros l. rewrite elem_of_cons, elem_of_app, Hel2, Hel. split.
               ++ intros [->|[(Hs & Hdl & Hf)|[(Hs & Hs1 & Hf)|[->|(c & j & -> & Hj & Hac)]]]].
                  ** right. right. exists x, i. sp; [done|lia|done].
                  ** left. sp; [|apply HV2; by right|done]. intros HsV. apply Hs, HV1. by left.
                  ** left. sp; [done|apply HV2; by left|done].
                  ** by right; left.
                  ** right. right. exists c, j. sp; [done|lia|done].
               ++ intros [(Hs & Hs2 & Hf)|[->|(c & j & -> & Hj & Hac)]].
                  ** apply HV2 in Hs2. destruct (decide (subject l ∈ V1)) as [H1|H1].
                     { right. right. left. done. }
                     destruct Hs2 as [?|Hdl]; [done|]. right. left. done.
                  ** by right; right; right; left.
                  ** destruct (decide (j = i)) as [->|Hne].
                     { left. destruct Hac as (h' & cs' & Hn' & Hc' & _). rewrite Hn in Hn'. injection Hn' as <- <-. rewrite Hx in Hc'. by injection Hc' as <-. }
                     right. right. right. right. exists c, j. sp; [done|lia|done].
          * exists V3, acc3. split; [|done]. rewrite <- Hr3. cbn [app]. by rewrite <- app_assoc. }
    destruct (Hgo cs 0 V [DNode id false (h_label hd)] (drop_0 cs) ltac:(lia)) as (V2 & acc2 & Hr2 & HI2).
    { unfold Inv. sp; [done| | |].
      - intros x. split; [auto|]. intros [?|(j & c & ? & _)]; [done|lia].
      - apply NoDup_singleton.
      - intros l. rewrite elem_of_list_singleton. split; [by intros ->; right; left|].
        intros [(? & ? & _)|[?|(c & j & _ & ? & _)]]; [done|done|lia]. }
    cbn [app] in Hr2. rewrite Hr2. cbn [mbind option_bind]. pose proof (Hid _ _ _ HI2) as Hid2. destruct HI2 as (Hc2 & HV2 & Hnd2 & Hel2).
    assert (Hal : ∀ j c, arrow id j c → j < length cs).
    { intros j c (h' & cs' & Hn' & Hc & _). rewrite Hn in Hn'. injection Hn' as <- <-. by eapply lookup_lt_Some. }
    assert (Hdr : ∀ x, drawn id x ↔ x = id ∨ ∃ j c, j < length cs ∧ arrow id j c ∧ drawn c x).
    { intros x. split.
      - intros [->|(j & c & Ha & Hc)]%drawn_inv; [by left|right; exists j, c; sp; [by eapply Hal|done..]].
      - intros [->|(j & c & _ & Ha & Hc)]; [constructor|]. eapply drawn_trans; [|exact Hc]. eapply dr_arrow; [constructor|exact Ha]. }
    exists ({[id]} ∪ V2), acc2. sp; [done| |done|].
    + intros x. rewrite elem_of_union, elem_of_singleton, HV2, Hdr. tauto.
    + intros l. rewrite Hel2, Hdr. split.
      * intros [(Hs & Hs2 & Hf)|[->|(c & j & -> & Hj & Ha)]].
        -- sp; [done| |done]. apply HV2 in Hs2 as [?|?]; [done|by right].
        -- cbn. sp; [done|by left|]. unfold SpecDot.caption. rewrite Hn. split; [done|]. by exists hd.
        -- cbn. sp; [done|by left|done].
      * intros (Hs & Hdl & Hf). destruct Hdl as [Heq|Hdl].
        -- right. destruct l as [id' sq s|p c j]; cbn in Heq, Hf; subst.
           ++ left. unfold SpecDot.caption in Hf. rewrite Hn in Hf. destruct Hf as [-> (hd' & Hh' & ->)]. rewrite Hh in Hh'. by injection Hh' as <-.
           ++ right. exists c, j. sp; [done|by eapply Hal|done].
        -- left. sp; [done| |done]. apply HV2. by right.
Qed.

Lemma dot_ok id : live a id → ∃ ls, dot_lines tlabel hidden a id = Some ls ∧ drawing tlabel hidden a id ls.
Proof.
  intros Hl. destruct (repr_exists _ _ _ Hwf Hl) as [d Hd].
  destruct (dot_spec (ar_fuel a) d id ∅ [] Hd (a_fuel_enough _ _ _ Hd)) as (V & new & Hrun & _ & Hnd & Hel); [by intros p i c ?%elem_of_empty|].
  exists (reverse new). unfold dot_lines. rewrite Hrun. cbn [mbind option_bind]. rewrite app_nil_r. split; [done|]. split.
  - by rewrite reverse_Permutation.
  - intros l. rewrite elem_of_reverse, Hel. destruct l; cbn; set_solver.
Qed.

(** ** Reading *)
Section read.
Context (root : nat) (ls : list dline) (Hls : drawing tlabel hidden a root ls).
Lemma line_iff l : l ∈ ls ↔ line_right root l.
Proof. apply Hls. Qed.
Lemma node_line id sq s : DNode id sq s ∈ ls ↔ drawn root id ∧ caption id sq s.
Proof. by rewrite line_iff. Qed.
Lemma edge_line p c i : DEdge p c i ∈ ls ↔ drawn root p ∧ arrow p i c.
Proof. by rewrite line_iff. Qed.
Definition result (id : nat) (t : T) : option string :=
  match ar_nodes a !! id with Some (Term _) => Some (tlabel t) | _ => if hidden t then None else Some (tlabel t) end.
Lemma read_ok e id t : drawn root id → named_value a e id t → ∀ o, reads ls e id o ↔ o = result id t.
Proof.
  intros Hdr Hv. revert Hdr. induction Hv as [id t Hn|id h cs hd c t Hn Hh Hc Hv IH]; intros Hdr o; unfold result; rewrite Hn.
  - split.
    + intros Hr. destruct Hr as [id s Hs|id x c o Hx _ _|id x Hx _].
      * apply node_line in Hs as [_ Hs]. unfold SpecDot.caption in Hs. rewrite Hn in Hs. by destruct Hs as [_ ->].
      * apply node_line in Hx as [_ Hx]. unfold SpecDot.caption in Hx. rewrite Hn in Hx. by destruct Hx.
      * apply node_line in Hx as [_ Hx]. unfold SpecDot.caption in Hx. rewrite Hn in Hx. by destruct Hx.
    + intros ->. apply rd_square, node_line. split; [done|]. unfold SpecDot.caption. by rewrite Hn.
  - assert (Hcap : ∀ sq s, caption id sq s ↔ sq = false ∧ s = h_label hd).
    { intros sq s. unfold SpecDot.caption. rewrite Hn, Hh. split; [intros [-> (? & [= <-] & ->)]; done|intros [-> ->]; split; [done|eauto]]. }
    assert (Harr : ∀ c', arrow id (e (h_label hd)) c' ↔ c' = c ∧ shown c).
    { intros c'. split.
      - intros (h' & cs' & Hn' & Hc' & Hs). rewrite Hn in Hn'. injection Hn' as <- <-. rewrite Hc in Hc'. injection Hc' as <-. done.
      - intros [-> Hs]. by exists h, cs. }
    assert (Hres : shown c → result c t = if hidden t then None else Some (tlabel t)).
    { unfold SpecDot.shown, result. inversion Hv as [c' t' Hn'|c' h' cs' hd' c2 t' Hn' Hh' Hc' Hv']; subst; rewrite Hn'; [|done]. by intros ->. }
    assert (Hun : ¬ shown c → hidden t = true).
    { unfold SpecDot.shown. inversion Hv as [c' t' Hn'|c' h' cs' hd' c2 t' Hn' Hh' Hc' Hv']; subst; rewrite Hn'; [by destruct (hidden t)|by intros []]. }
    split.
    + intros Hr. destruct Hr as [id s Hs|id x c' o Hx He Hr|id x Hx He].
      * apply node_line in Hs as [_ [? _]%Hcap]. done.
      * apply node_line in Hx as [_ [_ ->]%Hcap]. apply edge_line in He as [_ [-> Hs]%Harr]. rewrite <- (Hres Hs).
        apply IH; [|done]. eapply dr_arrow; [exact Hdr|]. by apply Harr.
      * apply node_line in Hx as [_ [_ ->]%Hcap]. rewrite Hun; [done|]. intros Hs. apply (He c), edge_line. split; [done|]. by apply Harr.
    + intros ->. assert (Hx : DNode id false (h_label hd) ∈ ls) by (apply node_line; split; [done|by apply Hcap]).
      assert (Hdec : shown c ∨ ¬ shown c).
      { unfold SpecDot.shown. destruct (ar_nodes a !! c) as [[t'|? ?]|]; [destruct (hidden t')|..]; auto. }
      destruct Hdec as [Hs|Hs].
      * rewrite <- (Hres Hs). eapply rd_follow; [exact Hx| |].
        -- apply edge_line. split; [done|]. by apply Harr.
        -- apply IH; [|done]. eapply dr_arrow; [exact Hdr|]. by apply Harr.
      * rewrite (Hun Hs). eapply rd_none; [exact Hx|]. intros c' [_ [_ ?]%Harr]%edge_line. done.
Qed.
End read.
End dot.

(** ** Paths of a family *)
Section fam.
Context (m : zdd) (Hwf : ∀ id h cs, live (z_ar m) id → ar_nodes (z_ar m) !! id = Some (NT h cs) → ∃ hd lo hi,
  ar_headers (z_ar m) !! h = Some hd ∧ cs = [lo; hi] ∧ live (z_ar m) lo ∧ live (z_ar m) hi).
Context (root : nat) (Hroot : live (z_ar m) root) (ls : list dline) (Hls : drawing z_tlabel z_hidden (z_ar m) root ls).
Local Notation a := (z_ar m).
Lemma drawn_live id : drawn z_hidden a root id → live a id.
Proof.
  induction 1 as [|p i c Hp IH (h & cs & Hn & Hc & _)]; [done|]. destruct (Hwf _ _ _ IH Hn) as (hd & lo & hi & _ & -> & Hlo & Hhi).
  destruct i as [|[|i]]; cbn in Hc; simplify_eq; done.
Qed.
Lemma has_shown id S : named_has m TOne id S → shown z_hidden a id.
Proof. unfold SpecDot.shown. intros Hs. inversion Hs as [? Hn|? ? ? ? ? Hn|? ? ? ? ? ? Hn]; subst; by rewrite Hn. Qed.
Lemma spells_ok id S : drawn z_hidden a root id → (spells ls id S ↔ named_has m TOne id S).
Proof.
  intros Hdr. split.
  - intros Hs. revert Hdr. induction Hs as [id Hx|id x c S Hx He Hs IH|id x c S Hx He Hs IH]; intros Hdr.
    + apply (node_line _ _ _ _ _ Hls) in Hx as [_ Hx]. unfold SpecDot.caption in Hx. destruct (ar_nodes a !! id) as [[t|]|] eqn:Hn; [|by destruct Hx|done].
      apply nh_term. rewrite Hn. destruct t; [by destruct Hx|done|by destruct Hx].
    + apply (edge_line _ _ _ _ _ Hls) in He as [_ Ha]. pose proof Ha as (h & cs & Hn & Hc & _).
      destruct (Hwf _ _ _ (drawn_live _ Hdr) Hn) as (hd & lo & hi & Hh & -> & _). cbn in Hc. injection Hc as ->.
      eapply nh_low; [exact Hn|]. apply IH. by eapply dr_arrow.
    + apply (edge_line _ _ _ _ _ Hls) in He as [_ Ha]. pose proof Ha as (h & cs & Hn & Hc & _).
      destruct (Hwf _ _ _ (drawn_live _ Hdr) Hn) as (hd & lo & hi & Hh & -> & _). cbn in Hc. injection Hc as ->.
      apply (node_line _ _ _ _ _ Hls) in Hx as [_ Hx]. unfold SpecDot.caption in Hx. rewrite Hn, Hh in Hx. destruct Hx as [_ (? & [= <-] & ->)].
      eapply nh_high; [exact Hn|exact Hh|]. apply IH. by eapply dr_arrow.
  - intros Hs. revert Hdr. induction Hs as [id Hn|id h lo hi S Hn Hs IH|id h lo hi hd S Hn Hh Hs IH]; intros Hdr.
    + apply sp_square. apply (node_line _ _ _ _ _ Hls). split; [done|]. unfold SpecDot.caption. by rewrite Hn.
    + destruct (Hwf _ _ _ (drawn_live _ Hdr) Hn) as (hd & lo' & hi' & Hh & [= <- <-] & _).
      assert (Ha : arrow z_hidden a id 0 lo) by (exists h, [lo; hi]; sp; [done..|by eapply has_shown]).
      eapply (sp_low _ _ (h_label hd) lo).
      * apply (node_line _ _ _ _ _ Hls). split; [done|]. unfold SpecDot.caption. rewrite Hn. split; [done|eauto].
      * apply (edge_line _ _ _ _ _ Hls). done.
      * apply IH. by eapply dr_arrow.
    + assert (Ha : arrow z_hidden a id 1 hi) by (exists h, [lo; hi]; sp; [done..|by eapply has_shown]).
      eapply (sp_high _ _ (h_label hd) hi).
      * apply (node_line _ _ _ _ _ Hls). split; [done|]. unfold SpecDot.caption. rewrite Hn. split; [done|eauto].
      * apply (edge_line _ _ _ _ _ Hls). done.
      * apply IH. by eapply dr_arrow.
Qed.
End fam.
