(** A dropped ZddMgr makes no difference to its handles while a reference to the arena is held. *)
From stdpp Require Import strings.
From Verif Require Import Prelude ComputeCache Arena Trees ArenaProofs ArenaMore Bdd BddProofs BssAlg BssMgr BssMgrProofs Iso SpecTrans Zdd ZddTrees ZddProofs SpecZdd
  ZddMain ZddAlg ZddMgr ZddLook ZddDet SpecTransZ TransZ LifeZ SpecLifeZ.

Global Set Default Goal Selector "!".

Definition yat_mgr (n : nat) (w : zmgr) : yworld := YWorld (Some (y_zdd w)) n (Some (yrest w)).
Definition yat_core (n : nat) (w : zmgr) : yworld := YWorld (Some (y_zdd w)) n None.
Lemma ywhole_rest w : ywhole (y_zdd w) (yrest w) = w.
Proof. by destruct w. Qed.
Lemma yslots_cons Sl i l : slots Sl (i :: l) = (f ← slot Sl i; fs ← slots Sl l; Some (f :: fs)).
Proof. done. Qed.

(** ** the manager is there *)
Lemma ygive_alive n w Sl t f g : yhgive Sl (yh_op (yat_mgr n w) t f g) = '(w', S', a) ← ygive Sl (y_op t w f g); Some (yat_mgr n w', S', a).
Proof.
  unfold yh_op, y_op, y_wrapped, y_wrap, ygive, yhgive, yh_rewrap. cbn [yat_mgr yo_core mbind option_bind].
  assert (E : ∀ r : option (zdd * nat), ('(o, f) ← ('(z, r) ← r; match yo_mgr (yh_pin (with_ycore (yat_mgr n w) z) r) with
      | Some g => z ← yo_core (yh_pin (with_ycore (yat_mgr n w) z) r); w ← y_maybe_gc (ywhole z g);
          Some (YWorld (Some (y_zdd w)) (yo_strong (yh_pin (with_ycore (yat_mgr n w) z) r)) (Some (yrest w)), r)
      | None => Some (yh_pin (with_ycore (yat_mgr n w) z) r, r) end); Some (o, Sl ++ [Some f], YDone)) =
    '(w', S', a) ← ('(w, r) ← ('(z, id) ← r; w ← y_maybe_gc (y_pin (with_zdd w z) id); Some (w, id)); Some (w, Sl ++ [Some r], YDone)); Some (yat_mgr n w', S', a)).
  { intros [[z r]|]; [|done]. cbn. unfold ywhole, y_pin, with_zdd. cbn. by destruct (y_maybe_gc _). }
  destruct t; apply E.
Qed.
Lemma yhdo_alive n w Sl c : y_of_node c → yhdo (yat_mgr n w) Sl c = '(w', S', a) ← ydo w Sl c; Some (yat_mgr n w', S', a).
Proof.
  intros Hc. destruct c as [| |x|l|o i j|i|i|i|i j|t i|ss i|m ss i|i|i|i|i|t| ]; try (by destruct Hc);
    cbn [yhdo ydo]; repeat (match goal with |- context [slot Sl ?i] => destruct (slot Sl i); cbn [mbind option_bind]; [|done] end);
    try (rewrite ygive_alive; done).
  - unfold yh_children, y_children. cbn [yat_mgr yo_core mbind option_bind]. destruct (ar_nodes _ !! _) as [[t|h cs]|]; cbn [mbind option_bind]; [done| |done].
    destruct (edges2 cs) as [[f0 f1]|]; done.
  - done.
  - done.
  - done.
  - unfold yh_look, ytell, yhtell, y_is. cbn [yat_mgr yo_core y_zdd mbind option_bind]. by destruct (ar_nodes _ !! _).
  - unfold yh_look, ytell, yhtell, y_count. cbn [yat_mgr yo_core y_zdd mbind option_bind]. by destruct (zdd_count _ _ _).
  - unfold yh_look, ytell, yhtell, y_extract. cbn [yat_mgr yo_core y_zdd mbind option_bind]. by destruct (zdd_extract _ _ _ _).
  - unfold yh_look, ytell, yhtell, y_size. cbn [yat_mgr yo_core y_zdd mbind option_bind]. by destruct (zdd_node_size _ _).
  - done.
  - done.
  - done.
Qed.
Lemma ycall_alive n w Sl c : ylstep (yat_mgr n w) Sl (YCall c) = '(w', S', a) ← ycaught w Sl c; Some (yat_mgr n w', S', a).
Proof.
  cbn [ylstep]. destruct (y_of_node c) eqn:Hc.
  - apply Is_true_true_2 in Hc. unfold ycaught. rewrite (yhdo_alive n w Sl c Hc). destruct (slots _ _); cbn [mbind option_bind]; [|done].
    by destruct (ydo w Sl c) as [[[? ?] ?]|].
  - cbn [yat_mgr yo_mgr yo_core mbind option_bind]. rewrite ywhole_rest. by destruct (ycaught w Sl c) as [[[? ?] ?]|].
Qed.

(** ** only the arena is there: as the manager with a threshold that is not reached *)
Lemma ygive_core n w Sl t f g : ∃ thr,
  yhgive Sl (yh_op (yat_core n w) t f g) = '(w', S', a) ← ygive Sl (y_op t (y_set_threshold w thr) f g); Some (yat_core n w', S', a).
Proof.
  assert (E : ∀ r : option (zdd * nat), ∃ thr, ('(o, f) ← ('(z, r) ← r; yh_rewrap (with_ycore (yat_core n w) z) r); Some (o, Sl ++ [Some f], YDone)) =
    '(w', S', a) ← ('(w, r) ← y_wrapped (y_set_threshold w thr) r; Some (w, Sl ++ [Some r], YDone)); Some (yat_core n w', S', a)).
  { intros [[z r]|]; [|by exists 0]. exists (S (zdd_live_node_count z)). unfold y_wrapped, y_wrap, yh_rewrap, y_maybe_gc. cbn [mbind option_bind y_pin with_zdd y_set_threshold y_zdd y_thr y_roots].
    rewrite (proj2 (Nat.ltb_lt _ _)) by lia. done. }
  unfold yh_op, y_op, ygive, yhgive. cbn [yat_core yo_core mbind option_bind y_set_threshold y_zdd]. destruct t; apply E.
Qed.
Lemma yhdo_core n w Sl c : y_of_node c → ∃ t, yhdo (yat_core n w) Sl c = '(w', S', a) ← ydo (y_set_threshold w t) Sl c; Some (yat_core n w', S', a).
Proof.
  intros Hc. destruct c as [| |x|l|o i j|i|i|i|i j|t i|ss i|m ss i|i|i|i|i|t| ]; try (by destruct Hc);
    cbn [yhdo ydo]; repeat (match goal with |- context [slot Sl ?i] => destruct (slot Sl i); cbn [mbind option_bind]; [|by exists 0] end).
  - destruct (ygive_core n w Sl o n0 n1) as [t E]. exists t. exact E.
  - exists 0. unfold yh_children, y_children. cbn [yat_core yo_core mbind option_bind y_set_threshold y_zdd]. destruct (ar_nodes _ !! _) as [[t|h cs]|]; cbn [mbind option_bind]; [done| |done].
    destruct (edges2 cs) as [[f0 f1]|]; done.
  - by exists 0.
  - by exists 0.
  - by exists 0.
  - exists 0. unfold yh_look, ytell, yhtell, y_is. cbn [yat_core yo_core y_zdd mbind option_bind y_set_threshold]. by destruct (ar_nodes _ !! _).
  - exists 0. unfold yh_look, ytell, yhtell, y_count. cbn [yat_core yo_core y_zdd mbind option_bind y_set_threshold]. by destruct (zdd_count _ _ _).
  - exists 0. unfold yh_look, ytell, yhtell, y_extract. cbn [yat_core yo_core y_zdd mbind option_bind y_set_threshold]. by destruct (zdd_extract _ _ _ _).
  - exists 0. unfold yh_look, ytell, yhtell, y_size. cbn [yat_core yo_core y_zdd mbind option_bind y_set_threshold]. by destruct (zdd_node_size _ _).
  - by exists 0.
  - by exists 0.
  - by exists 0.
Qed.
Lemma ycall_core n w Sl c : y_of_node c → ∃ t,
  ylstep (yat_core n w) Sl (YCall c) = '(w', S', a) ← ycaught (y_set_threshold w t) Sl c; Some (yat_core n w', S', a).
Proof.
  intros Hc. destruct (yhdo_core n w Sl c Hc) as [t E]. exists t. cbn [ylstep]. unfold ycaught. rewrite (Is_true_true_1 _ Hc), E.
  destruct (slots _ _); cbn [mbind option_bind]; [|done]. by destruct (ydo (y_set_threshold w t) Sl c) as [[[? ?] ?]|].
Qed.

(** ** nothing is left *)
Definition ynothing : yworld := YWorld None 0 None.
Lemma ycall_gone w Sl c : y_of_node c → ylstep ynothing Sl (YCall c) =
  if ylight c then '(w', S', a) ← ycaught w Sl c; Some (ynothing, S', a) else _ ← slots Sl (yused c); Some (ynothing, Sl, None).
Proof.
  intros Hc. cbn [ylstep]. rewrite (Is_true_true_1 _ Hc). unfold ycaught. destruct (ylight c) eqn:Hl.
  - destruct (slots _ _); cbn [mbind option_bind]; [|done].
    destruct c; try done; cbn [yhdo ydo]; repeat (match goal with |- context [slot Sl ?i] => destruct (slot Sl i); cbn [mbind option_bind]; [|done] end); done.
  - destruct (slots _ _); cbn [mbind option_bind]; [|done].
    destruct c; try done; cbn [yhdo]; repeat (match goal with |- context [slot Sl ?i] => destruct (slot Sl i); cbn [mbind option_bind]; [|done] end); done.
Qed.

(** ** the two runs side by side *)
Definition yplace (alive : bool) (k : nat) (w : zmgr) : yworld :=
  if alive then yat_mgr (S k) w else if 0 <? k then yat_core k w else ynothing.
Definition ylrel (p : yworld * list (option nat) * option yans) (q : bool * nat * zmgr * list (option nat) * option yans) : Prop :=
  ∃ w G, p.1.1 = yplace q.1.1.1.1 q.1.1.1.2 w ∧ ytwin w p.1.2 q.1.1.2 q.1.2 G ∧ p.2 = q.2.
Lemma ytwin_thr w1 S1 w2 S2 G t : ytwin w1 S1 w2 S2 G → ytwin (y_set_threshold w1 t) S1 w2 S2 G.
Proof. intros T. destruct (yhouse_tw _ _ _ _ _ T (YThreshold t) I) as (w' & [= <-] & T'). done. Qed.
Lemma ytwin_sym w1 S1 w2 S2 G : ytwin w1 S1 w2 S2 G → ytwin w2 S2 w1 S1 G.
Proof. intros [A1 A2 A3 A4 A5]. constructor; [done|done|by apply agree_sym|done|done]. Qed.
Lemma yslots_tw w1 S1 w2 S2 G l : ytwin w1 S1 w2 S2 G → is_Some (slots S1 l) ↔ is_Some (slots S2 l).
Proof.
  intros T. assert (H : ∀ i, is_Some (slot S1 i) ↔ is_Some (slot S2 i)).
  { intros i. pose proof (yslot_tw _ _ _ _ _ T i) as H. destruct (slot S1 i), (slot S2 i); try (by inversion H); split; intros [? ?]; try done; by eexists. }
  unfold slots. rewrite !mapM_is_Some, !Forall_forall. split; intros Hl i Hi; apply H; by apply Hl.
Qed.
Lemma ycaught_tw w1 S1 w2 S2 G c : ytwin w1 S1 w2 S2 G →
  osim (λ p q, (∃ G, ytwin p.1.1 p.1.2 q.1.1 q.1.2 G) ∧ p.2 = q.2) (ycaught w1 S1 c) (ycaught w2 S2 c).
Proof.
  intros T. unfold ycaught. pose proof (yslots_tw _ _ _ _ _ (yused c) T) as Hs.
  destruct (slots S1 (yused c)), (slots S2 (yused c)); cbn [mbind option_bind]; [| | |constructor].
  2: { destruct Hs as [H _]. destruct H as [? ?]; [by eexists|done]. }
  2: { destruct Hs as [_ H]. destruct H as [? ?]; [by eexists|done]. }
  constructor. destruct (decide (yhousekeeping c)) as [Hc|Hc].
  - destruct (yhouse_tw _ _ _ _ _ T c Hc) as (v1 & -> & T1). destruct (yhouse_tw _ _ _ _ _ (ytwin_sym _ _ _ _ _ T1) c Hc) as (v2 & -> & T2).
    split; [|done]. exists G. by apply ytwin_sym.
  - pose proof (ydo_tw _ _ _ _ _ T c Hc) as Hd. destruct Hd as [[[v1 T1] a1] [[v2 T2] a2] [[G' T'] Ha]|]; cbn in *; [subst|]; (split; [|done]); by eexists.
Qed.
Lemma ycaught_rel (P : zmgr → yworld) (alive : bool) (k : nat) w1 S1 w2 S2 G c : (∀ w, P w = yplace alive k w) → ytwin w1 S1 w2 S2 G →
  osim ylrel ('(w', S', a) ← ycaught w1 S1 c; Some (P w', S', a)) ('(w', S', a) ← ycaught w2 S2 c; Some (alive, k, w', S', a)).
Proof.
  intros HP T. pose proof (ycaught_tw _ _ _ _ _ c T) as Hs.
  destruct Hs as [[[v1 T1] a1] [[v2 T2] a2] [[G' T'] Ha]|]; [|constructor]. cbn in Ha, T'. subst. constructor. exists v1, G'. cbn. sp; [apply HP|done|done].
Qed.
Lemma ylstep_rel alive k w1 S1 w2 S2 G c : ytwin w1 S1 w2 S2 G → osim ylrel (ylstep (yplace alive k w1) S1 c) (ysstep alive k w2 S2 c).
Proof.
  intros T. destruct c as [c|i| |].
  - cbn [ysstep]. destruct alive; cbn [orb].
    { change (yplace true k w1) with (yat_mgr (S k) w1). rewrite (ycall_alive (S k) w1 S1 c). by apply (ycaught_rel (yat_mgr (S k)) true k w1 S1 w2 S2 G). }
    destruct (y_of_node c) eqn:Hc; cbn [andb].
    2: { unfold yplace. cbn [ylstep]. rewrite Hc. destruct (0 <? k); constructor. }
    pose proof (Is_true_true_2 _ Hc) as Hc'. unfold yowned. cbn [orb]. destruct (0 <? k) eqn:Hk; cbn [orb].
    { unfold yplace. rewrite Hk. destruct (ycall_core k w1 S1 c Hc') as [t ->]. apply (ycaught_rel (yat_core k) false k _ S1 w2 S2 G).
      - intros w. unfold yplace. by rewrite Hk.
      - by apply ytwin_thr. }
    unfold yplace. rewrite Hk. rewrite (ycall_gone w1 S1 c Hc'). destruct (ylight c).
    { apply (ycaught_rel (λ _, ynothing) false k w1 S1 w2 S2 G); [|done]. intros w. unfold yplace. by rewrite Hk. }
    pose proof (yslots_tw _ _ _ _ _ (yused c) T) as HL. destruct (slots S1 (yused c)), (slots S2 (yused c)); cbn [mbind option_bind]; [| | |constructor].
    2: { destruct HL as [H _]. destruct H as [? ?]; [by eexists|done]. }
    2: { destruct HL as [_ H]. destruct H as [? ?]; [by eexists|done]. }
    constructor. exists w1, G. cbn. sp; [by destruct k|done|done].
  - cbn [ylstep ysstep]. pose proof (yslot_tw _ _ _ _ _ T i) as H. destruct H as [f1 f2 _|]; [|constructor]. cbn [mbind option_bind]. constructor.
    unfold yowned, yplace. destruct alive; cbn [orb].
    { exists w1, G. sp; done. }
    destruct (0 <? k) eqn:Hk; cbn.
    + exists w1, G. sp; done.
    + exists w1, G. cbn. sp; [by destruct k|done|done].
  - cbn [ylstep ysstep]. destruct alive; cbn [yplace].
    + destruct k as [|k]; [constructor|]. constructor. exists w1, G. by sp.
    + destruct k as [|[|k]]; [constructor| |]; constructor; exists w1, G; by sp.
  - cbn [ylstep ysstep]. destruct alive; [|unfold yplace; destruct (0 <? k); constructor]. cbn. constructor. exists w1, G. cbn. sp; [|done|done].
    unfold ymgr_drop, yrc_drop, yplace. cbn. by destruct k.
Qed.
Lemma ylrun_rel p : ∀ alive k w1 S1 w2 S2 G, ytwin w1 S1 w2 S2 G →
  ylrun (yplace alive k w1) S1 p = ysrun alive k w2 S2 p.
Proof.
  induction p as [|c p IH]; intros alive k w1 S1 w2 S2 G T; [done|]. cbn [ylrun ysrun].
  pose proof (ylstep_rel alive k _ _ _ _ _ c T) as Hs. destruct Hs as [[[o T1] a1] [[[[al k'] v2] T2] a2] (v1 & G' & Hp & T' & Ha)|]; [|done].
  cbn in Hp, Ha, T'. subst. cbn [mbind option_bind]. by rewrite (IH _ _ _ _ _ _ _ T').
Qed.
Lemma ylrun_srun p : ylrun yo_new [] p = ysrun true 0 y_new [] p.
Proof. apply (ylrun_rel p true 0 y_new [] y_new [] []). constructor; [apply yok_new|apply yok_new|done|constructor|constructor]. Qed.

(** ** what follows for single calls *)
Local Notation count alive k := ((if alive : bool then 1 else 0) + k).
Lemma ylight_ans w Sl c r : ylight c → ycaught w Sl c = Some r → is_Some r.2.
Proof.
  intros Hc. unfold ycaught. destruct c as [| |x|l|o i j|i|i|i|i j|t i|ss i|m ss i|i|i|i|i|t| ]; try (exact (False_ind _ Hc)); cbn [ydo yused]; rewrite ?yslots_cons;
    (destruct (slot Sl i); cbn [mbind option_bind]; [|discriminate]).
  - intros [= <-]. by eexists.
  - intros [= <-]. by eexists.
  - destruct (slot Sl j); cbn [mbind option_bind]; [|discriminate]. intros [= <-]. by eexists.
Qed.
Lemma ysstep_owners alive k w Sl c alive' k' w' Sl' a : ysstep alive k w Sl c = Some (alive', k', w', Sl', a) →
  count alive' k' = match c, a with YDropMgr, _ | YDropRef, _ => Nat.pred (count alive k) | YGetMgr _, Some _ => S (count alive k) | _, _ => count alive k end.
Proof.
  destruct c as [c|i| |]; cbn [ysstep].
  - destruct (_ || _); [|destruct (y_of_node c); [|done]].
    + destruct (ycaught w Sl c) as [[[? ?] ?]|]; [|done]. by intros [= <- <- <- <- <-].
    + destruct (slots _ _); [|done]. by intros [= <- <- <- <- <-].
  - destruct (slot Sl i); [|done]. cbn [mbind option_bind]. destruct (yowned alive k); intros [= <- <- <- <- <-]; [lia|done].
  - destruct k; [done|]. intros [= <- <- <- <- <-]. cbn [Nat.pred]. lia.
  - destruct alive; [|done]. by intros [= <- <- <- <- <-].
Qed.
Lemma ysrun_cons alive k w Sl c p l : ysrun alive k w Sl (c :: p) = Some l →
  ∃ alive' k' w' Sl' a l', ysstep alive k w Sl c = Some (alive', k', w', Sl', a) ∧ ysrun alive' k' w' Sl' p = Some l' ∧ l = a :: l'.
Proof.
  cbn [ysrun]. destruct (ysstep alive k w Sl c) as [[[[[alive' k'] w'] Sl'] a]|]; [|done]. cbn [mbind option_bind].
  destruct (ysrun alive' k' w' Sl' p) as [l'|] eqn:E; [|done]. intros [= <-]. by exists alive', k', w', Sl', a, l'.
Qed.
Lemma ysrun_light p : ∀ alive k w Sl l j c, ysrun alive k w Sl p = Some l → p !! j = Some (YCall c) → ylight c → ∃ a, l !! j = Some (Some a).
Proof.
  induction p as [|c0 p IH]; intros alive k w Sl l j c E Hj Hc; [done|].
  destruct (ysrun_cons _ _ _ _ _ _ _ E) as (al & k' & w' & Sl' & a & l' & Es & El & ->). destruct j as [|j]; [|exact (IH _ _ _ _ _ j c El Hj Hc)]. injection Hj as ->.
  cbn [ysstep] in Es. rewrite (Is_true_true_1 _ Hc), orb_true_r, andb_true_r in Es. assert (Hn : y_of_node c) by by destruct c.
  rewrite (Is_true_true_1 _ Hn), orb_true_r in Es. destruct (ycaught w Sl c) as [[[? ?] a']|] eqn:Eb; [|done]. injection Es as <- <- <- <- <-.
  destruct (ylight_ans _ _ _ _ Hc Eb) as [a Ha]. exists a. cbn in *. by rewrite Ha.
Qed.
Lemma ysrun_gone p : ∀ alive k w Sl l j c, ysrun alive k w Sl p = Some l → p !! j = Some (YCall c) → y_of_node c → ylight c = false →
  yowners (count alive k) (take j p) (take j l) = 0 → l !! j = Some None.
Proof.
  induction p as [|c0 p IH]; intros alive k w Sl l j c E Hj Hn Hc Ho; [done|].
  destruct (ysrun_cons _ _ _ _ _ _ _ E) as (al & k' & w' & Sl' & a & l' & Es & El & ->). destruct j as [|j].
  - injection Hj as ->. cbn in Ho. assert (alive = false ∧ k = 0) as [-> ->] by (destruct alive; [lia|split; [done|lia]]).
    cbn [ysstep yowned orb Nat.ltb Nat.leb] in Es. rewrite Hc, (Is_true_true_1 _ Hn) in Es. cbn in Es. destruct (slots _ _); [|done]. by injection Es as <- <- <- <- <-.
  - cbn [take] in Ho. cbn [yowners] in Ho. rewrite <- (ysstep_owners _ _ _ _ _ _ _ _ _ _ Es) in Ho. by apply (IH _ _ _ _ _ j c El).
Qed.
(** the arena is there exactly while it has an owner *)
Lemma ylend_place p : ∀ alive k w1 S1 w2 S2 G o l, ytwin w1 S1 w2 S2 G → ylend (yplace alive k w1) S1 p = Some (o, l) →
  ∃ alive' k' w', o = yplace alive' k' w' ∧ count alive' k' = yowners (count alive k) p l.
Proof.
  induction p as [|c p IH]; intros alive k w1 S1 w2 S2 G o l T E.
  { injection E as <- <-. by exists alive, k, w1. }
  cbn [ylend] in E. pose proof (ylstep_rel alive k _ _ _ _ _ c T) as Hs. destruct (ylstep (yplace alive k w1) S1 c) as [[[o1 T1] a1]|]; [|done].
  inversion Hs as [? [[[[al k'] v2] T2] a2] (v1 & G' & Hp & T' & Ha) E1 E2|]; subst. cbn in Hp, Ha, T'. subst. cbn [mbind option_bind] in E.
  destruct (ylend _ _ _) as [[o2 l2]|] eqn:E3; [|done]. injection E as <- <-. cbn [yowners].
  rewrite <- (ysstep_owners _ _ _ _ _ _ _ _ _ _ (eq_sym E2)). exact (IH _ _ _ _ _ _ _ _ _ T' E3).
Qed.
Lemma ylend_freed p o l : ylend yo_new [] p = Some (o, l) → yo_core o = None ↔ yowners 1 p l = 0.
Proof.
  intros E. destruct (ylend_place p true 0 y_new [] y_new [] [] o l) as (al & k & w & -> & Ho); [|exact E|change (1 + 0) with 1 in Ho; rewrite <- Ho].
  - constructor; [apply yok_new|apply yok_new|done|constructor|constructor].
  - destruct al; [split; [done|lia]|]. destruct k; cbn; [done|]. split; [done|lia].
Qed.

(** dropping the manager while a reference is held *)
Lemma ysrun_held cs : forallb y_of_node cs → ∀ alive k w Sl, ysrun alive (S k) w Sl (YCall <$> cs) = ysrun true (S k) w Sl (YCall <$> cs).
Proof.
  induction cs as [|c cs IH]; intros Hf alive k w Sl; [done|]. cbn in Hf. apply andb_True in Hf as [Hc Hf]. rewrite fmap_cons. cbn [ysrun ysstep orb].
  rewrite (Is_true_true_1 _ Hc). unfold yowned. cbn [Nat.ltb Nat.leb]. rewrite orb_true_r. cbn [orb andb]. rewrite orb_true_r.
  destruct (ycaught w Sl c) as [[[w' Sl'] a]|]; [|done]. cbn [mbind option_bind]. by rewrite IH.
Qed.
Lemma ysrun_drop p cs i : YDropMgr ∉ p → forallb y_of_node cs → ∀ k w Sl,
  ysrun true k w Sl (p ++ YGetMgr i :: YDropMgr :: (YCall <$> cs)) =
  (λ l, take (S (length p)) l ++ Some YDone :: drop (S (length p)) l) <$> ysrun true k w Sl (p ++ YGetMgr i :: (YCall <$> cs)).
Proof.
  intros Hp Hf. induction p as [|c p IH]; intros k w Sl.
  - cbn [app length]. cbn [ysrun ysstep]. destruct (slot Sl i); [|done]. cbn [mbind option_bind yowned orb].
    rewrite (ysrun_held cs Hf false). by destruct (ysrun true (S k) w Sl (YCall <$> cs)).
  - rewrite not_elem_of_cons in Hp. destruct Hp as [Hc Hp]. cbn [app ysrun].
    destruct (ysstep true k w Sl c) as [[[[[al k'] w'] Sl'] a]|] eqn:Es; [|done]. cbn [mbind option_bind].
    assert (al = true) as ->.
    { destruct c as [c|j| |]; cbn [ysstep orb] in Es; [| | |done].
      - destruct (ycaught w Sl c) as [[[? ?] ?]|]; [|done]. by injection Es.
      - destruct (slot Sl j); [|done]. by injection Es.
      - destruct k; [done|]. by injection Es. }
    rewrite (IH Hp). by destruct (ysrun true k' w' Sl' _).
Qed.
Lemma ylrun_drop p cs i : YDropMgr ∉ p → forallb y_of_node cs →
  ylrun yo_new [] (p ++ YGetMgr i :: YDropMgr :: (YCall <$> cs)) =
  (λ l, take (S (length p)) l ++ Some YDone :: drop (S (length p)) l) <$> ylrun yo_new [] (p ++ YGetMgr i :: (YCall <$> cs)).
Proof. intros Hp Hf. rewrite !ylrun_srun. by apply ysrun_drop. Qed.
