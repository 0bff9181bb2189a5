(** A dropped manager makes no difference to its handles while a reference to the arena is held. *)
From stdpp Require Import strings.
From Verif Require Import Prelude ComputeCache Arena Trees ArenaProofs ArenaMore Keeps Bdd BddProofs SpecBdd SpecBss BddMain BssAlg BssMeas BssMgr BssLook SpecBssMgr BssMgrProofs BssMgrMain BssLookProofs Iso SpecTrans Trans PanicB PanicBProofs Life SpecLife.

Global Set Default Goal Selector "!".

Section prog.
Context {R : Type} (rO rI : R) (radd rmul rsub : R → R → R).
Local Notation do := (do rO rI radd rmul rsub).
Local Notation bcaught := (bcaught rO rI radd rmul rsub).
Local Notation bideal := (bideal rO rI radd rmul rsub).
Local Notation hdo := (hdo rO rI radd rmul rsub).
Local Notation lstep := (lstep rO rI radd rmul rsub).
Local Notation sstep := (sstep rO rI radd rmul rsub).

Definition at_mgr (n : nat) (w : bmgr) : world := World (Some (w_bdd w)) n (Some (rest w)).
Definition at_core (n : nat) (w : bmgr) : world := World (Some (w_bdd w)) n None.
Lemma whole_rest w : whole (w_bdd w) (rest w) = w.
Proof. by destruct w. Qed.
Lemma slots_cons Sl i l : slots Sl (i :: l) = (f ← slot Sl i; fs ← slots Sl l; Some (f :: fs)).
Proof. done. Qed.
Lemma do_slots w Sl (c : cmd R) r : of_node c → do w Sl c = Some r → is_Some (slots Sl (bused c)).
Proof.
  intros Hc. destruct c as [x|b|i|o i j|i j k|l|l|k l|i|i|i|i|e|i j|t i|ss i|pv ss i|pv ss i|m ss i|i|i|i| |keep|t| ]; try (by destruct Hc);
    cbn [SpecTrans.do bused]; rewrite ?slots_cons; (destruct (slot Sl i); cbn [mbind option_bind]; [|discriminate]); try (intros _; by eexists);
    (destruct (slot Sl j); cbn [mbind option_bind]; [|discriminate]); try (intros _; by eexists);
    (destruct (slot Sl k); cbn [mbind option_bind]; [|discriminate]); intros _; by eexists.
Qed.
Lemma caught_node w Sl (c : cmd R) : of_node c →
  bcaught w Sl c = (_ ← slots Sl (bused c); Some match do w Sl c with Some (w, Sl, a) => (w, Sl, Some a) | None => (w, Sl, None) end).
Proof.
  intros Hc. unfold PanicB.bcaught, b_panic. destruct (do w Sl c) as [[[w' S'] a]|] eqn:E.
  - destruct (do_slots _ _ _ _ Hc E) as [l ->]. done.
  - destruct (slots _ _); cbn [mbind option_bind]; [|done]. destruct c; try (by destruct Hc); done.
Qed.

(** ** the manager is there *)
Lemma give_alive n w Sl (op : bdd → option (bdd * nat)) :
  hgive (R := R) Sl (h_op (at_mgr n w) op) = '(w', S', a) ← give Sl (w_op w (op (w_bdd w))); Some (at_mgr n w', S', a).
Proof.
  unfold h_op, w_op, w_wrap, give, hgive, h_rewrap. cbn. destruct (op (w_bdd w)) as [[b r]|]; cbn; [|done].
  unfold whole, w_pin, with_bdd. cbn. by destruct (maybe_gc _).
Qed.
Lemma hdo_alive n w Sl (c : cmd R) : of_node c → hdo (at_mgr n w) Sl c = '(w', S', a) ← do w Sl c; Some (at_mgr n w', S', a).
Proof.
  intros Hc. destruct c as [x|b|i|o i j|i j k|l|l|k l|i|i|i|i|e|i j|t i|ss i|pv ss i|pv ss i|m ss i|i|i|i| |keep|t| ]; try (by destruct Hc);
    cbn [Life.hdo SpecTrans.do]; repeat (match goal with |- context [slot Sl ?i] => destruct (slot Sl i); cbn [mbind option_bind]; [|done] end);
    try (rewrite give_alive; done).
  - rewrite give_alive. by destruct o.
  - unfold h_children, w_children. cbn [at_mgr o_core mbind option_bind]. destruct (ar_nodes _ !! _) as [[t|h cs]|]; cbn [mbind option_bind]; [done| |done].
    destruct (edges2 cs) as [[f0 f1]|]; done.
  - done.
  - done.
  - done.
  - unfold h_look, tell, htell, w_is. cbn. by destruct (ar_nodes _ !! _).
  - unfold h_look, tell, htell, w_count. cbn [at_mgr at_core o_core w_bdd mbind option_bind w_set_threshold]. by destruct (bdd_count _ _ _).
  - unfold h_look, tell, htell, w_prob. cbn [at_mgr at_core o_core w_bdd mbind option_bind w_set_threshold]. by destruct (bdd_prob _ _ _ _ _ _ _ _ _).
  - unfold h_look, tell, htell, w_bmeas. cbn [at_mgr at_core o_core w_bdd mbind option_bind w_set_threshold]. by destruct (bdd_bmeas _ _ _ _ _ _ _ _ _).
  - unfold h_look, tell, htell, w_extract. cbn [at_mgr at_core o_core w_bdd mbind option_bind w_set_threshold]. by destruct (bdd_extract _ _ _ _).
  - unfold h_look, tell, htell, w_size. cbn [at_mgr at_core o_core w_bdd mbind option_bind w_set_threshold]. by destruct (bdd_node_size _ _).
  - done.
  - done.
Qed.
Lemma call_alive n w Sl (c : cmd R) : lstep (at_mgr n w) Sl (Call c) = '(w', S', a) ← bcaught w Sl c; Some (at_mgr n w', S', a).
Proof.
  cbn [Life.lstep]. destruct (of_node c) eqn:Hc.
  - apply Is_true_true_2 in Hc. rewrite (caught_node _ _ _ Hc), (hdo_alive n w Sl c Hc). destruct (slots _ _); cbn [mbind option_bind]; [|done].
    by destruct (do w Sl c) as [[[? ?] ?]|].
  - cbn [at_mgr o_mgr o_core mbind option_bind]. rewrite whole_rest. by destruct (bcaught w Sl c) as [[[? ?] ?]|].
Qed.

(** ** only the arena is there: as the manager with a threshold that is not reached *)
Lemma give_core n w Sl (op : bdd → option (bdd * nat)) : ∃ t,
  hgive (R := R) Sl (h_op (at_core n w) op) = '(w', S', a) ← give Sl (w_op (w_set_threshold w t) (op (w_bdd w))); Some (at_core n w', S', a).
Proof.
  unfold h_op, w_op, w_wrap, give, hgive, h_rewrap. cbn. destruct (op (w_bdd w)) as [[b r]|]; cbn; [|by exists 0].
  exists (S (bdd_live_node_count b)). unfold maybe_gc. cbn [w_pin with_bdd w_set_threshold w_bdd w_thr w_roots].
  rewrite (proj2 (Nat.ltb_lt _ _)) by lia. done.
Qed.
Lemma hdo_core n w Sl (c : cmd R) : of_node c → ∃ t, hdo (at_core n w) Sl c = '(w', S', a) ← do (w_set_threshold w t) Sl c; Some (at_core n w', S', a).
Proof.
  intros Hc. destruct c as [x|b|i|o i j|i j k|l|l|k l|i|i|i|i|e|i j|t i|ss i|pv ss i|pv ss i|m ss i|i|i|i| |keep|t| ]; try (by destruct Hc);
    cbn [Life.hdo SpecTrans.do]; repeat (match goal with |- context [slot Sl ?i] => destruct (slot Sl i); cbn [mbind option_bind]; [|by exists 0] end).
  - destruct (give_core n w Sl (λ b, bdd_not b n0)) as [t E]. exists t. exact E.
  - destruct (give_core n w Sl (λ b, h_bin o b n0 n1)) as [t E]. exists t. rewrite E. by destruct o.
  - destruct (give_core n w Sl (λ b, bdd_ite b n0 n1 n2)) as [t E]. exists t. exact E.
  - destruct (give_core n w Sl (λ b, bdd_dual b n0)) as [t E]. exists t. exact E.
  - exists 0. unfold h_children, w_children. cbn [at_core o_core mbind option_bind w_set_threshold w_bdd]. destruct (ar_nodes _ !! _) as [[t|h cs]|]; cbn [mbind option_bind]; [done| |done].
    destruct (edges2 cs) as [[f0 f1]|]; done.
  - by exists 0.
  - by exists 0.
  - by exists 0.
  - exists 0. unfold h_look, tell, htell, w_is. cbn. by destruct (ar_nodes _ !! _).
  - exists 0. unfold h_look, tell, htell, w_count. cbn [at_mgr at_core o_core w_bdd mbind option_bind w_set_threshold]. by destruct (bdd_count _ _ _).
  - exists 0. unfold h_look, tell, htell, w_prob. cbn [at_mgr at_core o_core w_bdd mbind option_bind w_set_threshold]. by destruct (bdd_prob _ _ _ _ _ _ _ _ _).
  - exists 0. unfold h_look, tell, htell, w_bmeas. cbn [at_mgr at_core o_core w_bdd mbind option_bind w_set_threshold]. by destruct (bdd_bmeas _ _ _ _ _ _ _ _ _).
  - exists 0. unfold h_look, tell, htell, w_extract. cbn [at_mgr at_core o_core w_bdd mbind option_bind w_set_threshold]. by destruct (bdd_extract _ _ _ _).
  - exists 0. unfold h_look, tell, htell, w_size. cbn [at_mgr at_core o_core w_bdd mbind option_bind w_set_threshold]. by destruct (bdd_node_size _ _).
  - by exists 0.
  - by exists 0.
Qed.
Lemma call_core n w Sl (c : cmd R) : of_node c → ∃ t,
  lstep (at_core n w) Sl (Call c) = '(w', S', a) ← bcaught (w_set_threshold w t) Sl c; Some (at_core n w', S', a).
Proof.
  intros Hc. destruct (hdo_core n w Sl c Hc) as [t E]. exists t. cbn [Life.lstep]. rewrite (Is_true_true_1 _ Hc), (caught_node _ _ _ Hc), E.
  destruct (slots _ _); cbn [mbind option_bind]; [|done]. by destruct (do (w_set_threshold w t) Sl c) as [[[? ?] ?]|].
Qed.

(** ** nothing is left *)
Definition nothing : world := World None 0 None.
Lemma call_gone w Sl (c : cmd R) : of_node c → lstep nothing Sl (Call c) =
  if light c then '(w', S', a) ← bcaught w Sl c; Some (nothing, S', a) else _ ← slots Sl (bused c); Some (nothing, Sl, None).
Proof.
  intros Hc. cbn [Life.lstep]. rewrite (Is_true_true_1 _ Hc). destruct (light c) eqn:Hl.
  - rewrite (caught_node _ _ _ Hc). destruct (slots _ _); cbn [mbind option_bind]; [|done].
    destruct c; try done; cbn [Life.hdo SpecTrans.do]; repeat (match goal with |- context [slot Sl ?i] => destruct (slot Sl i); cbn [mbind option_bind]; [|done] end); done.
  - destruct (slots _ _); cbn [mbind option_bind]; [|done].
    destruct c; try done; cbn [Life.hdo]; repeat (match goal with |- context [slot Sl ?i] => destruct (slot Sl i); cbn [mbind option_bind]; [|done] end); done.
Qed.

(** ** the two runs side by side *)
Definition place (alive : bool) (k : nat) (w : bmgr) : world :=
  if alive then at_mgr (S k) w else if 0 <? k then at_core k w else nothing.
Definition lrel (p : world * list (option nat) * option (ans R)) (q : bool * nat * bmgr * list (option nat) * option (ans R)) : Prop :=
  ∃ w G, p.1.1 = place q.1.1.1.1 q.1.1.1.2 w ∧ twin w p.1.2 q.1.1.2 q.1.2 G ∧ p.2 = q.2.
Lemma twin_thr w1 S1 w2 S2 G t : twin w1 S1 w2 S2 G → twin (w_set_threshold w1 t) S1 w2 S2 G.
Proof. intros T. destruct (house_tw rO rI radd rmul rsub _ _ _ _ _ T (HThreshold t) I) as (w' & [= <-] & T'). done. Qed.
Lemma caught_rel (P : bmgr → world) (alive : bool) (k : nat) w1 S1 w2 S2 G c : (∀ w, P w = place alive k w) → twin w1 S1 w2 S2 G →
  osim lrel ('(w', S', a) ← bcaught w1 S1 c; Some (P w', S', a)) ('(w', S', a) ← bideal w2 S2 c; Some (alive, k, w', S', a)).
Proof.
  intros HP T. pose proof (bstep_tw rO rI radd rmul rsub _ _ _ _ _ c T) as Hs.
  destruct Hs as [[[v1 T1] a1] [[v2 T2] a2] [[G' T'] Ha]|]; [|constructor]. cbn in Ha, T'. subst. constructor. exists v1, G'. cbn. sp; [apply HP|done|done].
Qed.
Lemma slot_same w1 S1 w2 S2 G i : twin w1 S1 w2 S2 G → is_Some (slot S1 i) ↔ is_Some (slot S2 i).
Proof. intros T. pose proof (slot_tw _ _ _ _ _ T i) as H. destruct H; split; intros [? ?]; try done; by eexists. Qed.
Lemma lstep_rel alive k w1 S1 w2 S2 G c : twin w1 S1 w2 S2 G → osim lrel (lstep (place alive k w1) S1 c) (sstep alive k w2 S2 c).
Proof.
  intros T. destruct c as [c|i| |].
  - cbn [SpecLife.sstep]. destruct alive; cbn [orb].
    { change (place true k w1) with (at_mgr (S k) w1). rewrite (call_alive (S k) w1 S1 c). by apply (caught_rel (at_mgr (S k)) true k w1 S1 w2 S2 G). }
    destruct (of_node c) eqn:Hc; cbn [andb].
    2: { unfold place. cbn [Life.lstep]. rewrite Hc. destruct (0 <? k); constructor. }
    pose proof (Is_true_true_2 _ Hc) as Hc'. unfold owned. cbn [orb]. destruct (0 <? k) eqn:Hk; cbn [orb].
    { unfold place. rewrite Hk. destruct (call_core k w1 S1 c Hc') as [t ->]. apply (caught_rel (at_core k) false k _ S1 w2 S2 G).
      - intros w. unfold place. by rewrite Hk.
      - by apply twin_thr. }
    unfold place. rewrite Hk. rewrite (call_gone w1 S1 c Hc'). destruct (light c).
    { apply (caught_rel (λ _, nothing) false k w1 S1 w2 S2 G); [|done]. intros w. unfold place. by rewrite Hk. }
    pose proof (slots_tw _ _ _ _ _ T (bused c)) as HL. destruct HL as [l1 l2 _|]; [|constructor]. cbn [mbind option_bind]. constructor. exists w1, G. cbn.
    sp; [by destruct k|done|done].
  - cbn [Life.lstep SpecLife.sstep]. pose proof (slot_tw _ _ _ _ _ T i) as H. destruct H as [f1 f2 _|]; [|constructor]. cbn [mbind option_bind]. constructor.
    unfold owned, place. destruct alive; cbn [orb].
    { exists w1, G. sp; done. }
    destruct (0 <? k) eqn:Hk; cbn.
    + exists w1, G. sp; done.
    + exists w1, G. cbn. sp; [by destruct k|done|done].
  - cbn [Life.lstep SpecLife.sstep]. destruct alive; cbn [place].
    + destruct k as [|k]; [constructor|]. constructor. exists w1, G. by sp.
    + destruct k as [|[|k]]; [constructor| |]; constructor; exists w1, G; by sp.
  - cbn [Life.lstep SpecLife.sstep]. destruct alive; [|unfold place; destruct (0 <? k); constructor]. cbn. constructor. exists w1, G. cbn. sp; [|done|done].
    unfold mgr_drop, rc_drop, place. cbn. by destruct k.
Qed.
Lemma lrun_rel p : ∀ alive k w1 S1 w2 S2 G, twin w1 S1 w2 S2 G →
  lrun rO rI radd rmul rsub (place alive k w1) S1 p = srun rO rI radd rmul rsub alive k w2 S2 p.
Proof.
  induction p as [|c p IH]; intros alive k w1 S1 w2 S2 G T; [done|]. cbn [lrun srun].
  pose proof (lstep_rel alive k _ _ _ _ _ c T) as Hs. destruct Hs as [[[o T1] a1] [[[[al k'] v2] T2] a2] (v1 & G' & Hp & T' & Ha)|]; [|done].
  cbn in Hp, Ha, T'. subst. cbn [mbind option_bind]. by rewrite (IH _ _ _ _ _ _ _ T').
Qed.
Lemma lrun_srun p : lrun rO rI radd rmul rsub o_new [] p = srun rO rI radd rmul rsub true 0 w_new [] p.
Proof. apply (lrun_rel p true 0 w_new [] w_new [] []). constructor; [apply new_wok|apply new_wok|done|constructor|constructor]. Qed.

(** ** what follows for single calls *)
Local Notation srun := (srun rO rI radd rmul rsub).
Local Notation lrun := (lrun rO rI radd rmul rsub).
Local Notation count alive k := ((if alive : bool then 1 else 0) + k).
Lemma ideal_light w Sl c r : light c → bideal w Sl c = Some r → is_Some r.2.
Proof.
  intros Hc. unfold PanicB.bideal. destruct (do w Sl c) as [[[? ?] ?]|] eqn:E; [intros [= <-]; by eexists|]. intros E2. exfalso. revert E E2.
  destruct c as [x|b|i|o i j|i j k|l|l|k l|i|i|i|i|e|i j|t i|ss i|pv ss i|pv ss i|m ss i|i|i|i| |keep|t| ]; try (exact (False_ind _ Hc)); cbn [SpecTrans.do bused]; rewrite ?slots_cons.
  - destruct (slot Sl i); cbn [mbind option_bind]; discriminate.
  - destruct (slot Sl i); cbn [mbind option_bind]; discriminate.
  - destruct (slot Sl i); cbn [mbind option_bind]; [|intros ??; discriminate]. destruct (slot Sl j); cbn [mbind option_bind]; [unfold tell; cbn [mbind option_bind]|]; intros ??; discriminate.
Qed.
Lemma sstep_owners alive k w Sl c alive' k' w' Sl' a : sstep alive k w Sl c = Some (alive', k', w', Sl', a) →
  count alive' k' = match c, a with DropMgr, _ | DropRef, _ => Nat.pred (count alive k) | GetMgr _, Some _ => S (count alive k) | _, _ => count alive k end.
Proof.
  destruct c as [c|i| |]; cbn [SpecLife.sstep].
  - destruct (_ || _); [|destruct (of_node c); [|done]].
    + destruct (bideal w Sl c) as [[[? ?] ?]|]; [|done]. by intros [= <- <- <- <- <-].
    + destruct (slots _ _); [|done]. by intros [= <- <- <- <- <-].
  - destruct (slot Sl i); [|done]. cbn [mbind option_bind]. destruct (owned alive k); intros [= <- <- <- <- <-]; [lia|done].
  - destruct k; [done|]. intros [= <- <- <- <- <-]. cbn [Nat.pred]. lia.
  - destruct alive; [|done]. by intros [= <- <- <- <- <-].
Qed.
Lemma srun_cons alive k w Sl c p l : srun alive k w Sl (c :: p) = Some l →
  ∃ alive' k' w' Sl' a l', sstep alive k w Sl c = Some (alive', k', w', Sl', a) ∧ srun alive' k' w' Sl' p = Some l' ∧ l = a :: l'.
Proof.
  cbn [SpecLife.srun]. destruct (sstep alive k w Sl c) as [[[[[alive' k'] w'] Sl'] a]|]; [|done]. cbn [mbind option_bind].
  destruct (srun alive' k' w' Sl' p) as [l'|] eqn:E; [|done]. intros [= <-]. by exists alive', k', w', Sl', a, l'.
Qed.
Lemma srun_light p : ∀ alive k w Sl l j c, srun alive k w Sl p = Some l → p !! j = Some (Call c) → light c → ∃ a, l !! j = Some (Some a).
Proof.
  induction p as [|c0 p IH]; intros alive k w Sl l j c E Hj Hc; [done|].
  destruct (srun_cons _ _ _ _ _ _ _ E) as (al & k' & w' & Sl' & a & l' & Es & El & ->). destruct j as [|j]; [|exact (IH _ _ _ _ _ j c El Hj Hc)]. injection Hj as ->.
  cbn [SpecLife.sstep] in Es. rewrite (Is_true_true_1 _ Hc), orb_true_r, andb_true_r in Es. assert (Hn : of_node c) by by destruct c.
  rewrite (Is_true_true_1 _ Hn), orb_true_r in Es. destruct (bideal w Sl c) as [[[? ?] a']|] eqn:Eb; [|done]. injection Es as <- <- <- <- <-.
  destruct (ideal_light _ _ _ _ Hc Eb) as [a Ha]. exists a. cbn in *. by rewrite Ha.
Qed.
Lemma srun_gone p : ∀ alive k w Sl l j c, srun alive k w Sl p = Some l → p !! j = Some (Call c) → of_node c → light c = false →
  owners (count alive k) (take j p) (take j l) = 0 → l !! j = Some None.
Proof.
  induction p as [|c0 p IH]; intros alive k w Sl l j c E Hj Hn Hc Ho; [done|].
  destruct (srun_cons _ _ _ _ _ _ _ E) as (al & k' & w' & Sl' & a & l' & Es & El & ->). destruct j as [|j].
  - injection Hj as ->. cbn in Ho. assert (alive = false ∧ k = 0) as [-> ->] by (destruct alive; [lia|split; [done|lia]]).
    cbn [SpecLife.sstep owned orb Nat.ltb Nat.leb] in Es. rewrite Hc, (Is_true_true_1 _ Hn) in Es. cbn in Es. destruct (slots _ _); [|done]. by injection Es as <- <- <- <- <-.
  - cbn [take] in Ho. cbn [owners] in Ho. rewrite <- (sstep_owners _ _ _ _ _ _ _ _ _ _ Es) in Ho. by apply (IH _ _ _ _ _ j c El).
Qed.
(** the arena is there exactly while it has an owner *)
Lemma lend_place p : ∀ alive k w1 S1 w2 S2 G o l, twin w1 S1 w2 S2 G → lend rO rI radd rmul rsub (place alive k w1) S1 p = Some (o, l) →
  ∃ alive' k' w', o = place alive' k' w' ∧ count alive' k' = owners (count alive k) p l.
Proof.
  induction p as [|c p IH]; intros alive k w1 S1 w2 S2 G o l T E.
  { injection E as <- <-. by exists alive, k, w1. }
  cbn [lend] in E. pose proof (lstep_rel alive k _ _ _ _ _ c T) as Hs. destruct (lstep (place alive k w1) S1 c) as [[[o1 T1] a1]|]; [|done].
  inversion Hs as [? [[[[al k'] v2] T2] a2] (v1 & G' & Hp & T' & Ha) E1 E2|]; subst. cbn in Hp, Ha, T'. subst. cbn [mbind option_bind] in E.
  destruct (lend _ _ _ _ _ _ _ _) as [[o2 l2]|] eqn:E3; [|done]. injection E as <- <-. cbn [owners].
  rewrite <- (sstep_owners _ _ _ _ _ _ _ _ _ _ (eq_sym E2)). exact (IH _ _ _ _ _ _ _ _ _ T' E3).
Qed.
Lemma lend_freed p o l : lend rO rI radd rmul rsub o_new [] p = Some (o, l) → o_core o = None ↔ owners 1 p l = 0.
Proof.
  intros E. destruct (lend_place p true 0 w_new [] w_new [] [] o l) as (al & k & w & -> & Ho); [|exact E|change (1 + 0) with 1 in Ho; rewrite <- Ho].
  - constructor; [apply new_wok|apply new_wok|done|constructor|constructor].
  - destruct al; [split; [done|lia]|]. destruct k; cbn; [done|]. split; [done|lia].
Qed.

(** dropping the manager while a reference is held *)
Lemma srun_held cs : forallb of_node cs → ∀ alive k w Sl, srun alive (S k) w Sl (Call <$> cs) = srun true (S k) w Sl (Call <$> cs).
Proof.
  induction cs as [|c cs IH]; intros Hf alive k w Sl; [done|]. cbn in Hf. apply andb_True in Hf as [Hc Hf]. rewrite fmap_cons. cbn [SpecLife.srun SpecLife.sstep orb].
  rewrite (Is_true_true_1 _ Hc). unfold owned. cbn [Nat.ltb Nat.leb]. rewrite orb_true_r. cbn [orb andb]. rewrite orb_true_r.
  destruct (bideal w Sl c) as [[[w' Sl'] a]|]; [|done]. cbn [mbind option_bind]. by rewrite IH.
Qed.
Lemma srun_drop p cs i : DropMgr ∉ p → forallb of_node cs → ∀ k w Sl,
  srun true k w Sl (p ++ GetMgr i :: DropMgr :: (Call <$> cs)) =
  (λ l, take (S (length p)) l ++ Some Done :: drop (S (length p)) l) <$> srun true k w Sl (p ++ GetMgr i :: (Call <$> cs)).
Proof.
  intros Hp Hf. induction p as [|c p IH]; intros k w Sl.
  - cbn [app length]. cbn [SpecLife.srun SpecLife.sstep]. destruct (slot Sl i); [|done]. cbn [mbind option_bind owned orb].
    rewrite (srun_held cs Hf false). by destruct (srun true (S k) w Sl (Call <$> cs)).
  - rewrite not_elem_of_cons in Hp. destruct Hp as [Hc Hp]. cbn [app SpecLife.srun].
    destruct (sstep true k w Sl c) as [[[[[al k'] w'] Sl'] a]|] eqn:Es; [|done]. cbn [mbind option_bind].
    assert (al = true) as ->.
    { destruct c as [c|j| |]; cbn [SpecLife.sstep orb] in Es; [| | |done].
      - destruct (bideal w Sl c) as [[[? ?] ?]|]; [|done]. by injection Es.
      - destruct (slot Sl j); [|done]. by injection Es.
      - destruct k; [done|]. by injection Es. }
    rewrite (IH Hp). by destruct (srun true k' w' Sl' _).
Qed.
Lemma lrun_drop p cs i : DropMgr ∉ p → forallb of_node cs →
  lrun o_new [] (p ++ GetMgr i :: DropMgr :: (Call <$> cs)) =
  (λ l, take (S (length p)) l ++ Some Done :: drop (S (length p)) l) <$> lrun o_new [] (p ++ GetMgr i :: (Call <$> cs)).
Proof. intros Hp Hf. rewrite !lrun_srun. by apply srun_drop. Qed.
End prog.
