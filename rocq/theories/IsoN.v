(** The traversals of mss see only the diagram: isomorphic nodes of two arenas give the same answers. *)
From stdpp Require Import strings.
From Verif Require Import Prelude ComputeCache Arena ArenaProofs ArenaMore Bdd Mdd MtMdd MtMdd2 BssMgr MssMgr MssAlg Iso.

Section nary.
Context {T : Type} (R1 R2 : list nat → Prop) (a1 a2 : arena T).
Context (W1 : awf R1 a1) (W2 : awf R2 a2) (HH : ar_headers a1 = ar_headers a2).
Local Notation "i ≈ j" := (iso a1 a2 i j) (at level 70).
Local Notation crel := (crel a1 a2).
Local Notation srel := (srel a1 a2).
Local Notation cins := (crel_insert _ _ _ _ W1 W2).
Context (hit : T → option bool).

Ltac node Hi := destruct (iso_node _ _ _ _ W1 W2 _ _ Hi) as
  [(t & E1 & E2)|(h & hd & cs1 & cs2 & E1 & E2 & F1 & F2 & Hcs)]; rewrite E1, E2; cbn [mbind option_bind].

(** sizes *)
Lemma nsize_iso n : ∀ i j c1 c2, i ≈ j → srel c1 c2 →
  osim (λ p q, srel p.1 q.1 ∧ p.2 = q.2) (nsize_f n a1 i c1) (nsize_f n a2 j c2).
Proof.
  induction n as [|n IH]; intros i j c1 c2 Hi Hc; [constructor|]. cbn [nsize_f].
  destruct (decide (i ∈ c1)) as [Hin|Hni].
  { rewrite decide_True by (by apply (Hc i j Hi)). by constructor. }
  rewrite decide_False by (intros ?; by apply Hni, (Hc i j Hi)). node Hi.
  - constructor. split; [|done]. by apply (srel_add _ _ _ _ W1 W2).
  - eapply (osim_bind (λ p q, srel p.1 q.1 ∧ p.2 = q.2)).
    + match goal with |- osim _ (?G cs1 c1 ?X ?Y ?Z) (?G' cs2 c2 ?X ?Y ?Z) =>
        cut (∀ x y z c1 c2, srel c1 c2 → osim (λ p q, srel p.1 q.1 ∧ p.2 = q.2) (G cs1 c1 x y z) (G' cs2 c2 x y z)); [by intros Hg; apply Hg|] end.
      clear -IH Hcs. induction Hcs as [|u v l1 l2 Hu Hl IHl]; intros x y z c1 c2 Hc; [by constructor|].
      eapply osim_bind; [by apply IH|]. intros [d1 [[p q] r]] [d2 r2] [Hd Hr]. cbn in Hd, Hr. subst r2. by apply IHl.
    + intros [d1 r1] [d2 r2] [Hd Hr]. cbn in Hd, Hr. subst r2. constructor. split; [|done]. by apply (srel_add _ _ _ _ W1 W2).
Qed.
Lemma nsize_same i j : i ≈ j → nsize a1 i = nsize a2 j.
Proof.
  intros Hi. apply osim_eq. unfold nsize. rewrite <- (iso_fuel _ _ HH). eapply osim_bind; [apply nsize_iso; [done|apply srel_empty]|].
  intros [? [[??]?]] [? ?] [_ E]. cbn in E. subst. by constructor.
Qed.

(** counts: the memo is keyed by a node and a level *)
Definition krel {A} (c1 c2 : gmap (nat * option nat) A) : Prop := ∀ i j l, i ≈ j → c1 !! (i, l) = c2 !! (j, l).
Lemma krel_insert {A} (c1 c2 : gmap (nat * option nat) A) i j l x : krel c1 c2 → i ≈ j → krel (<[(i, l) := x]> c1) (<[(j, l) := x]> c2).
Proof.
  intros Hc Hi i' j' l' Hi'. destruct (decide ((i', l') = (i, l))) as [[= -> ->]|Hne].
  - rewrite <- (iso_fun _ _ _ W2 _ _ _ Hi Hi'). by rewrite !lookup_insert.
  - rewrite !lookup_insert_ne; [by apply Hc| |done]. intros [= -> ->]. by rewrite (iso_inj _ _ _ W1 _ _ _ Hi Hi') in Hne.
Qed.
Lemma ncount_iso keyed l2h n : ∀ level i j c1 c2, i ≈ j → krel c1 c2 →
  osim (λ p q, krel p.1 q.1 ∧ p.2 = q.2) (ncount_f keyed hit n a1 l2h level i c1) (ncount_f keyed hit n a2 l2h level j c2).
Proof.
  induction n as [|n IH]; intros level i j c1 c2 Hi Hc; [constructor|]. cbn [ncount_f].
  rewrite <- (Hc i j (if keyed then level else None) Hi). destruct (c1 !! (i, _)) as [x|]; [by constructor|].
  rewrite <- (iso_level _ _ _ _ W1 W2 _ _ Hi).
  assert (Hend : ∀ o1 o2 : option (gmap (nat * option nat) N * N), osim (λ p q, krel p.1 q.1 ∧ p.2 = q.2) o1 o2 →
    osim (λ p q, krel p.1 q.1 ∧ p.2 = q.2) ('(cache, r) ← o1; Some (<[(i, if keyed then level else None) := r]> cache, r))
      ('(cache, r) ← o2; Some (<[(j, if keyed then level else None) := r]> cache, r))).
  { intros o1 o2 [[d1 r1] [d2 r2] [Hd Hr]|]; cbn in *; [|constructor]. subst r2. constructor. split; [|done]. by apply krel_insert. }
  assert (Hskip : osim (λ p q, krel p.1 q.1 ∧ p.2 = q.2)
      (l ← level; h ← l2h !! l; hd ← ar_headers a1 !! h; '(cache, x) ← ncount_f keyed hit n a1 l2h (opred level) i c1; Some (cache, N.of_nat (h_edges hd) * x)%N)
      (l ← level; h ← l2h !! l; hd ← ar_headers a2 !! h; '(cache, x) ← ncount_f keyed hit n a2 l2h (opred level) j c2; Some (cache, N.of_nat (h_edges hd) * x)%N)).
  { apply osim_same. intros l. apply osim_same. intros h. rewrite HH. apply osim_same. intros hd.
    eapply osim_bind; [by apply IH|]. intros [d1 r1] [d2 r2] [Hd Hr]. cbn in Hd, Hr. subst r2. by constructor. }
  node Hi.
  - apply osim_same. intros nl. apply Hend. destruct (_ && _); [exact Hskip|]. by constructor.
  - apply osim_same. intros nl. apply Hend. destruct (_ && _); [exact Hskip|].
    match goal with |- osim _ (?G cs1 c1 ?X) (?G' cs2 c2 ?X) =>
        cut (∀ x c1 c2, krel c1 c2 → osim (λ p q, krel p.1 q.1 ∧ p.2 = q.2) (G cs1 c1 x) (G' cs2 c2 x)); [by intros Hg; apply Hg|] end.
    clear -IH Hcs. induction Hcs as [|u v l1 l2 Hu Hl IHl]; intros x c1 c2 Hc; [by constructor|].
    eapply osim_bind; [by apply IH|]. intros [d1 r1] [d2 r2] [Hd Hr]. cbn in Hd, Hr. subst r2. by apply IHl.
Qed.
Lemma ncount_same keyed i j : i ≈ j → ncount keyed hit a1 i = ncount keyed hit a2 j.
Proof.
  intros Hi. apply osim_eq. unfold ncount. rewrite <- (iso_level _ _ _ _ W1 W2 _ _ Hi). apply osim_same. intros [l|]; [|by constructor].
  unfold l2h_table. rewrite HH. apply osim_same. intros tab. eapply osim_bind; [apply ncount_iso; [done|]|].
  { intros ? ? ? _. by rewrite !lookup_empty. }
  intros [? ?] [? ?] [_ E]. cbn in E. subst. by constructor.
Qed.

(** enumeration *)
Inductive nprel : mdstack → mdstack → Prop :=
  | np_node l i j : i ≈ j → nprel (DSNode l i) (DSNode l j)
  | np_push x i : nprel (DSPush x i) (DSPush x i)
  | np_pop x : nprel (DSPop x) (DSPop x).
Lemma push_iso x l cs1 cs2 : Forall2 (iso a1 a2) cs1 cs2 → ∀ k, Forall2 nprel (md_push x l k cs1) (md_push x l k cs2).
Proof. induction 1 as [|u v l1 l2 Hu Hl IH]; intros k; cbn; [constructor|]. repeat (constructor; [by constructor|]). apply IH. Qed.
Lemma rep_iso i j e : i ≈ j → Forall2 (iso a1 a2) (replicate e i) (replicate e j).
Proof. intros Hi. induction e; cbn; by constructor. Qed.
Lemma nstep_iso tab p st st' : Forall2 nprel st st' →
  osim (λ x y, Forall2 nprel (dp_stack x.1) (dp_stack y.1) ∧ dp_path x.1 = dp_path y.1 ∧ x.2 = y.2)
    (mdpath_step hit a1 tab (MDPath st p)) (mdpath_step hit a2 tab (MDPath st' p)).
Proof.
  intros [|x y l l' Hx Hl]; unfold mdpath_step; cbn [dp_stack dp_path]; [constructor|].
  destruct Hx as [lv i j Hi|s k|s]; [|by constructor..]. rewrite <- (iso_level _ _ _ _ W1 W2 _ _ Hi).
  assert (Hskip : osim (λ x y : mdpath * option (gmap string nat), Forall2 nprel (dp_stack x.1) (dp_stack y.1) ∧ dp_path x.1 = dp_path y.1 ∧ x.2 = y.2)
      (l0 ← lv; '(x, e) ← tab !! l0; Some (MDPath (md_push x (opred lv) 0 (replicate e i) ++ l) p, None))
      (l0 ← lv; '(x, e) ← tab !! l0; Some (MDPath (md_push x (opred lv) 0 (replicate e j) ++ l') p, None))).
  { apply osim_same. intros l0. apply osim_same. intros [x e]. constructor. cbn. sp; try done. apply Forall2_app; [|done]. by apply push_iso, rep_iso. }
  node Hi; apply osim_same; intros nl; (destruct (_ && _); [exact Hskip|]).
  - by constructor.
  - apply osim_same. intros l0. apply osim_same. intros [x e]. constructor. cbn. sp; try done. apply Forall2_app; [|done]. by apply push_iso.
Qed.
Lemma ncollect_iso tab n : ∀ p st st', Forall2 nprel st st' →
  mdpath_collect n hit a1 tab (MDPath st p) = mdpath_collect n hit a2 tab (MDPath st' p).
Proof.
  induction n as [|n IH]; intros p st st' Hst.
  - destruct Hst; done.
  - cbn [mdpath_collect dp_stack]. pose proof (nstep_iso tab p st st' Hst) as Hs. destruct Hst as [|x y l l' Hx Hl]; [done|].
    destruct Hs as [[[st1 p1] o1] [[st2 p2] o2] (Hst & Hp & Ho)|]; [|done]. cbn in Hst, Hp, Ho. subst p2 o2.
    cbn [mbind option_bind]. by rewrite (IH p1 st1 st2 Hst).
Qed.
Lemma nextract_same fuel nh i j : i ≈ j → nextract fuel hit nh a1 i = nextract fuel hit nh a2 j.
Proof.
  intros Hi. unfold nextract, path_tables, nlevel. rewrite HH, (iso_level _ _ _ _ W1 W2 _ _ Hi).
  destruct (_ <? nh); [done|]. destruct (tables_go _ _); [|done]. cbn [mbind option_bind]. apply ncollect_iso. by repeat constructor.
Qed.

(** probability and importance *)
Section prob.
Context {R : Type} (rO rI : R) (radd rmul rsub : R → R → R) (pv : gmap string (list R)).
Lemma nprob_iso n : ∀ i j c1 c2, i ≈ j → crel c1 c2 →
  osim (λ p q, crel p.1 q.1 ∧ p.2 = q.2) (nprob_f rO rI radd rmul hit n a1 pv i c1) (nprob_f rO rI radd rmul hit n a2 pv j c2).
Proof.
  induction n as [|n IH]; intros i j c1 c2 Hi Hc; [constructor|]. cbn [nprob_f]. rewrite <- (Hc i j Hi).
  destruct (c1 !! i) as [x|]; [by constructor|]. node Hi.
  - constructor. split; [|done]. by apply cins.
  - eapply (osim_bind (λ p q, crel p.1 q.1 ∧ p.2 = q.2)).
    + rewrite F1, F2. cbn [mbind option_bind]. apply osim_same. intros fp.
      match goal with |- osim _ (?G 0 cs1 c1 ?X) (?G' 0 cs2 c2 ?X) =>
        cut (∀ k x c1 c2, crel c1 c2 → osim (λ p q, crel p.1 q.1 ∧ p.2 = q.2) (G k cs1 c1 x) (G' k cs2 c2 x)); [by intros Hg; apply Hg|] end.
      clear -IH Hcs. induction Hcs as [|u v l1 l2 Hu Hl IHl]; intros k x c1 c2 Hc; [by constructor|].
      eapply osim_bind; [by apply IH|]. intros [d1 r1] [d2 r2] [Hd Hr]. cbn in Hd, Hr. subst r2. apply osim_same. intros p. by apply IHl.
    + intros [d1 r1] [d2 r2] [Hd Hr]. cbn in Hd, Hr. subst r2. constructor. split; [|done]. by apply cins.
Qed.
Lemma nprob_same i j : i ≈ j → nprob rO rI radd rmul hit a1 pv i = nprob rO rI radd rmul hit a2 pv j.
Proof.
  intros Hi. apply osim_eq. unfold nprob. rewrite <- (iso_fuel _ _ HH). eapply osim_bind; [apply nprob_iso; [done|apply crel_empty]|].
  intros [? ?] [? ?] [_ E]. cbn in E. subst. by constructor.
Qed.

Lemma ntopo_iso n : ∀ i j s1 s2, i ≈ j → srel s1.1 s2.1 → Forall2 (iso a1 a2) s1.2 s2.2 →
  osim (λ p q, srel p.1 q.1 ∧ Forall2 (iso a1 a2) p.2 q.2) (ntopo_f n a1 i s1) (ntopo_f n a2 j s2).
Proof.
  induction n as [|n IH]; intros i j [c1 o1] [c2 o2] Hi Hc Ho; cbn [fst snd] in *; [constructor|]. cbn [ntopo_f].
  destruct (decide (i ∈ c1)) as [Hin|Hni].
  { rewrite decide_True by (by apply (Hc i j Hi)). by constructor. }
  rewrite decide_False by (intros ?; by apply Hni, (Hc i j Hi)).
  pose proof (srel_add _ _ _ _ W1 W2 _ _ _ _ Hc Hi) as Hc'. node Hi; cbn [node_children].
  - constructor. cbn. split; [done|]. by constructor.
  - eapply (osim_bind (λ p q, srel p.1 q.1 ∧ Forall2 (iso a1 a2) p.2 q.2)).
    + match goal with |- osim _ (?G cs1 ?X) (?G' cs2 ?Y) =>
        cut (∀ x y, srel x.1 y.1 → Forall2 (iso a1 a2) x.2 y.2 → osim (λ p q, srel p.1 q.1 ∧ Forall2 (iso a1 a2) p.2 q.2) (G cs1 x) (G' cs2 y)); [by intros Hg; apply Hg|] end.
      clear -IH Hcs. induction Hcs as [|u v l1 l2 Hu Hl IHl]; intros x y Hc Ho; [by constructor|].
      eapply osim_bind; [by apply IH|]. intros p q [Hp Hq]. by apply IHl.
    + intros [d1 r1] [d2 r2] [Hd Hr]. cbn [fst snd] in *. constructor. split; [done|]. by constructor.
Qed.
Lemma nedges_iso w pj es1 es2 : Forall2 (iso a1 a2) es1 es2 → ∀ k g1 g2 b1 b2, crel g1 g2 → crel b1 b2 →
  osim (λ p q, crel p.1.1 q.1.1 ∧ crel p.1.2 q.1.2 ∧ p.2 = q.2)
    (nmeas_edges rO rI radd rmul hit a1 pv w pj k es1 g1 b1) (nmeas_edges rO rI radd rmul hit a2 pv w pj k es2 g2 b2).
Proof.
  induction 1 as [|u v l1 l2 Hu Hl IH]; intros k g1 g2 b1 b2 Hg Hb; cbn [nmeas_edges]; [by constructor|].
  apply osim_same. intros p. rewrite <- (Hg _ _ Hu), <- (iso_fuel _ _ HH). cbv zeta.
  eapply osim_bind; [by apply nprob_iso|]. intros [d1 x1] [d2 x2] [Hd Hx]. cbn in Hd, Hx. subst x2.
  eapply osim_bind; [apply IH; [by apply cins|done]|]. intros [[g1' b1'] l1'] [[g2' b2'] l2'] (Hg' & Hb' & He). cbn in *. subst l2'. by constructor.
Qed.
Lemma nstep_meas i j g1 b1 g2 b2 ev : i ≈ j → crel g1 g2 → crel b1 b2 →
  osim (λ p q, crel p.1.1 q.1.1 ∧ crel p.1.2 q.1.2 ∧ p.2 = q.2)
    (nmeas_step rO rI radd rmul rsub hit a1 pv i (g1, b1, ev)) (nmeas_step rO rI radd rmul rsub hit a2 pv j (g2, b2, ev)).
Proof.
  intros Hi Hg Hb. unfold nmeas_step. node Hi; [by constructor|]. rewrite F1, F2. cbn [mbind option_bind].
  rewrite <- (Hg i j Hi). apply osim_same. intros pj. eapply osim_bind; [by apply nedges_iso|].
  intros [[g1' b1'] l1'] [[g2' b2'] l2'] (Hg' & Hb' & He). cbn in Hg', Hb', He. subst l2'. rewrite <- (Forall2_length _ _ _ Hcs).
  apply osim_same. intros sl. apply osim_same. intros sl'. by constructor.
Qed.
Lemma nloop_iso l1 l2 : Forall2 (iso a1 a2) l1 l2 → ∀ g1 b1 g2 b2 ev, crel g1 g2 → crel b1 b2 →
  osim (λ p q, p.2 = q.2) (nmeas_loop rO rI radd rmul rsub hit a1 pv l1 (g1, b1, ev)) (nmeas_loop rO rI radd rmul rsub hit a2 pv l2 (g2, b2, ev)).
Proof.
  induction 1 as [|i j l1 l2 Hi Hl IH]; intros g1 b1 g2 b2 ev Hg Hb; cbn [nmeas_loop]; [by constructor|].
  eapply osim_bind; [by apply nstep_meas|]. intros [[g1' b1'] e1] [[g2' b2'] e2] (Hg' & Hb' & He). cbn [fst snd] in *. subst e2. by apply IH.
Qed.
Lemma nmeas_same i j : i ≈ j → nmeas rO rI radd rmul rsub hit a1 pv i = nmeas rO rI radd rmul rsub hit a2 pv j.
Proof.
  intros Hi. apply osim_eq. unfold nmeas. rewrite <- (iso_fuel _ _ HH).
  eapply osim_bind; [apply ntopo_iso; [done|apply srel_empty|constructor]|]. intros [? l1] [? l2] [_ Hl]. cbn in Hl.
  eapply osim_bind; [apply nloop_iso; [done| |apply crel_empty]|].
  { rewrite <- !insert_empty. apply cins; [apply crel_empty|done]. }
  intros [[? ?] e1] [[? ?] e2] He. cbn in He. subst e2. by constructor.
Qed.
End prob.
End nary.
