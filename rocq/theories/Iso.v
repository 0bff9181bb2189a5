(** Two arenas with the same headers: nodes that stand for the same diagram look the same to every traversal. *)
From stdpp Require Import strings.
From Verif Require Import Prelude ComputeCache Arena ArenaProofs Bdd BddProofs BssAlg.

(** ** options *)
Notation osim := option_Forall2.
Lemma osim_bind {A B C D} (P : A → B → Prop) (Q : C → D → Prop) x y f g :
  osim P x y → (∀ a b, P a b → osim Q (f a) (g b)) → osim Q (x ≫= f) (y ≫= g).
Proof. intros [a b Hab|] Hf; cbn; [by apply Hf|constructor]. Qed.
Lemma osim_same {A B} (P : A → B → Prop) {C} (x : option C) f g : (∀ c, osim P (f c) (g c)) → osim P (x ≫= f) (x ≫= g).
Proof. intros Hf. destruct x; cbn; [apply Hf|constructor]. Qed.
Lemma osim_eq {A} (x y : option A) : osim eq x y → x = y.
Proof. by intros [a b ->|]. Qed.
Lemma osim_refl {A} (x : option A) : osim eq x x.
Proof. destruct x; by constructor. Qed.

Section iso.
Context {T : Type} (R1 R2 : list nat → Prop) (a1 a2 : arena T).
Context (W1 : awf R1 a1) (W2 : awf R2 a2) (HH : ar_headers a1 = ar_headers a2).

Definition iso (i j : nat) : Prop := ∃ d, repr a1 d i ∧ repr a2 d j.

Lemma iso_fun i j j' : iso i j → iso i j' → j = j'.
Proof. intros (d & Hi & Hj) (d' & Hi' & Hj'). rewrite (repr_fun _ _ _ _ Hi' Hi) in Hj'. by eapply (repr_inj R2). Qed.
Lemma iso_inj i i' j : iso i j → iso i' j → i = i'.
Proof. intros (d & Hi & Hj) (d' & Hi' & Hj'). rewrite (repr_fun _ _ _ _ Hj' Hj) in Hi'. by eapply (repr_inj R1). Qed.

Lemma iso_node i j : iso i j →
  (∃ t, ar_nodes a1 !! i = Some (Term t) ∧ ar_nodes a2 !! j = Some (Term t)) ∨
  (∃ h hd cs1 cs2, ar_nodes a1 !! i = Some (NT h cs1) ∧ ar_nodes a2 !! j = Some (NT h cs2) ∧
     ar_headers a1 !! h = Some hd ∧ ar_headers a2 !! h = Some hd ∧ Forall2 iso cs1 cs2).
Proof.
  intros (d & Hi & Hj). destruct d as [t|hd ds].
  - left. exists t. apply repr_leaf in Hi as [_ Hi], Hj as [_ Hj]. by split.
  - right. apply repr_br in Hi as [_ (h & cs & Hn & Hh & Hf)]. apply repr_br in Hj as [_ (h' & cs' & Hn' & Hh' & Hf')].
    assert (h = h') as <- by (pose proof (aw_hdr _ _ W1 _ _ Hh); pose proof (aw_hdr _ _ W2 _ _ Hh'); congruence).
    exists h, hd, cs, cs'. sp; try done. clear -Hf Hf'. revert cs' Hf'. induction Hf as [|d c ds cs Hd Hf IH]; intros cs' Hf'.
    + apply Forall2_nil_inv_l in Hf' as ->. constructor.
    + apply Forall2_cons_inv_l in Hf' as (c' & cs'' & Hc & Hf' & ->). constructor; [by exists d|by apply IH].
Qed.

Lemma iso_level i j : iso i j → ar_node_level a1 i = ar_node_level a2 j.
Proof.
  intros Hi. unfold ar_node_level. destruct (iso_node _ _ Hi) as [(t & -> & ->)|(h & hd & cs1 & cs2 & -> & -> & -> & -> & _)]; done.
Qed.

(** memo tables keyed by node *)
Definition crel {A} (c1 c2 : gmap nat A) : Prop := ∀ i j, iso i j → c1 !! i = c2 !! j.
Lemma crel_empty {A} : crel (A := A) ∅ ∅.
Proof. intros i j _. by rewrite !lookup_empty. Qed.
Lemma crel_insert {A} (c1 c2 : gmap nat A) i j x : crel c1 c2 → iso i j → crel (<[i := x]> c1) (<[j := x]> c2).
Proof.
  intros Hc Hi i' j' Hi'. destruct (decide (i' = i)) as [->|Hne].
  - rewrite <- (iso_fun _ _ _ Hi Hi'). by rewrite !lookup_insert.
  - rewrite !lookup_insert_ne; [by apply Hc| |done]. intros ->. by rewrite (iso_inj _ _ _ Hi Hi') in Hne.
Qed.
Definition srel (c1 c2 : gset nat) : Prop := ∀ i j, iso i j → i ∈ c1 ↔ j ∈ c2.
Lemma srel_empty : srel ∅ ∅.
Proof. intros i j _. split; by intros ?%elem_of_empty. Qed.
Lemma srel_add c1 c2 i j : srel c1 c2 → iso i j → srel ({[i]} ∪ c1) ({[j]} ∪ c2).
Proof.
  intros Hc Hi i' j' Hi'. rewrite !elem_of_union, !elem_of_singleton, (Hc _ _ Hi'). split; (intros [->|?]; [left|by right]).
  - by eapply iso_fun.
  - by eapply iso_inj.
Qed.

Lemma iso_fuel : ar_fuel a1 = ar_fuel a2.
Proof. unfold ar_fuel. by rewrite HH. Qed.
Lemma iso_edges2 cs1 cs2 : Forall2 iso cs1 cs2 → osim (λ p q, iso p.1 q.1 ∧ iso p.2 q.2) (edges2 cs1) (edges2 cs2).
Proof.
  intros [|x y l1 l2 Hx [|x' y' l1' l2' Hx' Hl]]; try constructor. destruct Hl; by constructor.
Qed.
End iso.

(** ** the analyses of bss *)
Section bss.
Context (a1 a2 : arena tv) (G1 : good a1) (G2 : good a2) (HH : ar_headers a1 = ar_headers a2).
Local Notation "i ≈ j" := (iso a1 a2 i j) (at level 70).
Local Notation crel := (crel a1 a2).
Local Notation srel := (srel a1 a2).
Local Notation W1 := (gd_wf _ G1).
Local Notation W2 := (gd_wf _ G2).

Ltac node Hi := destruct (iso_node _ _ _ _ W1 W2 _ _ Hi) as
  [(t & E1 & E2)|(h & hd & cs1 & cs2 & E1 & E2 & F1 & F2 & Hcs)]; rewrite E1, E2; cbn [mbind option_bind].

Section prob.
Context {R : Type} (rO rI : R) (radd rmul rsub : R → R → R) (pv : gmap string R) (ss : list bool).
Lemma prob_iso n : ∀ i j c1 c2, i ≈ j → crel c1 c2 →
  osim (λ p q, crel p.1 q.1 ∧ p.2 = q.2) (prob_f rO rI radd rmul rsub n a1 i pv ss c1) (prob_f rO rI radd rmul rsub n a2 j pv ss c2).
Proof.
  induction n as [|n IH]; intros i j c1 c2 Hi Hc; [constructor|]. cbn [prob_f]. rewrite <- (Hc i j Hi).
  destruct (c1 !! i) as [x|]; [by constructor|]. node Hi.
  - destruct t; cbn; (try constructor); (split; [|done]); by apply (crel_insert _ _ _ _ W1 W2).
  - eapply (osim_bind (λ p q, crel p.1 q.1 ∧ p.2 = q.2)).
    + rewrite F1, F2. cbn [mbind option_bind]. eapply osim_bind; [exact (iso_edges2 a1 a2 _ _ Hcs)|]. intros [e0 e1] [e0' e1'] [He0 He1].
      cbn [fst snd] in He0, He1. eapply osim_bind; [by apply IH|]. intros [d1 l1] [d2 l2] [Hd Hq_]; cbn [fst snd] in Hd, Hq_; subst. cbn [fst snd] in Hd.
      eapply osim_bind; [by apply IH|]. intros [d1' h1] [d2' h2] [Hd' Hq_]; cbn [fst snd] in Hd', Hq_; subst. cbn [fst snd] in *. by constructor.
    + intros [d1 r1] [d2 r2] [Hd Hq_]; cbn [fst snd] in Hd, Hq_; subst. constructor. split; [|done]. by apply (crel_insert _ _ _ _ W1 W2).
Qed.

Lemma step_iso i j g1 b1 g2 b2 ev : i ≈ j → crel g1 g2 → crel b1 b2 →
  osim (λ p q, crel p.1.1 q.1.1 ∧ crel p.1.2 q.1.2 ∧ p.2 = q.2)
    (bmeas_step rO rI radd rmul rsub a1 ss pv i (g1, b1, ev)) (bmeas_step rO rI radd rmul rsub a2 ss pv j (g2, b2, ev)).
Proof.
  intros Hi Hg Hb. unfold bmeas_step. node Hi; [by constructor|]. rewrite F1, F2. cbn [mbind option_bind].
  eapply osim_bind; [exact (iso_edges2 a1 a2 _ _ Hcs)|]. intros [e0 e1] [e0' e1'] [He0 He1]. cbn [fst snd] in He0, He1.
  rewrite <- (Hg i j Hi), <- (Hg _ _ He0), <- (iso_fuel a1 a2 HH). cbv zeta.
  match goal with |- context [<[e0' := ?v]> g2] => set (v0 := v) end.
  pose proof (crel_insert _ _ _ _ W1 W2 g1 g2 e0 e0' v0 Hg He0) as Hg'. rewrite <- (Hg' _ _ He1).
  eapply osim_bind; [by apply prob_iso|]. intros [d1 p0] [d2 p0'] [Hd Hq_]; cbn [fst snd] in Hd, Hq_; subst. cbn [fst snd] in Hd.
  eapply osim_bind; [by apply prob_iso|]. intros [d1' p1] [d2' p1'] [Hd' Hq_]; cbn [fst snd] in Hd', Hq_; subst. cbn [fst snd] in *. constructor. cbn [fst snd].
  sp; [by apply (crel_insert _ _ _ _ W1 W2)|done|done].
Qed.

Lemma loop_iso l1 l2 : Forall2 (iso a1 a2) l1 l2 → ∀ g1 b1 g2 b2 ev, crel g1 g2 → crel b1 b2 →
  osim (λ p q, p.2 = q.2) (bmeas_loop rO rI radd rmul rsub a1 ss pv l1 (g1, b1, ev)) (bmeas_loop rO rI radd rmul rsub a2 ss pv l2 (g2, b2, ev)).
Proof.
  induction 1 as [|i j l1 l2 Hi Hl IH]; intros g1 b1 g2 b2 ev Hg Hb; cbn [bmeas_loop]; [by constructor|].
  eapply osim_bind; [by apply step_iso|]. intros [[g1' b1'] e1] [[g2' b2'] e2] (Hg' & Hb' & He). cbn [fst snd] in *. subst e2. by apply IH.
Qed.
End prob.

(** the topological order *)
Definition trel (s1 s2 : gmap nat cstate * list nat * list nat) : Prop :=
  crel s1.1.1 s2.1.1 ∧ Forall2 (iso a1 a2) s1.1.2 s2.1.2 ∧ Forall2 (iso a1 a2) s1.2 s2.2.
Lemma trel_mk c1 c2 r1 r2 q1 q2 : crel c1 c2 → Forall2 (iso a1 a2) r1 r2 → Forall2 (iso a1 a2) q1 q2 → trel (c1, r1, q1) (c2, r2, q2).
Proof. by split. Qed.
Lemma visit_iso n : ∀ i j s1 s2, i ≈ j → trel s1 s2 → osim trel (topo_visit n a1 i s1) (topo_visit n a2 j s2).
Proof.
  induction n as [|n IH]; intros i j [[c1 r1] q1] [[c2 r2] q2] Hi (Hc & Hr & Hq); cbn [fst snd] in *; [constructor|].
  cbn [topo_visit]. rewrite <- (Hc i j Hi). destruct (c1 !! i) as [[]|]; [by constructor|constructor|].
  pose proof (crel_insert _ _ _ _ W1 W2 c1 c2 i j Temporary Hc Hi) as Hc'. node Hi.
  - constructor. apply trel_mk; [by apply (crel_insert _ _ _ _ W1 W2)|by constructor|done].
  - set (go1 := fix go cs st {struct cs} := match cs with [] => Some st | c :: cs => let '(check, result, queue) := st in
        st ← topo_visit n a1 c (check, result, queue ++ [c]); go cs st end).
    set (go2 := fix go cs st {struct cs} := match cs with [] => Some st | c :: cs => let '(check, result, queue) := st in
        st ← topo_visit n a2 c (check, result, queue ++ [c]); go cs st end).
    assert (Hgo : ∀ l1 l2, Forall2 (iso a1 a2) l1 l2 → ∀ s1 s2, trel s1 s2 → osim trel (go1 l1 s1) (go2 l2 s2)).
    { induction 1 as [|x y l1 l2 Hx Hl IHl]; intros [[k1 u1] v1] [[k2 u2] v2] (Hk & Hu & Hv); cbn [fst snd] in *; [by constructor|].
      unfold go1, go2; fold go1 go2. eapply osim_bind; [apply IH; [done|]|].
      - apply trel_mk; [done..|]. apply Forall2_app; [done|by repeat constructor].
      - intros p q Hp. by apply IHl. }
    eapply osim_bind; [apply (Hgo cs1 cs2 Hcs (<[i:=Temporary]> c1, r1, q1) (<[j:=Temporary]> c2, r2, q2)); by apply trel_mk|].
    intros [[k1 u1] v1] [[k2 u2] v2] (Hk & Hu & Hv). cbn [fst snd] in *. constructor. apply trel_mk; [by apply (crel_insert _ _ _ _ W1 W2)|by constructor|done].
Qed.
Lemma topo_loop_iso n : ∀ s1 s2, trel s1 s2 → osim (Forall2 (iso a1 a2)) (topo_loop n a1 s1) (topo_loop n a2 s2).
Proof.
  induction n as [|n IH]; intros [[c1 r1] q1] [[c2 r2] q2] (Hc & Hr & Hq); cbn [fst snd] in *;
    (destruct Hq as [|x y q1 q2 Hx Hq]; [by constructor|]); cbn [topo_loop]; [constructor|].
  rewrite <- (Hc x y Hx). destruct (c1 !! x) as [[]|]; [by apply IH|constructor|].
  rewrite <- (iso_fuel a1 a2 HH). eapply osim_bind; [by apply visit_iso|]. intros p r Hp. by apply IH.
Qed.

Lemma bmeas_iso {R : Type} (rO rI : R) radd rmul rsub pv ss i j n : i ≈ j →
  osim eq (sorted ← topo_loop n a1 (∅, [], [i]); '(_, _, ev) ← bmeas_loop rO rI radd rmul rsub a1 ss pv sorted ({[i := rI]}, ∅, ∅); Some ev)
          (sorted ← topo_loop n a2 (∅, [], [j]); '(_, _, ev) ← bmeas_loop rO rI radd rmul rsub a2 ss pv sorted ({[j := rI]}, ∅, ∅); Some ev).
Proof.
  intros Hi. eapply osim_bind; [apply topo_loop_iso|].
  { apply trel_mk; [apply crel_empty|constructor|by repeat constructor]. }
  intros l1 l2 Hl. eapply osim_bind; [apply loop_iso; [done| |apply crel_empty]|].
  { rewrite <- !insert_empty. apply (crel_insert _ _ _ _ W1 W2); [apply crel_empty|done]. }
  intros [[? ?] e1] [[? ?] e2] He. cbn in He. subst e2. by constructor.
Qed.
Lemma topo_more n a : ∀ s l, topo_loop n a s = Some l → ∀ k, n ≤ k → topo_loop k a s = Some l.
Proof.
  induction n as [|n IH]; intros [[c r] q] l Hl k Hk.
  - destruct q as [|x q]; [by destruct k|done].
  - destruct k as [|k]; [lia|]. destruct q as [|x q]; [done|]. cbn [topo_loop] in *.
    destruct (c !! x) as [[]|]; [apply (IH _ _ Hl); lia|done|].
    destruct (topo_visit _ _ _ _) as [s|]; [|done]. cbn [mbind option_bind] in *. apply (IH _ _ Hl); lia.
Qed.

(** counting *)
Lemma count_iso ss n : ∀ i j c1 c2, i ≈ j → crel c1 c2 →
  osim (λ p q, crel p.1 q.1 ∧ p.2 = q.2) (bdd_count_f n a1 ss i c1) (bdd_count_f n a2 ss j c2).
Proof.
  induction n as [|n IH]; intros i j c1 c2 Hi Hc; [constructor|]. cbn [bdd_count_f]. rewrite <- (Hc i j Hi).
  destruct (c1 !! i) as [x|]; [by constructor|]. node Hi.
  - destruct t; cbn; constructor; (split; [|done]); by apply (crel_insert _ _ _ _ W1 W2).
  - eapply (osim_bind (λ p q, crel p.1 q.1 ∧ p.2 = q.2)).
    + eapply osim_bind; [exact (iso_edges2 a1 a2 _ _ Hcs)|]. intros [e0 e1] [e0' e1'] [He0 He1]. cbn [fst snd] in He0, He1.
      unfold hdr_level. rewrite F1, F2, <- (iso_level _ _ _ _ W1 W2 _ _ He0), <- (iso_level _ _ _ _ W1 W2 _ _ He1). apply osim_same. intros l.
      apply osim_same. intros l0. eapply osim_bind; [by apply IH|]. intros [d1 x1] [d2 x2] [Hd Hq_]; cbn [fst snd] in Hd, Hq_; subst. cbn [fst snd] in Hd.
      apply osim_same. intros l1. eapply osim_bind; [by apply IH|]. intros [d1' h1] [d2' h2] [Hd' Hq_]; cbn [fst snd] in Hd', Hq_; subst. cbn [fst snd] in *. by constructor.
    + intros [d1 r1] [d2 r2] [Hd Hq_]; cbn [fst snd] in Hd, Hq_; subst. constructor. split; [|done]. by apply (crel_insert _ _ _ _ W1 W2).
Qed.

(** sizes *)
Lemma size_iso n : ∀ i j c1 c2, i ≈ j → srel c1 c2 →
  osim (λ p q, srel p.1 q.1 ∧ p.2 = q.2) (node_count_f n a1 i c1) (node_count_f n a2 j c2).
Proof.
  induction n as [|n IH]; intros i j c1 c2 Hi Hc; [constructor|]. cbn [node_count_f].
  destruct (decide (i ∈ c1)) as [Hin|Hni].
  { rewrite decide_True by (by apply (Hc i j Hi)). by constructor. }
  rewrite decide_False by (intros ?; by apply Hni, (Hc i j Hi)). node Hi.
  - constructor. split; [|done]. by apply (srel_add _ _ _ _ W1 W2).
  - eapply (osim_bind (λ p q, srel p.1 q.1 ∧ p.2 = q.2)).
    + eapply osim_bind; [exact (iso_edges2 a1 a2 _ _ Hcs)|]. intros [e0 e1] [e0' e1'] [He0 He1]. cbn [fst snd] in He0, He1.
      eapply osim_bind; [by apply IH|]. intros [d1 [[x1 y1] z1]] [d2 x2] [Hd Hq_]; cbn [fst snd] in Hd, Hq_; subst. cbn [fst snd] in Hd.
      eapply osim_bind; [by apply IH|]. intros [d1' [[x1' y1'] z1']] [d2' h2] [Hd' Hq_]; cbn [fst snd] in Hd', Hq_; subst. cbn [fst snd] in *. by constructor.
    + intros [d1 r1] [d2 r2] [Hd Hq_]; cbn [fst snd] in Hd, Hq_; subst. constructor. split; [|done]. by apply (srel_add _ _ _ _ W1 W2).
Qed.

(** paths *)
Inductive prel : pstack → pstack → Prop :=
  | pr_node l i j : i ≈ j → prel (PNode l i) (PNode l j)
  | pr_push s : prel (PPush s) (PPush s)
  | pr_pop : prel PPop PPop.
Lemma fork_iso labels level lo lo' hi hi' st st' : lo ≈ lo' → hi ≈ hi' → Forall2 prel st st' →
  osim (Forall2 prel) (path_fork labels level lo hi st) (path_fork labels level lo' hi' st').
Proof.
  intros Hl Hh Hst. unfold path_fork. apply osim_same. intros l. apply osim_same. intros x. constructor.
  repeat (constructor; [by constructor|]). done.
Qed.
Lemma pstep_iso labels ss p st st' : Forall2 prel st st' →
  osim (λ x y, Forall2 prel (p_stack x.1) (p_stack y.1) ∧ p_path x.1 = p_path y.1 ∧ x.2 = y.2)
    (bpath_step a1 labels ss (BPath st p)) (bpath_step a2 labels ss (BPath st' p)).
Proof.
  intros [|x y l l' Hx Hl]; unfold bpath_step; cbn [p_stack p_path]; [constructor|].
  destruct Hx as [lv i j Hi|s|]; [|by constructor..].
  rewrite <- (iso_level _ _ _ _ W1 W2 _ _ Hi). apply osim_same. intros cur.
  assert (Hf : ∀ lo lo' hi hi', lo ≈ lo' → hi ≈ hi' →
    osim (λ x y : bpath * option (list string), Forall2 prel (p_stack x.1) (p_stack y.1) ∧ p_path x.1 = p_path y.1 ∧ x.2 = y.2)
     (st0 ← path_fork labels lv lo hi l; Some (BPath st0 p, None)) (st0 ← path_fork labels lv lo' hi' l'; Some (BPath st0 p, None))).
  { intros lo lo' hi hi' H1 H2. eapply osim_bind; [by apply fork_iso|]. intros u v Hu. by constructor. }
  node Hi.
  - destruct t; [destruct (decide (lv = None)); [by constructor|by apply Hf]..|by constructor].
  - destruct (decide (lv = cur)); [|by apply Hf]. eapply osim_bind; [exact (iso_edges2 a1 a2 _ _ Hcs)|].
    intros [e0 e1] [e0' e1'] [He0 He1]. by apply Hf.
Qed.
Lemma collect_iso labels ss n : ∀ p st st', Forall2 prel st st' →
  bpath_collect n a1 labels ss (BPath st p) = bpath_collect n a2 labels ss (BPath st' p).
Proof.
  induction n as [|n IH]; intros p st st' Hst.
  - destruct Hst; done.
  - cbn [bpath_collect p_stack]. pose proof (pstep_iso labels ss p st st' Hst) as Hs. destruct Hst as [|x y l l' Hx Hl]; [done|].
    destruct Hs as [[[st1 p1] o1] [[st2 p2] o2] (Hst & Hp & Ho)|]; [|done]. cbn in Hst, Hp, Ho. subst p2 o2.
    cbn [mbind option_bind]. by rewrite (IH p1 st1 st2 Hst).
Qed.
End bss.
