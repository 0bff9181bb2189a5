(** The memoised recursions evaluate every node of the diagram exactly once; [kofn] makes k * (n + 1 - k) calls of [ite]. *)
From stdpp Require Import strings.
From Verif Require Import Prelude ComputeCache Arena Trees ArenaProofs ArenaMore Bdd Zdd Mdd MtMdd MtMdd2 BssAlg ZddAlg ZmddAlg BssMgr MssMgr MssAlg BddProofs SpecBdd SpecBss BddMain BssGates Work.

Global Set Default Goal Selector "!".

(** ** One depth-first traversal *)
Section once.
Context {T : Type} (a : arena T).
(** [once V id tr]: starting at [id] with the nodes [V] already evaluated, the nodes [tr] are evaluated. *)
Inductive once : gset nat → nat → list nat → Prop :=
  | once_hit V id : id ∈ V → once V id []
  | once_leaf V id t : id ∉ V → ar_nodes a !! id = Some (Term t) → once V id [id]
  | once_node V id h cs cs' tr : id ∉ V → ar_nodes a !! id = Some (NT h cs) → (∀ c, c ∈ cs ↔ c ∈ cs') → onces V cs' tr → once V id (tr ++ [id])
with onces : gset nat → list nat → list nat → Prop :=
  | onces_nil V : onces V [] []
  | onces_cons V c cs t1 t2 : once V c t1 → onces (V ∪ list_to_set t1) cs t2 → onces V (c :: cs) (t1 ++ t2).

Scheme once_mut := Minimality for once Sort Prop with onces_mut := Minimality for onces Sort Prop.
Combined Scheme once_onces_ind from once_mut, onces_mut.

Definition vclosed (V : gset nat) : Prop := ∀ x h cs c, x ∈ V → ar_nodes a !! x = Some (NT h cs) → c ∈ cs → c ∈ V.
(** no node below [root] is below itself *)
Definition acyclic (root : nat) : Prop := ∀ x h cs c, reach a [root] x → ar_nodes a !! x = Some (NT h cs) → c ∈ cs → ¬ reach a [c] x.

Lemma reach_cons_split c cs x : reach a (c :: cs) x → reach a [c] x ∨ reach a cs x.
Proof.
  induction 1 as [r Hr|id h ds d _ IH Hn Hd].
  - apply elem_of_cons in Hr as [->|Hr]; [left; constructor; by apply elem_of_list_singleton|right; by constructor].
  - destruct IH; [left|right]; by eapply reach_step.
Qed.
Lemma reach_in (cs : list nat) c x : c ∈ cs → reach a [c] x → reach a cs x.
Proof.
  intros Hc. induction 1 as [r Hr|id h ds d _ IH Hn Hd].
  - apply elem_of_list_singleton in Hr as ->. by constructor.
  - by eapply reach_step.
Qed.
Lemma reach_kid id h (cs : list nat) x : ar_nodes a !! id = Some (NT h cs) → reach a cs x → reach a [id] x.
Proof.
  intros Hn. induction 1 as [r Hr|y h' ds d _ IH Hn' Hd]; [|by eapply reach_step].
  eapply reach_step; [|exact Hn|done]. constructor. by apply elem_of_list_singleton.
Qed.
Lemma reach_one (cs : list nat) x : reach a cs x → ∃ c, c ∈ cs ∧ reach a [c] x.
Proof.
  induction 1 as [r Hr|id h ds d _ (c & Hc & IH) Hn Hd].
  - exists r. split; [done|]. constructor. by apply elem_of_list_singleton.
  - exists c. split; [done|]. by eapply reach_step.
Qed.

Lemma once_spec root : acyclic root →
  (∀ V id tr, once V id tr → reach a [root] id → vclosed V → NoDup tr ∧ (∀ x, x ∈ tr → x ∉ V ∧ reach a [id] x) ∧ id ∈ V ∪ list_to_set tr ∧ vclosed (V ∪ list_to_set tr)) ∧
  (∀ V cs tr, onces V cs tr → (∀ c, c ∈ cs → reach a [root] c) → vclosed V → NoDup tr ∧ (∀ x, x ∈ tr → x ∉ V ∧ reach a cs x) ∧ (∀ c, c ∈ cs → c ∈ V ∪ list_to_set tr) ∧ vclosed (V ∪ list_to_set tr)).
Proof.
  intros Hac. apply once_onces_ind.
  - intros V id Hid _ Hcl. sp; [apply NoDup_nil; done|by intros x ?%elem_of_nil|set_solver|].
    cbn [list_to_set]. by rewrite (right_id_L ∅ (∪)).
  - intros V id t Hid Hn _ Hcl. sp; [apply NoDup_singleton| |set_solver|].
    + intros x ->%elem_of_list_singleton. split; [done|]. constructor. by apply elem_of_list_singleton.
    + intros x h cs c [Hx|Hx]%elem_of_union Hxn Hc; [apply elem_of_union_l; by eapply Hcl|].
      assert (x = id) as -> by set_solver. congruence.
  - intros V id h cs cs' tr Hid Hn Heq _ IH Hro Hcl. destruct (λ H, IH H Hcl) as (Nd & Hx & Hin & Hcl').
    { intros c Hc. eapply reach_step; [exact Hro|exact Hn|by apply Heq]. }
    assert (Hrid : ∀ x, reach a cs' x → reach a [id] x).
    { intros x (c & Hc & Hr)%reach_one. eapply reach_kid; [exact Hn|]. eapply reach_in; [by apply Heq|done]. }
    sp.
    + apply NoDup_app. sp; [done| |apply NoDup_singleton].
      intros x Hxt ->%elem_of_list_singleton. destruct (Hx id Hxt) as [_ (c & Hc & Hr)%reach_one].
      eapply Hac; [exact Hro|exact Hn|by apply Heq|done].
    + intros x [Hxt| ->%elem_of_list_singleton]%elem_of_app.
      * destruct (Hx x Hxt). split; [done|]. by apply Hrid.
      * split; [done|]. constructor. by apply elem_of_list_singleton.
    + rewrite list_to_set_app_L. set_solver.
    + rewrite list_to_set_app_L. intros x h' ds c Hxin Hxn Hc. 
      assert (x ∈ V ∪ list_to_set tr ∨ x = id) as [Hx'| ->] by set_solver.
      * pose proof (Hcl' x h' ds c Hx' Hxn Hc). set_solver.
      * rewrite Hn in Hxn. injection Hxn as <- <-. apply Heq in Hc. pose proof (Hin c Hc). set_solver.
  - intros V _ Hcl. sp; [apply NoDup_nil; done|by intros x ?%elem_of_nil|by intros c ?%elem_of_nil|].
    cbn [list_to_set]. by rewrite (right_id_L ∅ (∪)).
  - intros V c cs t1 t2 _ IH1 _ IH2 Hro Hcl. destruct (IH1 (Hro c ltac:(by left)) Hcl) as (N1 & X1 & I1 & C1).
    destruct (IH2 (λ d Hd, Hro d (elem_of_list_further _ _ _ Hd)) C1) as (N2 & X2 & I2 & C2). sp.
    + apply NoDup_app. sp; try done. intros x H1 H2. destruct (X2 x H2) as [Hn _]. set_solver.
    + intros x [Hx|Hx]%elem_of_app.
      * destruct (X1 x Hx). split; [done|]. eapply reach_in; [by left|done].
      * destruct (X2 x Hx) as [Hn (d & Hd & Hr)%reach_one]. split; [set_solver|]. eapply reach_in; [by right|done].
    + rewrite list_to_set_app_L. intros d [->|Hd]%elem_of_cons; [set_solver|]. pose proof (I2 d Hd). set_solver.
    + rewrite list_to_set_app_L, (assoc_L (∪)). done.
Qed.

Lemma once_all id tr : acyclic id → once ∅ id tr → NoDup tr ∧ ∀ x, x ∈ tr ↔ reach a [id] x.
Proof.
  intros Hac Ho. destruct (proj1 (once_spec id Hac) _ _ _ Ho) as (Nd & Hx & Hid & Hcl).
  { constructor. by apply elem_of_list_singleton. }
  { intros ? ? ? ? ?%elem_of_empty. done. }
  rewrite (left_id_L ∅ (∪)) in Hid, Hcl. split; [done|]. intros x. split; [intros H; by apply Hx|].
  induction 1 as [r ->%elem_of_list_singleton|y h cs c _ IH Hn Hc].
  - by apply elem_of_list_to_set in Hid.
  - apply (elem_of_list_to_set (C := gset nat)). eapply Hcl; [apply elem_of_list_to_set, IH|exact Hn|done].
Qed.

Lemma awf_acyclic R id : awf R a → live a id → acyclic id.
Proof.
  intros Hwf Hl x h cs c Hx Hn Hc Hr.
  assert (Hstep : ∀ y h cs c, live a y → ar_nodes a !! y = Some (NT h cs) → c ∈ cs → live a c ∧ arank a c < arank a y).
  { intros y h' ds d Hy Hyn Hd. destruct (aw_nt _ _ Hwf _ _ _ Hy Hyn) as (hd & Hh & _ & _ & Hcs).
    rewrite Forall_forall in Hcs. destruct (Hcs d Hd) as [Hld Hb]. split; [done|]. unfold arank. rewrite Hyn, Hh.
    destruct (ar_nodes a !! d) as [[|h2 ds2]|] eqn:Hdn; try lia. destruct (ar_headers a !! h2) as [hd2|] eqn:Hh2; [|lia].
    unfold below in Hb. specialize (Hb _ _ _ Hdn Hh2). lia. }
  assert (Hlx : live a x).
  { eapply (reach_live R a); [done| |exact Hx]. by intros r ->%elem_of_list_singleton. }
  destruct (Hstep _ _ _ _ Hlx Hn Hc) as [Hlc Hlt].
  assert (∀ z, reach a [c] z → live a z ∧ arank a z ≤ arank a c) as Hle.
  { induction 1 as [r ->%elem_of_list_singleton|y h' ds d _ [IHl IH] Hyn Hd]; [done|].
    destruct (Hstep _ _ _ _ IHl Hyn Hd). split; [done|lia]. }
  destruct (Hle x Hr). lia.
Qed.

(** a memo table that gained exactly the traced nodes *)
Lemma dom_gain {R} (c1 : gmap nat R) V tr id r : dom c1 = V ∪ list_to_set tr → dom (<[id := r]> c1) = V ∪ (list_to_set (tr ++ [id]) : gset nat).
Proof. intros H. rewrite dom_insert_L, H, list_to_set_app_L. set_solver. Qed.
End once.

(** ** Leaving the report out *)
Lemma kofn_rec_erase fuel : ∀ m node k s n memo,
  kofn_rec fuel m node k s n memo = '(m', memo', r, _) ← kofn_rec_c fuel m node k s n memo; Some (m', memo', r).
Proof.
  induction fuel as [|fuel IH]; intros m node k s n memo; [done|]. cbn [kofn_rec kofn_rec_c].
  destruct (k =? 0); [done|]. destruct (n - s <? k); [done|]. destruct (memo !! _) as [[v|]|]; [done| |done]. cbn [mbind option_bind].
  rewrite IH. destruct (kofn_rec_c fuel m node (k - 1) (s + 1) n memo) as [[[[m1 memo1] t] c1]|]; [|done]. cbn [mbind option_bind].
  rewrite IH. destruct (kofn_rec_c fuel m1 node k (s + 1) n memo1) as [[[[m2 memo2] e] c2]|]; [|done]. cbn [mbind option_bind].
  destruct (node !! s); [|done]. cbn [mbind option_bind]. destruct (bdd_ite _ _ _ _) as [[]|]; done.
Qed.
Lemma kofn_erase m k xs : kofn m k xs = '(m', r, _) ← kofn_c m k xs; Some (m', r).
Proof. unfold kofn, kofn_c. rewrite kofn_rec_erase. by destruct (kofn_rec_c _ _ _ _ _ _ _) as [[[[]]]|]. Qed.

Lemma dual_erase n : ∀ m id cache, dual_f n m id cache = '(m', c', r, _) ← dual_t n m id cache; Some (m', c', r).
Proof.
  induction n as [|n IH]; intros m id cache; [done|]. cbn [dual_f dual_t].
  destruct (cache !! id); [done|]. destruct (ar_nodes (b_ar m) !! id) as [[[]|h cs]|]; [done..| |done]. cbn [mbind option_bind].
  destruct (edges2 cs) as [[lo hi]|]; [|done]. cbn [mbind option_bind].
  rewrite IH. destruct (dual_t n m hi cache) as [[[[m1 c1] r1] t1]|]; [|done]. cbn [mbind option_bind].
  rewrite IH. destruct (dual_t n m1 lo c1) as [[[[m2 c2] r2] t2]|]; [|done]. cbn [mbind option_bind].
  by destruct (bdd_create_node m2 h r1 r2).
Qed.
Lemma count_erase n a ss : ∀ id cache, bdd_count_f n a ss id cache = '(c', r, _) ← bdd_count_tf n a ss id cache; Some (c', r).
Proof.
  induction n as [|n IH]; intros id cache; [done|]. cbn [bdd_count_f bdd_count_tf].
  destruct (cache !! id); [done|]. destruct (ar_nodes a !! id) as [[[]|h cs]|]; [done..| |done]. cbn [mbind option_bind].
  destruct (edges2 cs) as [[lo hi]|]; [|done]. cbn [mbind option_bind].
  destruct (hdr_level a h); [|done]. cbn [mbind option_bind]. destruct (ar_node_level a lo); [|done]. cbn [mbind option_bind].
  rewrite IH. destruct (bdd_count_tf n a ss lo cache) as [[[c1 r1] t1]|]; [|done]. cbn [mbind option_bind].
  destruct (ar_node_level a hi); [|done]. cbn [mbind option_bind].
  rewrite IH. destruct (bdd_count_tf n a ss hi c1) as [[[c2 r2] t2]|]; done.
Qed.
Lemma zcount_erase n a ss : ∀ id cache, zdd_count_f n a ss id cache = '(c', r, _) ← zdd_count_tf n a ss id cache; Some (c', r).
Proof.
  induction n as [|n IH]; intros id cache; [done|]. cbn [zdd_count_f zdd_count_tf].
  destruct (cache !! id); [done|]. destruct (ar_nodes a !! id) as [[[]|h cs]|]; [done..| |done]. cbn [mbind option_bind].
  destruct (edges2 cs) as [[lo hi]|]; [|done]. cbn [mbind option_bind].
  rewrite IH. destruct (zdd_count_tf n a ss lo cache) as [[[c1 r1] t1]|]; [|done]. cbn [mbind option_bind].
  rewrite IH. destruct (zdd_count_tf n a ss hi c1) as [[[c2 r2] t2]|]; done.
Qed.
Section prob.
Context {R : Type} (rO rI : R) (radd rmul rsub : R → R → R).
Lemma prob_erase n a pv ss : ∀ id cache,
  prob_f rO rI radd rmul rsub n a id pv ss cache = '(c', r, _) ← prob_tf rO rI radd rmul rsub n a id pv ss cache; Some (c', r).
Proof.
  induction n as [|n IH]; intros id cache; [done|]. cbn [prob_f prob_tf].
  destruct (cache !! id); [done|]. destruct (ar_nodes a !! id) as [[[]|h cs]|]; [done..| |done]. cbn [mbind option_bind].
  destruct (ar_headers a !! h); [|done]. cbn [mbind option_bind]. destruct (edges2 cs) as [[lo hi]|]; [|done]. cbn [mbind option_bind].
  rewrite IH. destruct (prob_tf _ _ _ _ _ n a lo pv ss cache) as [[[c1 r1] t1]|]; [|done]. cbn [mbind option_bind].
  rewrite IH. destruct (prob_tf _ _ _ _ _ n a hi pv ss c1) as [[[c2 r2] t2]|]; done.
Qed.
Lemma nprob_erase {T} (hit : T → option bool) n a pv : ∀ id cache,
  nprob_f rO rI radd rmul hit n a pv id cache = '(c', r, _) ← nprob_tf rO rI radd rmul hit n a pv id cache; Some (c', r).
Proof.
  induction n as [|n IH]; intros id cache; [done|]. cbn [nprob_f nprob_tf].
  destruct (cache !! id); [done|]. destruct (ar_nodes a !! id) as [[t|h cs]|]; [done| |done]. cbn [mbind option_bind].
  destruct (ar_headers a !! h) as [hd|]; [|done]. cbn [mbind option_bind]. destruct (pv !! h_label hd) as [fp|]; [|done]. cbn [mbind option_bind].
  assert (∀ cs i cache r tr,
    (fix go i cs cache r {struct cs} := match cs with
       | [] => Some (cache, r)
       | c :: cs => '(cache, tmp) ← nprob_f rO rI radd rmul hit n a pv c cache; p ← fp !! i; go (S i) cs cache (radd r (rmul p tmp))
       end) i cs cache r =
    '(c', r', _) ← (fix go i cs cache r tr {struct cs} := match cs with
       | [] => Some (cache, r, tr)
       | c :: cs => '(cache, tmp, t1) ← nprob_tf rO rI radd rmul hit n a pv c cache; p ← fp !! i; go (S i) cs cache (radd r (rmul p tmp)) (tr ++ t1)
       end) i cs cache r tr; Some (c', r')) as Hgo.
  { clear -IH. intros cs. induction cs as [|c cs IHc]; intros i cache r tr; [done|].
    rewrite IH. destruct (nprob_tf _ _ _ _ hit n a pv c cache) as [[[c1 r1] t1]|]; [|done]. cbn [mbind option_bind].
    destruct (fp !! i); [|done]. cbn [mbind option_bind]. apply IHc. }
  rewrite (Hgo cs 0 cache rO []). match goal with |- context [mbind _ (?F 0 cs cache rO [])] => destruct (F 0 cs cache rO []) as [[[]]|] end; done.
Qed.
End prob.

(** ** The traces are traversals *)
Lemma count_once n a ss : ∀ id cache c' r tr, bdd_count_tf n a ss id cache = Some (c', r, tr) →
  once a (dom cache) id tr ∧ dom c' = dom cache ∪ list_to_set tr.
Proof.
  induction n as [|n IH]; intros id cache c' r tr; [done|]. cbn [bdd_count_tf].
  destruct (cache !! id) as [x|] eqn:Hc.
  { intros [= <- <- <-]. split; [constructor; by apply elem_of_dom_2 in Hc|set_solver]. }
  apply not_elem_of_dom in Hc. destruct (ar_nodes a !! id) as [nd|] eqn:Hn; [|done]. cbn [mbind option_bind].
  destruct nd as [t|h cs].
  { destruct t; cbn [mbind option_bind]; intros [= <- <- <-]; (split; [by eapply once_leaf|rewrite dom_insert_L; set_solver]). }
  destruct (edges2 cs) as [[lo hi]|] eqn:He; [|done]. cbn [mbind option_bind].
  destruct (hdr_level a h); [|done]. cbn [mbind option_bind]. destruct (ar_node_level a lo); [|done]. cbn [mbind option_bind].
  destruct (bdd_count_tf n a ss lo cache) as [[[c1 r1] t1]|] eqn:E1; [|done]. cbn [mbind option_bind].
  destruct (ar_node_level a hi); [|done]. cbn [mbind option_bind].
  destruct (bdd_count_tf n a ss hi c1) as [[[c2 r2] t2]|] eqn:E2; [|done]. cbn [mbind option_bind].
  intros [= <- <- <-]. apply IH in E1 as [O1 D1], E2 as [O2 D2]. split.
  - eapply (once_node _ _ _ h cs [lo; hi]); [done|done| |].
    + destruct cs as [|? [|? [|]]]; try done. injection He as -> ->. done.
    + rewrite <- (app_nil_r t2). eapply onces_cons; [done|]. rewrite <- D1. eapply onces_cons; [done|constructor].
  - apply dom_gain. rewrite D2, D1, list_to_set_app_L. set_solver.
Qed.

Lemma zcount_once n a ss : ∀ id cache c' r tr, zdd_count_tf n a ss id cache = Some (c', r, tr) →
  once a (dom cache) id tr ∧ dom c' = dom cache ∪ list_to_set tr.
Proof.
  induction n as [|n IH]; intros id cache c' r tr; [done|]. cbn [zdd_count_tf].
  destruct (cache !! id) as [x|] eqn:Hc.
  { intros [= <- <- <-]. split; [constructor; by apply elem_of_dom_2 in Hc|set_solver]. }
  apply not_elem_of_dom in Hc. destruct (ar_nodes a !! id) as [nd|] eqn:Hn; [|done]. cbn [mbind option_bind].
  destruct nd as [t|h cs].
  { destruct t; cbn [mbind option_bind]; intros [= <- <- <-]; (split; [by eapply once_leaf|rewrite dom_insert_L; set_solver]). }
  destruct (edges2 cs) as [[lo hi]|] eqn:He; [|done]. cbn [mbind option_bind].
  destruct (zdd_count_tf n a ss lo cache) as [[[c1 r1] t1]|] eqn:E1; [|done]. cbn [mbind option_bind].
  destruct (zdd_count_tf n a ss hi c1) as [[[c2 r2] t2]|] eqn:E2; [|done]. cbn [mbind option_bind].
  intros [= <- <- <-]. apply IH in E1 as [O1 D1], E2 as [O2 D2]. split.
  - eapply (once_node _ _ _ h cs [lo; hi]); [done|done| |].
    + destruct cs as [|? [|? [|]]]; try done. injection He as -> ->. done.
    + rewrite <- (app_nil_r t2). eapply onces_cons; [done|]. rewrite <- D1. eapply onces_cons; [done|constructor].
  - apply dom_gain. rewrite D2, D1, list_to_set_app_L. set_solver.
Qed.

Section prob2.
Context {R : Type} (rO rI : R) (radd rmul rsub : R → R → R).
Lemma prob_once n a pv ss : ∀ id cache c' r tr, prob_tf rO rI radd rmul rsub n a id pv ss cache = Some (c', r, tr) →
  once a (dom cache) id tr ∧ dom c' = dom cache ∪ list_to_set tr.
Proof.
  induction n as [|n IH]; intros id cache c' r tr; [done|]. cbn [prob_tf].
  destruct (cache !! id) as [x|] eqn:Hc.
  { intros [= <- <- <-]. split; [constructor; by apply elem_of_dom_2 in Hc|set_solver]. }
  apply not_elem_of_dom in Hc. destruct (ar_nodes a !! id) as [nd|] eqn:Hn; [|done]. cbn [mbind option_bind].
  destruct nd as [t|h cs].
  { destruct t; cbn [mbind option_bind]; [| |done]; intros [= <- <- <-]; (split; [by eapply once_leaf|rewrite dom_insert_L; set_solver]). }
  destruct (ar_headers a !! h); [|done]. cbn [mbind option_bind].
  destruct (edges2 cs) as [[lo hi]|] eqn:He; [|done]. cbn [mbind option_bind].
  destruct (prob_tf _ _ _ _ _ n a lo pv ss cache) as [[[c1 r1] t1]|] eqn:E1; [|done]. cbn [mbind option_bind].
  destruct (prob_tf _ _ _ _ _ n a hi pv ss c1) as [[[c2 r2] t2]|] eqn:E2; [|done]. cbn [mbind option_bind].
  intros [= <- <- <-]. apply IH in E1 as [O1 D1], E2 as [O2 D2]. split.
  - eapply (once_node _ _ _ h cs [lo; hi]); [done|done| |].
    + destruct cs as [|? [|? [|]]]; try done. injection He as -> ->. done.
    + rewrite <- (app_nil_r t2). eapply onces_cons; [done|]. rewrite <- D1. eapply onces_cons; [done|constructor].
  - apply dom_gain. rewrite D2, D1, list_to_set_app_L. set_solver.
Qed.
End prob2.
Lemma nprob_once {R : Type} (rO rI : R) (radd rmul : R → R → R) {T} (hit : T → option bool) n a pv : ∀ id cache c' r tr, nprob_tf rO rI radd rmul hit n a pv id cache = Some (c', r, tr) →
  once a (dom cache) id tr ∧ dom c' = dom cache ∪ list_to_set tr.
Proof.
  induction n as [|n IH]; intros id cache c' r tr; [done|]. cbn [nprob_tf].
  destruct (cache !! id) as [x|] eqn:Hc.
  { intros [= <- <- <-]. split; [constructor; by apply elem_of_dom_2 in Hc|set_solver]. }
  apply not_elem_of_dom in Hc. destruct (ar_nodes a !! id) as [nd|] eqn:Hn; [|done]. cbn [mbind option_bind].
  destruct nd as [t|h cs].
  { cbn [mbind option_bind]; intros [= <- <- <-]; (split; [by eapply once_leaf|rewrite dom_insert_L; set_solver]). }
  destruct (ar_headers a !! h) as [hd|]; [|done]. cbn [mbind option_bind]. destruct (pv !! h_label hd) as [fp|]; [|done]. cbn [mbind option_bind].
  assert (∀ cs i cache r tr c' r' tr',
    (fix go i cs cache r tr {struct cs} := match cs with
       | [] => Some (cache, r, tr)
       | c :: cs => '(cache, tmp, t1) ← nprob_tf rO rI radd rmul hit n a pv c cache; p ← fp !! i; go (S i) cs cache (radd r (rmul p tmp)) (tr ++ t1)
       end) i cs cache r tr = Some (c', r', tr') → ∃ t, tr' = tr ++ t ∧ onces a (dom cache) cs t ∧ dom c' = dom cache ∪ list_to_set t) as Hgo.
  { clear -IH. intros cs. induction cs as [|c cs IHc]; intros i cache r tr c' r' tr'.
    { intros [= <- <- <-]. exists []. rewrite app_nil_r. sp; [done|constructor|set_solver]. }
    destruct (nprob_tf _ _ _ _ hit n a pv c cache) as [[[c1 r1] t1]|] eqn:E1; [|done]. cbn [mbind option_bind].
    destruct (fp !! i); [|done]. cbn [mbind option_bind]. intros (t & -> & Ht & Hd)%IHc. apply IH in E1 as [O1 D1].
    exists (t1 ++ t). rewrite (assoc_L (++)). sp; [done| |].
    - rewrite D1 in Ht. by constructor.
    - rewrite Hd, D1, list_to_set_app_L. set_solver. }
  match goal with |- mbind _ ?x = _ → _ => destruct x as [[[c1 r1] t1]|] eqn:E end; [|done]. cbn [mbind option_bind]. intros [= <- <- <-].
  apply Hgo in E as (t & -> & Ht & Hd). split.
  - eapply once_node; [done|done|done|exact Ht].
  - apply dom_gain. exact Hd.
Qed.

Lemma dual_once n : ∀ m0 m d id cache m' c' r tr, bwf m0 → step m0 m → repr (b_ar m0) d id → rank d < n →
  (∀ i x, cache !! i = Some x → ∃ di, repr (b_ar m) di i ∧ repr (b_ar m) (dualt di) x) →
  dual_t n m id cache = Some (m', c', r, tr) →
  once (b_ar m0) (dom cache) id tr ∧ dom c' = dom cache ∪ list_to_set tr.
Proof.
  induction n as [|n IH]; intros m0 m d id cache m' c' r tr Hw0 St Hr Hn Hc; [done|]. cbn [dual_t].
  assert (Hsame : ar_nodes (b_ar m) !! id = ar_nodes (b_ar m0) !! id).
  { pose proof (repr_live _ _ _ Hr) as Hl. destruct (live_lookup _ _ Hl) as [nd Hnd]. destruct St as (_ & [_ He] & _).
    destruct (He id nd Hl Hnd) as [_ ->]. done. }
  destruct (cache !! id) as [x|] eqn:Hhit.
  { intros [= <- <- <- <-]. split; [constructor; by apply elem_of_dom_2 in Hhit|set_solver]. }
  apply not_elem_of_dom in Hhit. rewrite Hsame. destruct d as [t|hd ds].
  - pose proof Hr as [Hl Hnd]%repr_leaf. rewrite Hnd. cbn [mbind option_bind].
    destruct t; cbn [mbind option_bind]; intros [= <- <- <- <-]; (split; [by eapply once_leaf|rewrite dom_insert_L; set_solver]).
  - pose proof (bw_good _ Hw0) as Hg. destruct (repr_node2 _ _ _ _ Hg Hr) as (h & lo & hi & dlo & dhi & -> & Hnd & Hh & Hlo & Hhi & Rlo & Rhi).
    rewrite Hnd. cbn [mbind option_bind edges2]. cbn [rank] in Hn.
    destruct (dual_spec n m dhi hi cache) as (m1 & c1 & nl & E1 & St1 & Hnl & Hc1); [apply St|eapply repr_mono; [apply St|done]|lia|done|].
    rewrite dual_erase in E1. destruct (dual_t n m hi cache) as [[[[m1' c1'] nl'] t1]|] eqn:T1; [|done]. cbn [mbind option_bind] in E1 |- *.
    injection E1 as -> -> ->. apply (IH m0 m dhi) in T1 as [O1 D1]; [|done|done|done|lia|done].
    assert (step m0 m1) as St01 by (by eapply step_trans).
    destruct (dual_t n m1 lo c1) as [[[[m2 c2] nh] t2]|] eqn:T2; [|done]. cbn [mbind option_bind].
    apply (IH m0 m1 dlo) in T2 as [O2 D2]; [|done|done|done|lia|done].
    destruct (bdd_create_node m2 h nl nh) as [m3 r3]. cbn [mbind option_bind]. intros [= <- <- <- <-]. split.
    + eapply (once_node _ _ _ h [lo; hi] [hi; lo]); [done|done|set_solver|].
      rewrite <- (app_nil_r t2). eapply onces_cons; [done|]. rewrite <- D1. eapply onces_cons; [done|constructor].
    + apply dom_gain. rewrite D2, D1, list_to_set_app_L. set_solver.
Qed.

Lemma NoDup_bind' {A B} (f : A → list B) (l : list A) : (∀ x y b, x ∈ l → y ∈ l → b ∈ f x → b ∈ f y → x = y) →
  (∀ x, x ∈ l → NoDup (f x)) → NoDup l → NoDup (l ≫= f).
Proof.
  intros Hd Hf. induction 1 as [|x l Hx _ IH]; [constructor|]. cbn [mbind list_bind]. apply NoDup_app. sp.
  - apply Hf. by left.
  - intros b Hb Hb'. apply elem_of_list_bind in Hb' as (y & Hy & Hyl). apply Hx.
    by rewrite (Hd x y b ltac:(by left) ltac:(by right) Hb Hy).
  - apply IH; [|intros y Hy; apply Hf; by right]. intros y z b Hy Hz. apply Hd; by right.
Qed.

(** ** k of n *)
Section kofn.
Context (K n : nat).
Definition filled (memo : list (option nat)) (i : nat) : Prop := is_Some (mjoin (memo !! i)).
Global Instance filled_dec memo i : Decision (filled memo i).
Proof. unfold filled. apply _. Defined.
Definition flist (memo : list (option nat)) : list nat := filter (filled memo) (seq 0 (length memo)).
Lemma elem_flist memo i : i ∈ flist memo ↔ filled memo i.
Proof.
  unfold flist. rewrite elem_of_list_filter, elem_of_seq. split; [tauto|]. intros H. split; [done|].
  destruct H as [v H]. destruct (memo !! i) eqn:E; [|done]. apply lookup_lt_Some in E. lia.
Qed.
Lemma NoDup_flist memo : NoDup (flist memo).
Proof. apply NoDup_filter, NoDup_seq. Qed.
Lemma filled_insert memo i v j : i < length memo → filled (<[i := Some v]> memo) j ↔ j = i ∨ filled memo j.
Proof.
  intros Hi. unfold filled. destruct (decide (j = i)) as [->|Hne].
  - rewrite list_lookup_insert by done. split; [by left|]. intros _. by eexists.
  - rewrite list_lookup_insert_ne by done. naive_solver.
Qed.
Lemma flist_insert memo i v : memo !! i = Some None → length (flist (<[i := Some v]> memo)) = S (length (flist memo)).
Proof.
  intros Hi. assert (flist (<[i := Some v]> memo) ≡ₚ i :: flist memo) as ->; [|done].
  apply NoDup_Permutation; [apply NoDup_flist|apply NoDup_cons; split; [|apply NoDup_flist]|].
  - rewrite elem_flist. unfold filled. rewrite Hi. by intros [? ?].
  - intros x. rewrite elem_of_cons, !elem_flist. apply filled_insert. by apply lookup_lt_Some in Hi.
Qed.

Definition cell (k s : nat) : nat := k * (n + 1) + s.
Lemma cell_inj k s k' s' : s ≤ n → s' ≤ n → cell k s = cell k' s' → k = k' ∧ s = s'.
Proof. unfold cell. intros H1 H2 H. assert (k = k') by nia. subst. split; [done|lia]. Qed.
(** the subproblem needs an answer of its own *)
Definition proper (k s : nat) : Prop := 1 ≤ k ∧ s + k ≤ n.
Definition solved memo k s : Prop := proper k s → filled memo (cell k s).
(** every solved subproblem has both of its parts solved *)
Definition mclosed memo : Prop := ∀ k s, proper k s → filled memo (cell k s) → solved memo (k - 1) (s + 1) ∧ solved memo k (s + 1).
(** every filled entry belongs to a subproblem of (K, 0) *)
Definition mneeded memo : Prop := ∀ i, filled memo i → ∃ k s, i = cell k s ∧ proper k s ∧ k ≤ K ∧ K ≤ k + s.

Lemma kofn_count fuel xs : ∀ m k s memo m' memo' r c, s ≤ n → k ≤ K → K ≤ k + s →
  mclosed memo → mneeded memo → kofn_rec_c fuel m xs k s n memo = Some (m', memo', r, c) →
  length memo' = length memo ∧ mclosed memo' ∧ mneeded memo' ∧ solved memo' k s ∧ (∀ i, filled memo i → filled memo' i) ∧
  (∀ k0 s0, s0 < s → k0 ≤ K → memo' !! cell k0 s0 = memo !! cell k0 s0) ∧
  length (flist memo') = length (flist memo) + c.
Proof.
  induction fuel as [|fuel IH]; intros m k s memo m' memo' r c Hs Hk HK Hcl Hne; [done|]. cbn [kofn_rec_c].
  destruct (Nat.eqb_spec k 0) as [->|Hk0].
  { intros [= <- <- <- <-]. sp; try done; try (intros [? ?]; lia); lia. }
  destruct (Nat.ltb_spec (n - s) k) as [Hlt|Hge].
  { intros [= <- <- <- <-]. sp; try done; try (intros [? ?]; lia); lia. }
  destruct (memo !! (k * (n + 1) + s)) as [hit|] eqn:Hhit; [|done]. cbn [mbind option_bind]. destruct hit as [v|].
  { intros [= <- <- <- <-]. sp; try done; try lia. intros _. unfold filled, cell. rewrite Hhit. by eexists. }
  destruct (kofn_rec_c fuel m xs (k - 1) (s + 1) n memo) as [[[[m1 memo1] t] c1]|] eqn:E1; [|done]. cbn [mbind option_bind].
  destruct (kofn_rec_c fuel m1 xs k (s + 1) n memo1) as [[[[m2 memo2] e] c2]|] eqn:E2; [|done]. cbn [mbind option_bind].
  destruct (xs !! s); [|done]. cbn [mbind option_bind]. destruct (bdd_ite _ _ _ _) as [[m3 res]|]; [|done]. cbn [mbind option_bind].
  intros [= <- <- <- <-].
  apply IH in E1 as (L1 & C1 & N1 & S1 & M1 & P1 & Z1); [|lia|lia|lia|done|done].
  apply IH in E2 as (L2 & C2 & N2 & S2 & M2 & P2 & Z2); [|lia|lia|lia|done|done].
  assert (Hnone : memo2 !! (k * (n + 1) + s) = Some None).
  { pose proof (P2 k s ltac:(lia) ltac:(lia)) as A. pose proof (P1 k s ltac:(lia) ltac:(lia)) as B. unfold cell in A, B. by rewrite A, B. }
  assert (Hlen : k * (n + 1) + s < length memo2) by (by eapply lookup_lt_Some).
  assert (Hpr : proper k s) by (split; lia).
  assert (Hsol : ∀ k0 s0, solved memo2 k0 s0 → solved (<[k * (n + 1) + s:=Some res]> memo2) k0 s0).
  { intros k0 s0 H Hp. apply filled_insert; [done|]. right. by apply H. }
  sp.
  - by rewrite insert_length, L2.
  - intros k0 s0 Hp Hf. apply filled_insert in Hf as [Heq|Hf]; [| |done].
    + apply (cell_inj k0 s0 k s) in Heq as [-> ->]; [|destruct Hp; lia|lia]. split; apply Hsol; [|done].
      intros Hp'. apply M2, S1, Hp'.
    + destruct (C2 k0 s0 Hp Hf). split; by apply Hsol.
  - intros i Hf. apply filled_insert in Hf as [->|Hf]; [|by apply N2|done]. exists k, s. sp; done || lia.
  - intros _. apply filled_insert; [done|]. by left.
  - intros i Hi. apply filled_insert; [done|]. right. by apply M2, M1.
  - intros k0 s0 Hs0 Hk0'. rewrite list_lookup_insert_ne.
    + rewrite P2, P1; [done|lia..].
    + intros Heq. apply (cell_inj k s k0 s0) in Heq as [_ ->]; lia.
  - rewrite flist_insert by done. lia.
Qed.

(** all the subproblems of (K, 0) *)
Definition cells : list nat := seq 1 K ≫= λ k, (λ j, cell k (K - k + j)) <$> seq 0 (n + 1 - K).
Lemma cells_length : length cells = K * (n + 1 - K).
Proof.
  unfold cells. assert (∀ l : list nat, length (l ≫= λ k, (λ j, cell k (K - k + j)) <$> seq 0 (n + 1 - K)) = length l * (n + 1 - K)) as H.
  { induction l as [|k l IH]; [done|]. cbn [mbind list_bind length]. rewrite app_length, fmap_length, seq_length.
    cbn [mbind list_bind] in IH. rewrite IH. lia. }
  by rewrite H, seq_length.
Qed.
Lemma elem_cells i : i ∈ cells ↔ ∃ k s, i = cell k s ∧ proper k s ∧ k ≤ K ∧ K ≤ k + s.
Proof.
  unfold cells. rewrite elem_of_list_bind. split.
  - intros (k & Hi & Hk%elem_of_seq). apply elem_of_list_fmap in Hi as (j & -> & Hj%elem_of_seq).
    exists k, (K - k + j). sp; [done|split; lia|lia..].
  - intros (k & s & -> & [H1 H2] & H3 & H4). exists k. split; [|apply elem_of_seq; lia].
    apply elem_of_list_fmap. exists (s - (K - k)). split; [f_equal; lia|apply elem_of_seq; lia].
Qed.
Lemma NoDup_cells : NoDup cells.
Proof.
  unfold cells. apply NoDup_bind'.
  - intros k1 k2 i H1 H2 Hi1 Hi2. apply elem_of_list_fmap in Hi1 as (j1 & -> & Hj1%elem_of_seq).
    apply elem_of_list_fmap in Hi2 as (j2 & Heq & Hj2%elem_of_seq). apply elem_of_seq in H1, H2.
    apply cell_inj in Heq; lia.
  - intros k Hk%elem_of_seq. apply NoDup_fmap_2_strong; [|apply NoDup_seq].
    intros j1 j2 H1%elem_of_seq H2%elem_of_seq Heq. apply cell_inj in Heq; lia.
  - apply NoDup_seq.
Qed.

Lemma kofn_count_all fuel m xs m' memo' r c :
  kofn_rec_c fuel m xs K 0 n (replicate ((K + 1) * (n + 1)) None) = Some (m', memo', r, c) → c = K * (n + 1 - K).
Proof.
  assert (Hnf : ∀ i, ¬ filled (replicate ((K + 1) * (n + 1)) None) i).
  { intros i [v Hv]. destruct (replicate _ _ !! i) as [x|] eqn:E; [|done]. apply lookup_replicate in E as [-> _]. done. }
  intros E. apply kofn_count in E as (_ & C & N & Sd & _ & _ & Z); [|lia..| |].
  - rewrite <- cells_length. assert (flist (replicate ((K + 1) * (n + 1)) None) = []) as Hnil.
    { apply elem_of_nil_inv. intros x. rewrite elem_flist. apply Hnf. }
    rewrite Hnil in Z. cbn [length plus] in Z. rewrite <- Z. apply Permutation_length, NoDup_Permutation; [apply NoDup_flist|apply NoDup_cells|].
    intros i. rewrite elem_flist, elem_cells. split; [apply N|].
    intros (k & s & -> & Hp & Hk & Hs).
    assert (∀ s k, proper k s → k ≤ K → K ≤ k + s → filled memo' (cell k s)) as Hall; [|by apply Hall].
    clear -C Sd. intros s. induction s as [|s IH]; intros k Hp Hk Hs.
    + assert (k = K) as -> by lia. by apply Sd.
    + destruct Hp as [P1 P2]. destruct (decide (K ≤ k + s)) as [Hge|Hlt].
      * assert (proper k s) as Hp by (split; lia). destruct (C k s Hp) as [_ H]; [by apply IH|].
        replace (S s) with (s + 1) by lia. apply H. split; lia.
      * assert (proper (k + 1) s) as Hp by (split; lia). destruct (C (k + 1) s Hp) as [H _]; [by apply IH; [..|lia|lia]|].
        replace (k + 1 - 1) with k in H by lia. replace (S s) with (s + 1) by lia. apply H. split; lia.
  - intros k s _ Hf. by apply Hnf in Hf.
  - intros i Hf. by apply Hnf in Hf.
Qed.
End kofn.
