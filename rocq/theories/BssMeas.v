(** Birnbaum importance: proofs. *)
From Coq Require Import Ring.
From stdpp Require Import strings.
From Verif Require Import Prelude ComputeCache ComputeCacheProofs Arena Trees ArenaProofs Bdd BddProofs SpecBdd SpecBss BddMain BssAlg BssCount BssSize BssProb.

(** parents before children *)
Fixpoint topo {T} (a : arena T) (l : list nat) : Prop :=
  match l with
  | [] => True
  | y :: r => (∀ h cs c, ar_nodes a !! y = Some (NT h cs) → c ∈ cs → c ∈ r) ∧ y ∉ r ∧ topo a r
  end.
Lemma topo_nodup {T} (a : arena T) l : topo a l → NoDup l.
Proof. induction l as [|y l IH]; [constructor|]. intros (_ & ? & ?). constructor; auto. Qed.

Definition tinv (a : arena tv) (check : gmap nat cstate) (result : list nat) : Prop :=
  (∀ y, check !! y = Some Persistent ↔ y ∈ result) ∧ topo a result.

Lemma topo_visit_spec n a : good a → ∀ d x check result queue, repr a d x → rank d < n → tinv a check result →
  (∀ y dy, check !! y = Some Temporary → repr a dy y → rank d < rank dy) →
  ∃ check' l q', topo_visit n a x (check, result, queue) = Some (check', l ++ result, queue ++ q') ∧
    tinv a check' (l ++ result) ∧ x ∈ l ++ result ∧
    (∀ y, check' !! y = Some Temporary ↔ check !! y = Some Temporary) ∧
    (∀ y, y ∈ l → reach a [x] y) ∧ length q' ≤ 2 * length l ∧ (∀ y, y ∈ q' → y ∈ l ++ result).
Proof.
  intros Hg. induction n as [|n IH]; intros d x check result queue Hr Hn Hti Htemp; [lia|]. cbn [topo_visit].
  destruct (check !! x) as [[|]|] eqn:Hcx.
  - exists check, [], []. rewrite app_nil_r. sp; try done; [by apply Hti|by intros ? ?%elem_of_nil|by intros ? ?%elem_of_nil].
  - exfalso. specialize (Htemp x d Hcx Hr). lia.
  - assert (Hxr : x ∉ result) by (intros H; apply Hti in H; congruence).
    destruct d as [t|hd ds].
    + pose proof Hr as [_ Hnd]%repr_leaf. rewrite Hnd. cbn [mbind option_bind].
      exists (<[x:=Persistent]> (<[x:=Temporary]> check)), [x], []. rewrite app_nil_r. rewrite insert_insert. sp.
      * done.
      * split.
        -- intros y. cbn. rewrite lookup_insert_Some, elem_of_cons, <- (proj1 Hti). destruct (decide (x = y)); naive_solver.
        -- cbn. sp; [by rewrite Hnd|done|apply Hti].
      * cbn. by left.
      * intros y. rewrite lookup_insert_Some. naive_solver.
      * intros y ->%elem_of_list_singleton. apply reach_self.
      * cbn. lia.
      * by intros ? ?%elem_of_nil.
    + destruct (repr_node2 _ _ _ _ Hg Hr) as (h & lo & hi & dlo & dhi & -> & Hnd & Hh & Hlo & Hhi & Rlo & Rhi).
      rewrite Hnd. cbn [mbind option_bind]. cbn [rank] in Hn.
      destruct (IH dlo lo (<[x:=Temporary]> check) result (queue ++ [lo]) Hlo) as (c1 & l1 & q1 & -> & T1 & Hlo1 & Te1 & Re1 & Le1 & Q1).
      { lia. }
      { split; [|apply Hti]. intros y. rewrite <- (proj1 Hti), lookup_insert_Some. destruct (decide (x = y)); naive_solver. }
      { intros y dy. rewrite lookup_insert_Some. intros [[<- _]|[_ Hy]] Hdy.
        - rewrite (repr_fun _ _ _ _ Hdy Hr). cbn. lia.
        - specialize (Htemp y dy Hy Hdy). cbn [rank] in Htemp. lia. }
      cbn [mbind option_bind].
      destruct (IH dhi hi c1 (l1 ++ result) ((queue ++ [lo]) ++ q1 ++ [hi]) Hhi) as (c2 & l2 & q2 & Heq2 & T2 & Hhi2 & Te2 & Re2 & Le2 & Q2).
      { lia. }
      { done. }
      { intros y dy Hy Hdy. apply Te1 in Hy. rewrite lookup_insert_Some in Hy. destruct Hy as [[<- _]|[_ Hy]].
        - rewrite (repr_fun _ _ _ _ Hdy Hr). cbn. lia.
        - specialize (Htemp y dy Hy Hdy). cbn [rank] in Htemp. lia. }
      replace (((queue ++ [lo]) ++ q1) ++ [hi]) with ((queue ++ [lo]) ++ q1 ++ [hi]) by by rewrite (app_assoc _ q1 [hi]).
      rewrite Heq2. cbn [mbind option_bind].
      assert (Hx2 : c2 !! x = Some Temporary).
      { apply Te2, Te1. by rewrite lookup_insert. }
      assert (Hxn : x ∉ l2 ++ l1 ++ result) by (intros H; apply T2 in H; congruence).
      assert (Hedge : ∀ c y, c ∈ [lo; hi] → reach a [c] y → reach a [x] y).
      { intros c y Hc Hre. eapply reach_trans; [|exact Hre]. eapply reach_step; [apply reach_self|exact Hnd|done]. }
      exists (<[x:=Persistent]> c2), (x :: l2 ++ l1), ([lo] ++ q1 ++ [hi] ++ q2). sp.
      * f_equal. rewrite !app_comm_cons, <- !app_assoc. done.
      * rewrite <- app_comm_cons, <- app_assoc. split.
        -- intros y. rewrite lookup_insert_Some, elem_of_cons, <- (proj1 T2). destruct (decide (x = y)); naive_solver.
        -- cbn [topo]. sp; [|done|apply T2]. intros h' cs' c Hnd' Hc. rewrite Hnd in Hnd'. injection Hnd' as <- <-.
           apply elem_of_cons in Hc as [->|Hc]; [by apply elem_of_app; right|]. by apply elem_of_list_singleton in Hc as ->.
      * cbn. by left.
      * intros y. rewrite lookup_insert_Some, Te2, Te1, lookup_insert_Some. destruct (decide (x = y)); naive_solver.
      * intros y. rewrite elem_of_cons, elem_of_app. intros [->|[Hy|Hy]]; [apply reach_self|..].
        -- eapply (Hedge hi); [by right; left|auto].
        -- eapply (Hedge lo); [by left|auto].
      * cbn [length]. rewrite !app_length. cbn [length]. lia.
      * intros y Hy. rewrite <- app_comm_cons, <- app_assoc. right. rewrite !elem_of_app, !elem_of_list_singleton in Hy.
        destruct Hy as [->|[Hy|[->|Hy]]]; [by apply elem_of_app; right|apply elem_of_app; right; auto|done|auto].
Qed.

Lemma topo_loop_done fuel (a : arena tv) check result queue :
  (∀ y, y ∈ queue → check !! y = Some Persistent) → length queue ≤ fuel →
  topo_loop fuel a (check, result, queue) = Some result.
Proof.
  revert fuel. induction queue as [|y q IH]; intros fuel Hq Hl; [by destruct fuel|].
  destruct fuel as [|fuel]; cbn in Hl; [lia|]. cbn [topo_loop]. rewrite Hq by by left. apply IH; [|lia].
  intros z Hz. apply Hq. by right.
Qed.

Lemma topo_sort_spec a d f : good a → repr a d f →
  ∃ l, topo_sort a f = Some l ∧ topo a l ∧ f ∈ l ∧ (∀ y, y ∈ l → reach a [f] y).
Proof.
  intros Hg Hr. unfold topo_sort.
  destruct (topo_visit_spec (ar_fuel a) a Hg d f ∅ [] [] Hr) as (c & l & q & Heq & Ht & Hf & _ & Hre & Hle & Hq).
  { by eapply fuel_enough. }
  { split; [|done]. intros y. rewrite lookup_empty. split; [done|by intros ?%elem_of_nil]. }
  { by intros y dy ?. }
  rewrite app_nil_r in *. cbn [app] in Heq. exists l. cbn [Nat.add topo_loop]. rewrite lookup_empty, Heq. cbn [mbind option_bind].
  sp; [|apply Ht|done|done]. apply (topo_loop_done (S (2 * length (ar_nodes a)))).
  - intros y Hy. apply Ht. by apply Hq.
  - assert (length l ≤ length (ar_nodes a)); [|lia].
    rewrite <- (seq_length (length (ar_nodes a)) 0). apply submseteq_length, NoDup_submseteq; [eapply topo_nodup, Ht|].
    intros y Hy%Hre. apply elem_of_seq. split; [lia|]. cbn.
    eapply (reach_live _ _ [f]) in Hy; [apply Hy|apply Hg|]. intros r ->%elem_of_list_singleton. by eapply repr_live.
Qed.

Lemma topo_closed {T} (a : arena T) l y z : topo a l → y ∈ l → reach a [y] z → z ∈ l.
Proof.
  intros Ht Hy. induction 1 as [r Hr|id h cs c _ IH Hn Hc]; [by apply elem_of_list_singleton in Hr as ->|].
  clear Hy. induction l as [|w l IHl]; [by apply elem_of_nil in IH|]. destruct Ht as (Hch & _ & Ht).
  apply elem_of_cons in IH as [->|IH]; right; [by eapply Hch|auto].
Qed.

Section meas.
Context {R : Type} (rO rI : R) (radd rmul rsub : R → R → R) (ropp : R → R)
  (Rth : ring_theory rO rI radd rmul rsub ropp eq).
Add Ring Rring2 : Rth.
Local Notation "0" := rO.
Local Notation "1" := rI.
Local Notation "x + y" := (radd x y).
Local Notation "x * y" := (rmul x y).
Local Notation "x - y" := (rsub x y).
Local Notation rsum := (ring_sum rO radd).
Local Notation pr := (pr rO rI radd rmul rsub).
Local Notation hp := (hp rO).

Section fixed.
Context (env : gmap string R) (ss : list bool) (x : string).

(** the derivative with respect to variable [x], by the uniform recursion *)
Fixpoint D (d : dd tv) : R :=
  match d with
  | Leaf _ => 0
  | Br hd cs =>
      match map D cs, map (pr env ss) cs with
      | [e0; e1], [p0; p1] => (if decide (h_label hd = x) then p1 - p0 else 0) + ((1 - hp env hd) * e0 + hp env hd * e1)
      | _, _ => 0
      end
  end.
Lemma D_br hd d0 d1 : D (Br hd [d0; d1]) =
  (if decide (h_label hd = x) then pr env ss d1 - pr env ss d0 else 0) + ((1 - hp env hd) * D d0 + hp env hd * D d1).
Proof. done. Qed.

Definition gc_at (g : gmap nat R) (i : nat) : R := default 0 (g !! i).
Definition gsum (g : gmap nat R) (l : list (nat * dd tv)) : R := rsum ((λ p, gc_at g p.1 * D p.2) <$> l).

Lemma gsum_ext g g' l : (∀ i, i ∈ l.*1 → gc_at g i = gc_at g' i) → gsum g l = gsum g' l.
Proof.
  unfold gsum, ring_sum. induction l as [|[i d] l IH]; intros H; [done|]. cbn. rewrite (H i) by by left.
  rewrite IH; [done|]. intros j Hj. apply H. by right.
Qed.
Lemma gsum_add g e v l dd0 : NoDup (l.*1) → (e, dd0) ∈ l →
  gsum (<[e := gc_at g e + v]> g) l = gsum g l + v * D dd0.
Proof.
  induction l as [|[i d] l IH]; intros Hnd Hin; [by apply elem_of_nil in Hin|]. cbn in Hnd. apply NoDup_cons in Hnd as [Hni Hnd].
  unfold gsum, ring_sum in *. cbn [fmap list_fmap foldr fst snd]. apply elem_of_cons in Hin as [[= -> ->]|Hin].
  - assert (He : gsum (<[i := gc_at g i + v]> g) l = gsum g l).
    { apply gsum_ext. intros j Hj. unfold gc_at. rewrite lookup_insert_ne; [done|]. by intros ->. }
    unfold gsum, ring_sum in He. rewrite He. unfold gc_at at 1. rewrite lookup_insert. cbn. ring.
  - rewrite IH by done. assert (i ≠ e).
    { intros ->. apply Hni. apply elem_of_list_fmap. by exists (e, dd0). }
    unfold gc_at at 1. rewrite lookup_insert_ne by done. fold (gc_at g i). ring.
Qed.

Definition ge_at (g : gmap string R) : R := default 0 (g !! x).
End fixed.

(** what the loop maintains *)
Lemma meas_loop a env ss root : good a → ∀ l g b ge, Forall (λ p, repr a p.2 p.1 ∧ det p.2) l → topo a (l.*1) →
  pcache rO rI radd rmul rsub env ss a b →
  (∀ x, ge_at x ge + gsum env ss x g l = D env ss x root) →
  ∃ g' b' ge', bmeas_loop rO rI radd rmul rsub a ss env (l.*1) (g, b, ge) = Some (g', b', ge') ∧
    (∀ x, ge_at x ge' = D env ss x root) ∧
    (∀ x, is_Some (ge' !! x) ↔ is_Some (ge !! x) ∨ ∃ id h cs hd, id ∈ l.*1 ∧ ar_nodes a !! id = Some (NT h cs) ∧
       ar_headers a !! h = Some hd ∧ h_label hd = x).
Proof.
  intros Hg. induction l as [|[y d] l IH]; intros g b ge Hf Ht Hb Hinv.
  - exists g, b, ge. cbn. split; [done|]. split.
    + intros x. rewrite <- (Hinv x). unfold gsum. cbn. ring.
    + intros x. split; [by left|]. intros [?|(? & ? & ? & ? & H & _)]; [done|by apply elem_of_nil in H].
  - cbn [fmap list_fmap fst bmeas_loop]. apply Forall_cons in Hf as [[Hr Hdet] Hf]. cbn [fst snd] in *.
    destruct Ht as (Hch & Hny & Ht). fold (fmap (M := list) (@fst nat (dd tv)) l) in Hch, Hny, Ht.
    unfold bmeas_step. destruct d as [t|hd ds].
    + pose proof Hr as [_ Hnd]%repr_leaf. rewrite Hnd. cbn [mbind option_bind].
      destruct (IH g b ge Hf Ht Hb) as (g' & b' & ge' & Heq & Hv & Hk).
      { intros x. rewrite <- (Hinv x).
        change (gsum env ss x g ((y, Leaf t) :: l)) with (gc_at g y * 0 + gsum env ss x g l). ring. }
      exists g', b', ge'. split; [exact Heq|]. split; [done|]. intros x. rewrite Hk. split.
      * intros [?|(id & h & cs & hd & ? & ?)]; [by left|right]. exists id, h, cs, hd. split; [by right|done].
      * intros [?|(id & h & cs & hd & Hin & Hn & ?)]; [by left|right]. exists id, h, cs, hd. split; [|done].
        apply elem_of_cons in Hin as [->|Hin]; [congruence|done].
    + destruct (repr_node2 _ _ _ _ Hg Hr) as (h & lo & hi & dlo & dhi & -> & Hnd & Hh & Hlo & Hhi & Rlo & Rhi).
      apply det_br in Hdet as [Det0 Det1].
      rewrite Hnd. cbn [mbind option_bind edges2]. rewrite Hh. cbn [mbind option_bind].
      change (default 0 (env !! h_label hd)) with (hp env hd).
      change (default 0 (g !! y)) with (gc_at g y).
      set (w := gc_at g y). set (p := hp env hd).
      assert (Hg0 : match g !! lo with Some val => val + w * (1 - p) | None => w * (1 - p) end = gc_at g lo + w * (1 - p)).
      { unfold gc_at. destruct (g !! lo); cbn; [done|ring]. }
      rewrite Hg0. set (g1 := <[lo := gc_at g lo + w * (1 - p)]> g).
      assert (Hg1 : match g1 !! hi with Some val => val + w * p | None => w * p end = gc_at g1 hi + w * p).
      { unfold gc_at. destruct (g1 !! hi); cbn; [done|ring]. }
      rewrite Hg1. set (g2 := <[hi := gc_at g1 hi + w * p]> g1).
      destruct (prob_f_spec rO rI radd rmul rsub env ss (ar_fuel a) a Hg dlo lo b Hlo) as (b1 & -> & Hb1);
        [by eapply fuel_enough|done|done|]. cbn [mbind option_bind].
      destruct (prob_f_spec rO rI radd rmul rsub env ss (ar_fuel a) a Hg dhi hi b1 Hhi) as (b2 & -> & Hb2);
        [by eapply fuel_enough|done|done|]. cbn [mbind option_bind].
      set (dv := w * (pr env ss dhi - pr env ss dlo)).
      assert (Hge : match ge !! h_label hd with Some val => val + dv | None => dv end = ge_at (h_label hd) ge + dv).
      { unfold ge_at. destruct (ge !! h_label hd); cbn; [done|ring]. }
      rewrite Hge.
      assert (Hnd' : NoDup (l.*1)) by by eapply topo_nodup.
      assert (Hin : ∀ e de, repr a de e → e ∈ [lo; hi] → (e, de) ∈ l).
      { intros e de He Hin. assert (e ∈ l.*1) as Hel by by eapply Hch.
        apply elem_of_list_fmap in Hel as ([e' de'] & -> & Hel). cbn [fst] in *.
        rewrite Forall_forall in Hf. destruct (Hf _ Hel) as [Hr' _]. cbn in Hr'. by rewrite (repr_fun _ _ _ _ He Hr'). }
      destruct (IH g2 b2 (<[h_label hd := ge_at (h_label hd) ge + dv]> ge) Hf Ht Hb2) as (g' & b' & ge' & Heq & Hv & Hk).
      { intros x. rewrite <- (Hinv x). unfold g2. rewrite (gsum_add env ss x g1 hi (w * p) l dhi Hnd') by (apply Hin; [done|by right; left]).
        unfold g1. rewrite (gsum_add env ss x g lo (w * (1 - p)) l dlo Hnd') by (apply Hin; [done|by left]).
        assert (Hc : gsum env ss x g ((y, Br hd [dlo; dhi]) :: l) = w * D env ss x (Br hd [dlo; dhi]) + gsum env ss x g l) by done.
        rewrite Hc, D_br. fold p. unfold ge_at at 1. destruct (decide (h_label hd = x)) as [->|Hne].
        - rewrite lookup_insert. cbn. unfold dv. ring.
        - rewrite lookup_insert_ne by done. fold (ge_at x ge). ring. }
      exists g', b', ge'. split; [exact Heq|]. split; [done|]. intros x. rewrite Hk, lookup_insert_is_Some.
      split.
      * intros [[<-|[_ ?]]|(id & h' & cs & hd' & ? & ?)]; [|by left|].
        -- right. exists y, h, [lo; hi], hd. split; [by left|done].
        -- right. exists id, h', cs, hd'. split; [by right|done].
      * intros [?|(id & h' & cs & hd' & Hid & Hn & Hh' & <-)].
        -- left. destruct (decide (h_label hd = x)); [by left|by right].
        -- apply elem_of_cons in Hid as [->|Hid].
           ++ rewrite Hnd in Hn. injection Hn as <- <-. rewrite Hh in Hh'. injection Hh' as <-. left. by left.
           ++ right. by exists id, h', cs, hd'.
Qed.

(** the derivative is the difference of the two conditional probabilities *)
Lemma pr_insert_other env ss x c d : allhd (λ hd, h_label hd ≠ x) d → okdd E2 d →
  pr (<[x := c]> env) ss d = pr env ss d.
Proof.
  induction d as [t|hd cs IH] using dd_ind'; [done|]. intros [Hx Hs]%allhd_br [Hl Hcs]%okdd_br.
  unfold E2 in Hl. destruct cs as [|d0 [|d1 [|]]]; try done.
  rewrite !Forall_cons in IH, Hcs, Hs. destruct IH as (IH0 & IH1 & _), Hcs as ((R0 & O0) & (R1 & O1) & _), Hs as (H0 & H1 & _).
  rewrite !pr_br, IH0, IH1 by done. unfold BssProb.hp. by rewrite lookup_insert_ne.
Qed.
Lemma D_zero env ss x d : allhd (λ hd, h_label hd ≠ x) d → okdd E2 d → D env ss x d = 0.
Proof.
  induction d as [t|hd cs IH] using dd_ind'; [done|]. intros [Hx Hs]%allhd_br [Hl Hcs]%okdd_br.
  unfold E2 in Hl. destruct cs as [|d0 [|d1 [|]]]; try done.
  rewrite !Forall_cons in IH, Hcs, Hs. destruct IH as (IH0 & IH1 & _), Hcs as ((R0 & O0) & (R1 & O1) & _), Hs as (H0 & H1 & _).
  rewrite D_br, IH0, IH1, decide_False by done. ring.
Qed.
(** labels identify levels *)
Lemma label_below (names : list string) x l (d : dd tv) : NoDup names → names !! l = Some x → okdd E2 d → rank d ≤ l →
  allhd (λ hd, names !! h_level hd = Some (h_label hd)) d → allhd (λ hd, h_label hd ≠ x) d.
Proof.
  intros Hnd Hx. induction d as [t|hd cs IH] using dd_ind'; [done|]. intros [Hl Hcs]%okdd_br Hrk [Hh Hs]%allhd_br.
  cbn [rank] in Hrk. apply allhd_br. split.
  - intros He. rewrite He in Hh. pose proof (NoDup_lookup _ _ _ _ Hnd Hx Hh). lia.
  - rewrite Forall_forall in IH, Hcs, Hs. apply Forall_forall. intros c Hc. destruct (Hcs c Hc). apply IH; auto. lia.
Qed.

Lemma D_diff env ss x names d : NoDup names → okdd E2 d →
  allhd (λ hd, names !! h_level hd = Some (h_label hd)) d →
  D env ss x d = pr (<[x := 1]> env) ss d - pr (<[x := 0]> env) ss d.
Proof.
  intros Hnd. induction d as [t|hd cs IH] using dd_ind'.
  { intros _ _. cbn. ring. }
  intros Ho Hh. pose proof Ho as [Hl Hcs]%okdd_br. pose proof Hh as [Hx Hs]%allhd_br.
  unfold E2 in Hl. destruct cs as [|d0 [|d1 [|]]]; try done.
  rewrite !Forall_cons in IH, Hcs, Hs. destruct IH as (IH0 & IH1 & _), Hcs as ((R0 & O0) & (R1 & O1) & _), Hs as (H0 & H1 & _).
  rewrite D_br, !pr_br. destruct (decide (h_label hd = x)) as [<-|Hne].
  - assert (L0 : allhd (λ hd', h_label hd' ≠ h_label hd) d0) by by eapply label_below.
    assert (L1 : allhd (λ hd', h_label hd' ≠ h_label hd) d1) by by eapply label_below.
    rewrite !pr_insert_other, !D_zero by done. unfold BssProb.hp. rewrite !lookup_insert. cbn. ring.
  - rewrite IH0, IH1 by done. unfold BssProb.hp. rewrite !lookup_insert_ne by done. ring.
Qed.

Lemma det_reach a d id d' id' : good a → repr a d id → det d → reach a [id] id' → repr a d' id' → det d'.
Proof.
  intros Hg Hr Hd Hre. revert d'. induction Hre as [r Hin|y h cs c Hre IH Hn Hc]; intros d' Hr'.
  - apply elem_of_list_singleton in Hin as ->. by rewrite (repr_fun _ _ _ _ Hr' Hr).
  - assert (Hlx : live a y).
    { eapply reach_live; [apply Hg| |exact Hre]. intros r Hin%elem_of_list_singleton. subst. by eapply repr_live. }
    destruct (repr_exists _ _ _ (gd_wf _ Hg) Hlx) as [dy Hdy]. specialize (IH _ Hdy).
    destruct dy as [t|hd ds]; [apply repr_leaf in Hdy as [_ ?]; congruence|].
    destruct (repr_node2 _ _ _ _ Hg Hdy) as (h' & lo & hi & dlo & dhi & -> & Hnd & Hh & Hlo & Hhi & Rlo & Rhi).
    rewrite Hn in Hnd. injection Hnd as -> ->. apply det_br in IH as [? ?].
    apply elem_of_cons in Hc as [->|Hc]; [by rewrite (repr_fun _ _ _ _ Hr' Hlo)|].
    apply elem_of_list_singleton in Hc as ->. by rewrite (repr_fun _ _ _ _ Hr' Hhi).
Qed.

Lemma bmeas_l m names env ss f : bwf m → bdd_valid m f → bdd_order m names → NoDup names →
  (∀ rho, ∃ b, bdd_value m rho f (tvb b)) →
  ∃ g, bdd_bmeas rO rI radd rmul rsub m env ss f = Some g ∧
    (∀ x, is_Some (g !! x) ↔ bdd_occurs m f x) ∧
    (∀ x v, g !! x = Some v → ∃ p1 p0,
       bdd_prob rO rI radd rmul rsub m (<[x := 1]> env) ss f = Some p1 ∧
       bdd_prob rO rI radd rmul rsub m (<[x := 0]> env) ss f = Some p0 ∧ v = p1 - p0).
Proof.
  intros Hre Vf Hord Hnn Hdet. pose proof Hre as Hw. pose proof (bw_good _ Hw) as Hg.
  destruct (valid_repr _ _ Hw Vf) as [d Hd]. pose proof (det_value _ _ _ Hw Hd Hdet) as Hdt.
  unfold bdd_bmeas. destruct (topo_sort_spec (b_ar m) d f Hg Hd) as (l & -> & Htopo & Hfl & Hlr).
  cbn [mbind option_bind].
  assert (Hlp : ∃ lp, lp.*1 = l ∧ Forall (λ p, repr (b_ar m) p.2 p.1 ∧ det p.2) lp).
  { clear Htopo Hfl. induction l as [|y l IH]; [by exists []|].
    destruct IH as (lp & <- & Hlp); [intros z Hz; apply Hlr; by right|].
    assert (Hry : reach (b_ar m) [f] y) by (apply Hlr; by left).
    assert (Hly : live (b_ar m) y).
    { eapply reach_live; [apply Hg| |exact Hry]. intros r Hin%elem_of_list_singleton. subst. by eapply repr_live. }
    destruct (repr_exists _ _ _ (gd_wf _ Hg) Hly) as [dy Hdy]. exists ((y, dy) :: lp). split; [done|].
    constructor; [|done]. split; [done|]. exact (det_reach _ _ _ _ _ Hg Hd Hdt Hry Hdy). }
  destruct Hlp as (lp & <- & Hlp).
  destruct (meas_loop (b_ar m) env ss d Hg lp {[f := 1]} ∅ ∅ Hlp Htopo) as (g' & b' & ge & -> & Hv & Hk).
  { by intros ? ? ?. }
  { intros x. unfold ge_at. rewrite lookup_empty. cbn [default from_option].
    assert (Hz : gsum env ss x ∅ lp = 0).
    { clear - Rth. induction lp as [|[y dy] l IH]; [done|].
      change (gsum env ss x ∅ ((y, dy) :: l)) with (gc_at ∅ y * D env ss x dy + gsum env ss x ∅ l).
      rewrite IH. unfold gc_at. rewrite lookup_empty. cbn [default from_option]. unfold id. ring. }
    assert (Hfd : (f, d) ∈ lp).
    { apply elem_of_list_fmap in Hfl as ([f' d'] & -> & Hin). rewrite Forall_forall in Hlp.
      destruct (Hlp _ Hin) as [Hr' _]. cbn in *. by rewrite (repr_fun _ _ _ _ Hd Hr'). }
    pose proof (gsum_add env ss x ∅ f 1 lp d (topo_nodup _ _ Htopo) Hfd) as Ha. rewrite Hz in Ha.
    assert (gsum env ss x {[f := 1]} lp = gsum env ss x (<[f := gc_at ∅ f + 1]> ∅) lp) as ->.
    { apply gsum_ext. intros i _. f_equal. unfold gc_at. rewrite lookup_empty. cbn.
      assert (0 + 1 = 1) as -> by ring. done. }
    rewrite Ha. ring. }
  cbn [mbind option_bind]. exists ge. split; [done|]. split.
  - intros x. rewrite Hk, lookup_empty. split.
    + intros [[? ?]|(id & h & cs & hd & Hin & ?)]; [done|]. exists id, h, cs, hd. split; [|done].
      apply reaches_reach. by apply Hlr.
    + intros (id & h & cs & hd & Hr & ?). right. exists id, h, cs, hd. split; [|done].
      apply reaches_reach in Hr. by eapply topo_closed.
  - intros x v Hx. eexists _, _. split; [by apply bdd_prob_ok|]. split; [by apply bdd_prob_ok|].
    assert (Hgv : ge_at x ge = v) by (unfold ge_at; by rewrite Hx). rewrite <- Hgv, Hv.
    eapply D_diff; [done|by eapply good_ok|]. eapply repr_allhd; [|done]. apply Hord.
Qed.
End meas.
