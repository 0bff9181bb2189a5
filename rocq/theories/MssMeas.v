(** Birnbaum importance of multi-state diagrams: proofs. *)
From Coq Require Import Ring.
From stdpp Require Import strings.
From Verif Require Import Prelude ComputeCache Arena Trees ArenaProofs ArenaMore Bdd Mdd MtMdd MtMdd2 ZmddAlg BssMgr MssMgr MssAlg
  SpecMdd SpecZmddAlg SpecBss NaryProofs MddMain BssSize BssProb BssMeas MssAlgProofs MssProb.

(** ** The order of the nodes *)
Section topo.
Context {T : Type} (a : arena T) (Hwf : awf Rn a) (Hc : hcons (ar_headers a)).
Lemma ntopo_spec n : ∀ d f (visited : gset nat) order, repr a d f → rank d < n → topo a order →
  (∀ y, y ∈ order → y ∈ visited) → (∀ y dy, y ∈ visited → repr a dy y → y ∈ order ∨ rank d < rank dy) →
  ∃ visited' l, ntopo_f n a f (visited, order) = Some (visited', l ++ order) ∧ topo a (l ++ order) ∧ f ∈ l ++ order ∧
    (∀ y, y ∈ visited' ↔ y ∈ visited ∨ y ∈ l) ∧ (∀ y, y ∈ l → y ∉ visited ∧ reach a [f] y).
Proof.
  induction n as [|n IH]; intros d f visited order Hr Hn Ht Hov Hv; [lia|]. cbn [ntopo_f].
  destruct (decide (f ∈ visited)) as [Hin|Hnin].
  { exists visited, []. sp; try done.
    - destruct (Hv f d Hin Hr) as [?|?]; [done|lia].
    - intros y. rewrite elem_of_nil. tauto.
    - by intros ? ?%elem_of_nil. }
  destruct d as [t|hd ds].
  - apply repr_leaf in Hr as [Hl Hnd]. rewrite Hnd. cbn [mbind option_bind node_children].
    exists ({[f]} ∪ visited), [f]. sp; try done.
    + cbn [app topo]. sp; [by rewrite Hnd|by intros ?%Hov|done].
    + by left.
    + intros y. rewrite elem_of_list_singleton, elem_of_union, elem_of_singleton. tauto.
    + intros y ->%elem_of_list_singleton. split; [done|apply reach_self].
  - pose proof (repr_E a Hwf Hc _ _ Hr) as [Hlen Hk]%okdd_br. pose proof Hr as [_ (h & cs & Hnd & Hh & Hf)]%repr_br. cbn [rank] in Hn, Hv.
    rewrite Hnd. cbn [mbind option_bind node_children].
    lazymatch goal with |- context [?g cs ({[f]} ∪ visited, order)] => set (go := g) end.
    assert (Hgo : ∀ ds cs' (visited : gset nat) order, Forall2 (repr a) ds cs' → Forall (λ c, rank c ≤ h_level hd) ds → (∀ c, c ∈ cs' → c ∈ cs) →
      topo a order → (∀ y, y ∈ order → y ∈ visited) → (∀ y dy, y ∈ visited → repr a dy y → y ∈ order ∨ h_level hd < rank dy) →
      ∃ visited' l, go cs' (visited, order) = Some (visited', l ++ order) ∧ topo a (l ++ order) ∧ (∀ c, c ∈ cs' → c ∈ l ++ order) ∧
        (∀ y, y ∈ visited' ↔ y ∈ visited ∨ y ∈ l) ∧ (∀ y, y ∈ l → y ∉ visited ∧ reach a [f] y)).
    { clear Hv Hov Ht Hnin Hlen Hk Hf visited order. intros ds' cs' visited order Hf. revert visited order.
      induction Hf as [|d c ds' cs' Hd _ IHf]; intros visited order Hk Hsub Ht Hov Hv.
      - exists visited, []. sp; try done; [by intros ? ?%elem_of_nil| |by intros ? ?%elem_of_nil].
        intros y. rewrite elem_of_nil. tauto.
      - apply Forall_cons in Hk as [Hk Hks]. cbn.
        destruct (IH d c visited order Hd) as (v1 & l1 & -> & T1 & H1 & V1 & L1); [lia|done|done| |].
        { intros y dy Hy Hdy. destruct (Hv y dy Hy Hdy); [by left|right; lia]. }
        cbn [mbind option_bind].
        destruct (IHf v1 (l1 ++ order) Hks) as (v2 & l2 & Heq & T2 & H2 & V2 & L2).
        { intros x Hx. apply Hsub. by right. }
        { done. }
        { intros y [Hy|Hy]%elem_of_app; apply V1; [by right|left; auto]. }
        { intros y dy Hy Hdy. apply V1 in Hy as [Hy|Hy].
          - destruct (Hv y dy Hy Hdy); [left; by apply elem_of_app; right|by right].
          - left. by apply elem_of_app; left. }
        exists v2, (l2 ++ l1). rewrite <- app_assoc. sp; try done.
        + intros x [->|Hx]%elem_of_cons; [by apply elem_of_app; right|by apply H2].
        + intros y. rewrite V2, V1, elem_of_app. tauto.
        + intros y [Hy|Hy]%elem_of_app.
          * destruct (L2 y Hy) as [Hnv ?]. split; [|done]. intros ?. apply Hnv, V1. by left.
          * destruct (L1 y Hy) as [? Hre]. split; [done|]. eapply reach_trans; [|exact Hre].
            eapply reach_step; [apply reach_self|exact Hnd|]. apply Hsub. by left. }
    destruct (Hgo ds cs ({[f]} ∪ visited) order Hf) as (v' & l & -> & T' & H' & V' & L').
    { eapply Forall_impl; [exact Hk|]. by intros ? [? _]. }
    { done. }
    { done. }
    { intros y Hy. apply elem_of_union_r. auto. }
    { intros y dy [Hy%elem_of_singleton|Hy]%elem_of_union Hdy.
      - subst y. rewrite (repr_fun _ _ _ _ Hdy Hr). cbn. right. lia.
      - destruct (Hv y dy Hy Hdy); [by left|right; lia]. }
    cbn [mbind option_bind]. exists v', (f :: l). sp; try done.
    + cbn [app topo]. sp; [|intros [Hy|Hy]%elem_of_app; [apply L' in Hy as [Hy _]; set_solver|by apply Hnin, Hov]|done].
      intros h' cs' c Hn' Hin. rewrite Hnd in Hn'. injection Hn' as <- <-. by apply H'.
    + by left.
    + intros y. rewrite V', elem_of_union, elem_of_singleton, elem_of_cons. tauto.
    + intros y [->|Hy]%elem_of_cons; [split; [done|apply reach_self]|]. apply L' in Hy as [Hy ?]. split; [|done]. set_solver.
Qed.
Lemma ntopo_ok d f : repr a d f → ∃ v l, ntopo_f (ar_fuel a) a f (∅, []) = Some (v, l) ∧ topo a l ∧ f ∈ l ∧ (∀ y, y ∈ l → reach a [f] y).
Proof.
  intros Hr. destruct (ntopo_spec (ar_fuel a) d f ∅ [] Hr) as (v & l & Heq & Ht & Hf & _ & Hl).
  - by eapply a_fuel_enough.
  - done.
  - by intros y ?%elem_of_nil.
  - by intros y dy ?%elem_of_empty.
  - rewrite app_nil_r in *. exists v, l. sp; try done. intros y Hy. by apply Hl.
Qed.
End topo.

Section meas.
Context {R : Type} (rO rI : R) (radd rmul rsub : R → R → R) (ropp : R → R)
  (Rth : ring_theory rO rI radd rmul rsub ropp eq).
Add Ring Rring4 : Rth.
Local Notation "0" := rO.
Local Notation "1" := rI.
Local Notation "x + y" := (radd x y).
Local Notation "x * y" := (rmul x y).
Local Notation "x - y" := (rsub x y).
Local Notation rsum := (ring_sum rO radd).
Local Notation dot := (dot rO radd rmul).
Context {T : Type} (hit : T → option bool).
Implicit Types d : dd T.
Local Notation npr := (npr rO rI radd rmul hit).

Definition gat (g : gmap nat R) (i : nat) : R := default 0 (g !! i).

Section fixed.
Context (pv : gmap string (list R)) (x : string) (k : nat).
(** the difference of neighbouring entries *)
Definition step (ps : list R) : R :=
  match ps !! k, ps !! S k with Some p, Some p' => p' - p | _, _ => 0 end.
(** the derivative in the direction "from state [k] to state [k+1] of variable [x]", by the uniform recursion *)
Fixpoint ND d : R :=
  match d with
  | Leaf _ => 0
  | Br hd cs => (if decide (h_label hd = x) then step (map (npr pv) cs) else 0) + dot (row pv hd) (map ND cs)
  end.
Definition gsumn (g : gmap nat R) (l : list (nat * dd T)) : R := rsum ((λ p, gat g p.1 * ND p.2) <$> l).
Lemma gsumn_ext g g' l : (∀ i, i ∈ l.*1 → gat g i = gat g' i) → gsumn g l = gsumn g' l.
Proof.
  unfold gsumn, ring_sum. induction l as [|[i d] l IH]; intros H; [done|]. cbn. rewrite (H i) by by left.
  rewrite IH; [done|]. intros j Hj. apply H. by right.
Qed.
Lemma gsumn_add g e v l d0 : NoDup (l.*1) → (e, d0) ∈ l →
  gsumn (<[e := gat g e + v]> g) l = gsumn g l + v * ND d0.
Proof.
  induction l as [|[i d] l IH]; intros Hnd Hin; [by apply elem_of_nil in Hin|]. cbn in Hnd. apply NoDup_cons in Hnd as [Hni Hnd].
  unfold gsumn, ring_sum in *. cbn [fmap list_fmap foldr fst snd]. apply elem_of_cons in Hin as [[= -> ->]|Hin].
  - assert (He : gsumn (<[i := gat g i + v]> g) l = gsumn g l).
    { apply gsumn_ext. intros j Hj. unfold gat. rewrite lookup_insert_ne; [done|]. by intros ->. }
    unfold gsumn, ring_sum in He. rewrite He. unfold gat at 1. rewrite lookup_insert. cbn. ring.
  - rewrite IH by done. assert (i ≠ e).
    { intros ->. apply Hni. apply elem_of_list_fmap. by exists (e, d0). }
    unfold gat at 1. rewrite lookup_insert_ne by done. fold (gat g i). ring.
Qed.
Definition sat_ (g : gmap string (list R)) : R := default 0 (g !! x ≫= (.!! k)).
End fixed.

Lemma slot_spec w : ∀ ps slot, length ps = S (length slot) →
  ∃ slot', nmeas_slot radd rmul rsub w ps slot = Some slot' ∧ length slot' = length slot ∧
    ∀ k, default 0 (slot' !! k) = default 0 (slot !! k) + w * step k ps.
Proof.
  induction ps as [|p ps IH]; intros slot Hl; [done|]. destruct ps as [|p' ps].
  - destruct slot; [|done]. exists []. sp; try done. intros k. assert (step k [p] = 0) as -> by (unfold step; by destruct k). rewrite !lookup_nil. cbn [default]. ring.
  - destruct slot as [|s slot]; [done|]. destruct (IH slot) as (slot' & Heq & Hl' & Hk); [cbn in *; lia|].
    change (nmeas_slot radd rmul rsub w (p :: p' :: ps) (s :: slot)) with
      (rest ← nmeas_slot radd rmul rsub w (p' :: ps) slot; Some ((s + w * (p' - p)) :: rest)).
    rewrite Heq. cbn [mbind option_bind]. eexists. sp; [done|cbn; lia|]. intros [|k]; [done|]. apply (Hk k).
Qed.

Section code.
Context (pv : gmap string (list R)) (a : arena T) (Hwf : awf Rn a) (Hc : hcons (ar_headers a))
  (Hnd : NoDup (h_label <$> ar_headers a)) (Hrows : rows_ok pv a).
Local Notation npcache := (npcache rO rI radd rmul hit pv a).

Lemma edges_spec w pj l : ∀ ds es j g b, NoDup (l.*1) → Forall2 (repr a) ds es → Forall2 (λ d e, (e, d) ∈ l) ds es →
  (j + length ds ≤ length pj)%nat → npcache b →
  ∃ g' b', nmeas_edges rO rI radd rmul hit a pv w pj j es g b = Some (g', b', npr pv <$> ds) ∧ npcache b' ∧
    ∀ x k, gsumn pv x k g' l = gsumn pv x k g l + w * dot (drop j pj) (ND pv x k <$> ds).
Proof.
  induction ds as [|d ds IH]; intros es j g b Hl Hf Hin Hj Hb.
  - apply Forall2_nil_inv_l in Hf as ->. exists g, b. cbn. sp; try done. intros x k. unfold MssProb.dot, ring_sum. destruct (drop j pj); cbn; ring.
  - apply Forall2_cons_inv_l in Hf as (e & es' & Hd & Hf & ->). apply Forall2_cons in Hin as [Hin Hins]. cbn [length] in Hj.
    cbn [nmeas_edges]. destruct (lookup_lt_is_Some_2 pj j) as [p Hp]; [lia|]. rewrite Hp. cbn [mbind option_bind].
    destruct (nprob_spec rO rI radd rmul rsub ropp Rth hit pv a Hwf Hc (ar_fuel a) Hrows d e b Hd) as (b1 & -> & Hb1);
      [by eapply a_fuel_enough|done|]. cbn [mbind option_bind].
    change (default 0 (g !! e)) with (gat g e).
    destruct (IH es' (S j) (<[e:=gat g e + w * p]> g) b1) as (g2 & b2 & -> & Hb2 & Hg2); [done|done|done|lia|done|].
    cbn [mbind option_bind]. exists g2, b2. sp; [done|done|]. intros x k. rewrite Hg2, (gsumn_add _ _ _ _ _ _ _ d) by done.
    rewrite (drop_S pj p j Hp), fmap_cons, dot_cons. ring.
Qed.

Definition slots_ok (ge : gmap string (list R)) : Prop :=
  ∀ x slot, ge !! x = Some slot → ∃ hd, hd ∈ ar_headers a ∧ h_label hd = x ∧ S (length slot) = h_edges hd.
Lemma hd_fun hd hd' : hd ∈ ar_headers a → hd' ∈ ar_headers a → h_label hd = h_label hd' → hd = hd'.
Proof.
  intros (i & Hi)%elem_of_list_lookup (j & Hj)%elem_of_list_lookup Heq.
  assert (i = j) as ->; [|congruence]. apply (NoDup_lookup (h_label <$> ar_headers a) i j (h_label hd)); [done|..]; rewrite list_lookup_fmap;
    [rewrite Hi|rewrite Hj]; cbn; congruence.
Qed.

Lemma loop_spec root : ∀ l g b ge, Forall (λ p, repr a p.2 p.1) l → topo a (l.*1) → npcache b → slots_ok ge →
  (∀ x k, sat_ x k ge + gsumn pv x k g l = ND pv x k root) →
  ∃ g' b' ge', nmeas_loop rO rI radd rmul rsub hit a pv (l.*1) (g, b, ge) = Some (g', b', ge') ∧ slots_ok ge' ∧
    (∀ x k, sat_ x k ge' = ND pv x k root) ∧
    (∀ x, is_Some (ge' !! x) ↔ is_Some (ge !! x) ∨ ∃ id h cs hd, id ∈ l.*1 ∧ ar_nodes a !! id = Some (NT h cs) ∧
       ar_headers a !! h = Some hd ∧ h_label hd = x).
Proof.
  induction l as [|[y d] l IH]; intros g b ge Hf Ht Hb Hs Hinv.
  - exists g, b, ge. cbn. sp; try done.
    + intros x k. rewrite <- (Hinv x k). unfold gsumn. cbn. ring.
    + intros x. split; [by left|]. intros [?|(? & ? & ? & ? & H & _)]; [done|by apply elem_of_nil in H].
  - rewrite fmap_cons in Ht |- *. cbn [fst nmeas_loop]. apply Forall_cons in Hf as [Hr Hf]. cbn [fst snd] in *.
    destruct Ht as (Hch & Hny & Ht).
    unfold nmeas_step. destruct d as [t|hd ds].
    + pose proof Hr as [_ Hn]%repr_leaf. rewrite Hn. cbn [mbind option_bind].
      destruct (IH g b ge Hf Ht Hb Hs) as (g' & b' & ge' & Heq & Hs' & Hv & Hk).
      { intros x k. rewrite <- (Hinv x k).
        change (gsumn pv x k g ((y, Leaf t) :: l)) with (gat g y * 0 + gsumn pv x k g l). ring. }
      exists g', b', ge'. sp; try done. intros x. rewrite Hk. split.
      * intros [?|(id & h & cs & hd & ? & ?)]; [by left|right]. exists id, h, cs, hd. split; [by right|done].
      * intros [?|(id & h & cs & hd & Hin & Hn' & ?)]; [by left|right]. exists id, h, cs, hd. split; [|done].
        apply elem_of_cons in Hin as [->|Hin]; [congruence|done].
    + pose proof (repr_E a Hwf Hc _ _ Hr) as [Hlen _]%okdd_br. pose proof Hr as [_ (h & cs & Hn & Hh & Hfc)]%repr_br.
      assert (Hhd : hd ∈ ar_headers a) by (by eapply elem_of_list_lookup_2).
      unfold Ehs in Hlen. rewrite <- (Eof_edges (ar_headers a) (λ _, 0%nat) hd Hc Hhd) in Hlen.
      rewrite Hn. cbn [mbind option_bind]. rewrite Hh. cbn [mbind option_bind].
      destruct (Hrows hd Hhd) as (pj & Hpj & Hpl). rewrite Hpj. cbn [mbind option_bind].
      change (default 0 (g !! y)) with (gat g y). set (w := gat g y).
      assert (Hnl : NoDup (l.*1)) by by eapply topo_nodup.
      assert (Hin : ∀ e de, repr a de e → e ∈ cs → (e, de) ∈ l).
      { intros e de He Hin. assert (e ∈ l.*1) as Hel by by eapply Hch.
        apply elem_of_list_fmap in Hel as ([e' de'] & -> & Hel). cbn [fst] in *.
        rewrite Forall_forall in Hf. pose proof (Hf _ Hel) as Hr'. cbn in Hr'. by rewrite (repr_fun _ _ _ _ He Hr'). }
      destruct (edges_spec w pj l ds cs 0%nat g b Hnl Hfc) as (g1 & b1 & -> & Hb1 & Hg1); [|lia|done|].
      { apply Forall2_same_length_lookup_2; [by eapply Forall2_length|]. intros i de e Hde He.
        apply Hin; [|by eapply elem_of_list_lookup_2]. eapply list.Forall2_lookup_lr; [exact Hfc|done|done]. }
      cbn [mbind option_bind]. rewrite drop_0 in Hg1.
      assert (Hcl : length cs = h_edges hd) by (rewrite <- (Forall2_length _ _ _ Hfc); done).
      assert (Hpos : 0 < h_edges hd) by by apply Hc.
      assert (∃ slot, (match ge !! h_label hd with Some slot => Some slot
               | None => match length cs with O => None | S m => Some (replicate m 0) end end) = Some slot ∧
               S (length slot) = h_edges hd ∧ ∀ k, default 0 (slot !! k) = sat_ (h_label hd) k ge) as (slot & Heqs & Hsl & Hsk).
      { unfold sat_. destruct (ge !! h_label hd) as [slot|] eqn:Hg.
        - exists slot. sp; try done. destruct (Hs _ _ Hg) as (hd' & Hhd' & He & ?). by rewrite <- (hd_fun hd' hd).
        - destruct (length cs) as [|m] eqn:Hm; [lia|]. exists (replicate m 0). sp; [done|rewrite replicate_length; lia|].
          intros k. cbn. destruct (replicate m 0 !! k) as [z|] eqn:Hz; [|done]. by apply lookup_replicate in Hz as [-> _]. }
      rewrite Heqs. cbn [mbind option_bind].
      destruct (slot_spec w (npr pv <$> ds) slot) as (slot' & -> & Hsl' & Hsk'); [rewrite fmap_length; lia|].
      cbn [mbind option_bind].
      destruct (IH g1 b1 (<[h_label hd := slot']> ge) Hf Ht Hb1) as (g' & b' & ge' & Heq & Hs' & Hv & Hk).
      { intros x s. rewrite lookup_insert_Some. intros [[<- <-]|[_ Hx]]; [|by apply Hs]. exists hd. sp; [done|done|lia]. }
      { intros x k. rewrite <- (Hinv x k), Hg1.
        assert (Hcons : gsumn pv x k g ((y, Br hd ds) :: l) = w * ND pv x k (Br hd ds) + gsumn pv x k g l) by done.
        rewrite Hcons. cbn [ND]. unfold row. rewrite Hpj. cbn [default from_option]. unfold id.
        change (map (npr pv) ds) with (npr pv <$> ds). change (map (ND pv x k) ds) with (ND pv x k <$> ds).
        unfold sat_ at 1. destruct (decide (h_label hd = x)) as [<-|Hne].
        - rewrite lookup_insert. cbn [mbind option_bind]. rewrite Hsk', Hsk. ring.
        - rewrite lookup_insert_ne by done. fold (sat_ x k ge). ring. }
      exists g', b', ge'. sp; try done. intros x. rewrite Hk, lookup_insert_is_Some. split.
      * intros [[<-|[_ ?]]|(id & h' & cs' & hd' & ? & ?)]; [|by left|].
        -- right. exists y, h, cs, hd. split; [by left|done].
        -- right. exists id, h', cs', hd'. split; [by right|done].
      * intros [?|(id & h' & cs' & hd' & Hid & Hn' & Hh' & <-)].
        -- left. destruct (decide (h_label hd = x)); [by left|by right].
        -- apply elem_of_cons in Hid as [->|Hid].
           ++ rewrite Hn in Hn'. injection Hn' as <- <-. rewrite Hh in Hh'. injection Hh' as <-. left. by left.
           ++ right. by exists id, h', cs', hd'.
Qed.

Lemma nmeas_ok d f : repr a d f → ∃ ge, nmeas rO rI radd rmul rsub hit a pv f = Some ge ∧ slots_ok ge ∧
  (∀ x k, sat_ x k ge = ND pv x k d) ∧
  (∀ x, is_Some (ge !! x) ↔ ∃ id h cs hd, reach a [f] id ∧ ar_nodes a !! id = Some (NT h cs) ∧ ar_headers a !! h = Some hd ∧ h_label hd = x).
Proof.
  intros Hr. unfold nmeas. destruct (ntopo_ok a Hwf Hc d f Hr) as (v & l & -> & Ht & Hfl & Hl). cbn [mbind option_bind].
  assert (∃ ps, ps.*1 = l ∧ Forall (λ p : nat * dd T, repr a p.2 p.1) ps) as (ps & <- & Hps).
  { clear Ht Hfl. induction l as [|y l IH]; [by exists []|]. destruct IH as (ps & <- & Hps); [intros; apply Hl; by right|].
    destruct (repr_exists Rn a y Hwf) as [dy Hdy].
    { eapply reach_live; [exact Hwf| |apply (Hl y); by left]. intros r ->%elem_of_list_singleton. by eapply repr_live. }
    exists ((y, dy) :: ps). split; [done|]. by constructor. }
  destruct (loop_spec d ps {[f := 1]} ∅ ∅ Hps Ht) as (g' & b' & ge' & -> & Hs & Hv & Hk).
  - by intros ? ? ?.
  - by intros ? ? ?.
  - intros x k. unfold sat_. rewrite lookup_empty. cbn.
    apply elem_of_list_fmap in Hfl as ([f' d'] & Hff & Hin). cbn in Hff. subst f'.
    rewrite Forall_forall in Hps. pose proof (Hps _ Hin) as Hr'. cbn in Hr'. rewrite (repr_fun _ _ _ _ Hr' Hr) in Hin.
    assert (H1 : ({[f := 1]} : gmap nat R) = <[f := gat ∅ f + 1]> ∅).
    { unfold gat. rewrite lookup_empty. cbn. rewrite insert_empty. f_equal. ring. }
    rewrite H1, (gsumn_add _ _ _ _ _ _ _ d) by (done || by eapply topo_nodup).
    assert (gsumn pv x k ∅ ps = 0) as ->; [|ring].
    unfold gsumn, ring_sum. clear -Rth. induction ps as [|p ps IH]; [done|]. cbn. rewrite IH. unfold gat. rewrite lookup_empty. cbn. ring.
  - cbn [mbind option_bind]. exists ge'. sp; try done. intros x. rewrite Hk, lookup_empty. split.
    + intros [[? ?]|(id & h & cs & hd & Hid & ?)]; [done|]. exists id, h, cs, hd. split; [by apply Hl|done].
    + intros (id & h & cs & hd & Hid & ?). right. exists id, h, cs, hd. split; [|done]. by eapply topo_closed.
Qed.

(** ** The derivative is a difference of conditional probabilities *)
Definition onehot (n j : nat) : list R := (λ i, if decide (i = j) then 1 else 0) <$> seq 0%nat n.
Definition hdok (hd : header) : Prop := ar_headers a !! h_level hd = Some hd.
Lemma nlabel_below x l d : (∃ hd, ar_headers a !! l = Some hd ∧ h_label hd = x) → okdd (Ehs (ar_headers a)) d → rank d ≤ l →
  allhd hdok d → allhd (λ hd, h_label hd ≠ x) d.
Proof.
  intros (hd0 & Hl & <-). induction d as [t|hd cs IH] using dd_ind'; [done|]. intros [Hlen Hcs]%okdd_br Hrk [Hh Hs]%allhd_br.
  cbn [rank] in Hrk. apply allhd_br. split.
  - intros He. unfold hdok in Hh. enough (h_level hd = l) by lia.
    apply (NoDup_lookup (h_label <$> ar_headers a) _ _ (h_label hd0)); [done|..]; rewrite list_lookup_fmap; [rewrite Hh|rewrite Hl]; cbn; congruence.
  - rewrite Forall_forall in IH, Hcs, Hs. apply Forall_forall. intros c Hcc. destruct (Hcs c Hcc). apply IH; auto. lia.
Qed.
Lemma npr_insert_other x c d : allhd (λ hd, h_label hd ≠ x) d → npr (<[x := c]> pv) d = npr pv d.
Proof.
  induction d as [t|hd cs IH] using dd_ind'; [done|]. intros [Hx Hs]%allhd_br. cbn [MssProb.npr]. unfold row at 1.
  rewrite lookup_insert_ne by done. f_equal. apply map_ext_in. intros d Hd%elem_of_list_In.
  rewrite Forall_forall in IH, Hs. apply IH; [done|by apply Hs].
Qed.
Lemma dot_zero ps qs : (∀ q, q ∈ qs → q = 0) → dot ps qs = 0.
Proof.
  revert ps. induction qs as [|q qs IH]; intros [|p ps] Hq; try done. rewrite dot_cons, IH by (intros; apply Hq; by right).
  rewrite (Hq q) by by left. ring.
Qed.
Lemma ND_zero x k d : allhd (λ hd, h_label hd ≠ x) d → ND pv x k d = 0.
Proof.
  induction d as [t|hd cs IH] using dd_ind'; [done|]. intros [Hx Hs]%allhd_br. cbn [ND]. rewrite decide_False by done.
  rewrite dot_zero; [ring|]. intros q Hq. apply elem_of_list_In, in_map_iff in Hq as (d & <- & Hd%elem_of_list_In).
  rewrite Forall_forall in IH, Hs. apply IH; [done|by apply Hs].
Qed.
Lemma dot_onehot n j qs : length qs = n → dot (onehot n j) qs = default 0 (qs !! j).
Proof.
  unfold onehot. assert (Hg : ∀ qs s, dot ((λ i, if decide (i = j) then 1 else 0) <$> seq s (length qs)) qs =
    if decide (s ≤ j) then default 0 (qs !! (j - s)%nat) else 0).
  { clear qs. induction qs as [|q qs IH]; intros s; [by destruct (decide (s ≤ j))|]. cbn [length seq]. rewrite fmap_cons, dot_cons, IH.
    destruct (decide (s = j)) as [->|Hne].
    - rewrite decide_False by lia. rewrite decide_True by lia. rewrite Nat.sub_diag. cbn. ring.
    - destruct (decide (s ≤ j)) as [Hle|Hgt].
      + rewrite decide_True by lia. replace (j - s)%nat with (S (j - S s)%nat) by lia.
        assert ((q :: qs) !! S (j - S s)%nat = qs !! (j - S s)%nat) as -> by done. ring.
      + rewrite decide_False by lia. ring. }
  intros <-. rewrite (Hg qs 0%nat), decide_True, Nat.sub_0_r by lia. done.
Qed.
Lemma dot_sub ps qs qs' : length qs = length qs' → dot ps (zip_with rsub qs qs') = dot ps qs - dot ps qs'.
Proof.
  revert qs qs'. induction ps as [|p ps IH]; intros [|q qs] [|q' qs'] Hl; try done; try (unfold MssProb.dot, ring_sum; cbn; ring).
  cbn [zip_with]. rewrite !dot_cons, IH by (cbn in Hl; lia). ring.
Qed.
Lemma ND_diff x k n d : (∀ hd, hd ∈ ar_headers a → h_label hd = x → h_edges hd = n) → S k < n →
  okdd (Ehs (ar_headers a)) d → allhd hdok d →
  ND pv x k d = npr (<[x := onehot n (S k)]> pv) d - npr (<[x := onehot n k]> pv) d.
Proof.
  intros Hn Hk. induction d as [t|hd cs IH] using dd_ind'.
  { intros _ _. cbn. ring. }
  intros Ho Hh. pose proof Ho as [Hl Hcs]%okdd_br. pose proof Hh as [Hx Hs]%allhd_br.
  rewrite Forall_forall in IH, Hcs, Hs. cbn [ND MssProb.npr].
  assert (Hhd : hd ∈ ar_headers a) by (by eapply elem_of_list_lookup_2).
  unfold Ehs in Hl. rewrite <- (Eof_edges (ar_headers a) (λ _, 0%nat) hd Hc Hhd) in Hl.
  destruct (decide (h_label hd = x)) as [<-|Hne].
  - assert (Hb : ∀ c, c ∈ cs → allhd (λ hd', h_label hd' ≠ h_label hd) c).
    { intros c Hcc. destruct (Hcs c Hcc). eapply nlabel_below; [by exists hd|done|done|auto]. }
    rewrite dot_zero.
    2:{ intros q Hq. apply elem_of_list_In, in_map_iff in Hq as (d & <- & Hd%elem_of_list_In). apply ND_zero. auto. }
    assert (He : ∀ o, map (npr (<[h_label hd := o]> pv)) cs = npr pv <$> cs).
    { intros o. apply map_ext_in. intros d Hd%elem_of_list_In. apply npr_insert_other. auto. }
    rewrite !He. unfold row. rewrite !lookup_insert. cbn [default from_option]. unfold id. rewrite (Hn hd) in Hl by done.
    rewrite !dot_onehot by (by rewrite fmap_length).
    unfold step. change (map (npr pv) cs) with (npr pv <$> cs). rewrite !list_lookup_fmap.
    destruct (lookup_lt_is_Some_2 cs k) as [c0 ->]; [lia|]. destruct (lookup_lt_is_Some_2 cs (S k)) as [c1 ->]; [lia|]. cbn. ring.
  - unfold row. rewrite !lookup_insert_ne by done.
    transitivity (dot (default [] (pv !! h_label hd)) (zip_with rsub (map (npr (<[x:=onehot n (S k)]> pv)) cs) (map (npr (<[x:=onehot n k]> pv)) cs))).
    + assert (map (ND pv x k) cs = zip_with rsub (map (npr (<[x:=onehot n (S k)]> pv)) cs) (map (npr (<[x:=onehot n k]> pv)) cs)) as ->; [|ring].
      clear -IH Hcs Hs. induction cs as [|c cs IHc]; [done|]. cbn [map zip_with]. f_equal.
      * apply IH; [by left|apply Hcs; by left|apply Hs; by left].
      * apply IHc; intros; [apply IH|apply Hcs|apply Hs]; done || by right.
    + by rewrite dot_sub by (by rewrite !map_length).
Qed.
End code.
End meas.
