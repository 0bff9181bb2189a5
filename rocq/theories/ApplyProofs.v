(** The operations of BddManager evaluate no call twice unless the computed table lost an entry. *)
From Verif Require Import Prelude ComputeCache ComputeCacheProofs CacheSpec Arena Trees ArenaProofs Bdd BddProofs Apply ApplyCache Keeps.

Global Set Default Goal Selector "!".

(** ** Leaving the list out *)
Definition drop_tr {A B C : Type} (x : option (A * B * C)) : option (A * B) := '(a, b, _) ← x; Some (a, b).

Lemma not_erase n : ∀ m f, drop_tr (bdd_not_tf n m f) = bdd_not_f n m f.
Proof.
  induction n as [|n IH]; intros m f; [done|]. cbn [bdd_not_tf bdd_not_f].
  destruct (bdd_cache_get m OpNot f 0) as [[x|]|]; cbn [mbind option_bind]; try done.
  destruct (ar_nodes (b_ar m) !! f) as [[t|hf fc]|]; cbn [mbind option_bind]; try done.
  - destruct t; cbn [mbind option_bind]; by destruct (bdd_cache_put _ _ _ _ _).
  - destruct (edges2 fc) as [[f0 f1]|]; cbn [mbind option_bind]; [|done]. rewrite <- IH.
    destruct (bdd_not_tf n m f0) as [[[m1 lo] t0]|]; unfold drop_tr at 2; cbn [mbind option_bind]; [|done]. rewrite <- IH.
    destruct (bdd_not_tf n m1 f1) as [[[m2 hi] t1]|]; unfold drop_tr at 2; cbn [mbind option_bind]; [|done].
    destruct (bdd_create_node m2 hf lo hi) as [m3 r]. cbn [mbind option_bind]. by destruct (bdd_cache_put _ _ _ _ _).
Qed.

Definition ap_f (o : bop) : nat → bdd → nat → nat → option (bdd * nat) :=
  match o with OpAnd => bdd_and_f | OpOr => bdd_or_f | OpXOr => bdd_xor_f | OpNot => λ n m f _, bdd_not_f n m f end.

Lemma ap_erase o n : o ≠ OpNot → ∀ m f g, drop_tr (bdd_ap_tf o n m f g) = ap_f o n m f g.
Proof.
  intros Ho. induction n as [|n IH]; intros m f g; [by destruct o|].
  assert (Hrec : ∀ m f g, ap_f o n m f g = drop_tr (bdd_ap_tf o n m f g)) by (intros; symmetry; apply IH). clear IH.
  destruct o; try done; cbn [ap_f] in *; cbn [bdd_ap_tf bdd_and_f bdd_or_f bdd_xor_f];
  (destruct (f =? g); [done|]; destruct (if g <? f then (g, f) else (f, g)) as [f' g'];
   destruct (bdd_cache_get m _ f' g') as [[x|]|]; cbn [mbind option_bind]; try done;
   destruct (ar_nodes (b_ar m) !! f') as [[tf|hf fc]|]; cbn [mbind option_bind]; try done;
   destruct (ar_nodes (b_ar m) !! g') as [[tg|hg gc]|]; cbn [mbind option_bind]; try done).
  all: try (destruct (hdr_level (b_ar m) hf) as [lf|]; cbn [mbind option_bind]; [|done];
    destruct (hdr_level (b_ar m) hg) as [lg|]; cbn [mbind option_bind]; [|done];
    destruct (edges2 fc) as [[f0 f1]|]; cbn [mbind option_bind]; [|done];
    destruct (edges2 gc) as [[g0 g1]|]; cbn [mbind option_bind]; [|done];
    destruct (lg <? lf); [|destruct (lf <? lg)]; rewrite Hrec;
      (match goal with |- context [bdd_ap_tf ?o ?k ?a ?x ?y] => destruct (bdd_ap_tf o k a x y) as [[[m1 lo] t0]|] end;
       cbn [drop_tr mbind option_bind]; [|done]; rewrite Hrec;
       match goal with |- context [bdd_ap_tf ?o ?k ?a ?x ?y] => destruct (bdd_ap_tf o k a x y) as [[[m2 hi] t1]|] end;
       cbn [drop_tr mbind option_bind]; [|done]; destruct (bdd_create_node m2 _ lo hi) as [m3 r];
       cbn [mbind option_bind]; by destruct (bdd_cache_put _ _ _ _ _))).
  all: unfold ap_leaf; try destruct tf; try destruct tg; rewrite <- ?not_erase.
  all: try match goal with |- context [bdd_not_tf ?n ?m ?x] => destruct (bdd_not_tf n m x) as [[[m1 lo] t0]|] end.
  all: cbn [drop_tr mbind option_bind]; try done; by destruct (bdd_cache_put _ _ _ _ _).
Qed.

Lemma ite_erase n : ∀ m f g h, drop_tr (bdd_ite_tf n m f g h) = bdd_ite_f n m f g h.
Proof.
  induction n as [|n IH]; intros m f g h; [done|]. cbn [bdd_ite_tf bdd_ite_f].
  destruct (ar_nodes (b_ar m) !! f) as [[t|hf fc]|]; cbn [mbind option_bind]; try done; [by destruct t|].
  destruct (g =? h); [done|].
  destruct (bdd_ite_get m f g h) as [[x|]|]; cbn [mbind option_bind]; try done.
  destruct (hdr_level (b_ar m) hf) as [lf|]; cbn [mbind option_bind]; [|done].
  destruct (bdd_top_step m lf g) as [l1|]; cbn [mbind option_bind]; [|done].
  destruct (bdd_top_step m l1 h) as [l2|]; cbn [mbind option_bind]; [|done].
  destruct (bdd_cofactor m f l2) as [[f0 f1]|]; cbn [mbind option_bind]; [|done].
  destruct (bdd_cofactor m g l2) as [[g0 g1]|]; cbn [mbind option_bind]; [|done].
  destruct (bdd_cofactor m h l2) as [[h0 h1]|]; cbn [mbind option_bind]; [|done].
  destruct (bdd_top_header m [f; g; h] l2) as [hid|]; cbn [mbind option_bind]; [|done].
  rewrite <- IH. destruct (bdd_ite_tf n m f0 g0 h0) as [[[m1 lo] t0]|]; cbn [drop_tr mbind option_bind]; [|done].
  rewrite <- IH. destruct (bdd_ite_tf n m1 f1 g1 h1) as [[[m2 hi] t1]|]; cbn [drop_tr mbind option_bind]; [|done].
  destruct (bdd_create_node m2 hid lo hi) as [m3 r]. cbn [mbind option_bind]. by destruct (bdd_ite_put _ _ _ _ _).
Qed.

(** ** The keys of the evaluated calls *)
Definition kn (k : bop * nat * nat) : key := (bop_code k.1.1, N.of_nat k.1.2, N.of_nat k.2).
Definition kn3 (k : nat * nat * nat) : key := (N.of_nat k.1.1, N.of_nat k.1.2, N.of_nat k.2).
Global Instance kn_inj : Inj (=) (=) kn.
Proof. intros [[o f] g] [[o' f'] g'] [= Ho Hf Hg]. apply (inj N.of_nat) in Hf, Hg. subst. by destruct o, o'. Qed.
Global Instance kn3_inj : Inj (=) (=) kn3.
Proof. intros [[o f] g] [[o' f'] g'] [= Ho Hf Hg]. apply (inj N.of_nat) in Ho, Hf, Hg. by subst. Qed.

Lemma same_node m0 m d id : step m0 m → repr (b_ar m0) d id → ar_nodes (b_ar m) !! id = ar_nodes (b_ar m0) !! id.
Proof.
  intros St Hr. pose proof (repr_live _ _ _ Hr) as Hl. destruct (live_lookup _ _ Hl) as [nd Hnd]. destruct St as (_ & [_ He] & _).
  destruct (He id nd Hl Hnd) as [_ ->]. done.
Qed.
Lemma create_node_caches m h lo hi m' r : bdd_create_node m h lo hi = (m', r) → b_cache m' = b_cache m ∧ b_ite m' = b_ite m.
Proof.
  unfold bdd_create_node. destruct (lo =? hi); [by intros [= <- <-]|]. destruct (ar_hashcons _ _ _) as [a id]. by intros [= <- <-].
Qed.
Lemma cache_put_inv m o f g v m' : bdd_cache_put m o f g v = Some m' → cc_put (b_cache m) (kn (o, f, g)).1.1 (kn (o, f, g)).1.2 (kn (o, f, g)).2 (N.of_nat v) = Some (b_cache m').
Proof. unfold bdd_cache_put, kn. cbn [fst snd]. destruct (cc_put _ _ _ _ _); [|done]. by intros [= <-]. Qed.
Lemma ite_put_inv m f g h v m' : bdd_ite_put m f g h v = Some m' → cc_put (b_ite m) (kn3 (f, g, h)).1.1 (kn3 (f, g, h)).1.2 (kn3 (f, g, h)).2 (N.of_nat v) = Some (b_ite m').
Proof. unfold bdd_ite_put, kn3. cbn [fst snd]. destruct (cc_put _ _ _ _ _); [|done]. by intros [= <-]. Qed.

Lemma reach_self {T} (a : arena T) f : reach a [f] f.
Proof. constructor. by apply elem_of_list_singleton. Qed.
Lemma reach_kid1 {T} (a : arena T) f h cs c x : ar_nodes a !! f = Some (NT h cs) → c ∈ cs → reach a [c] x → reach a [f] x.
Proof.
  intros Hn Hc. induction 1 as [r ->%elem_of_list_singleton|y h' ds d _ IH Hn' Hd]; [|by eapply reach_step].
  eapply reach_step; [apply reach_self|done|done].
Qed.

Definition not_key (a : arena tv) (f R : nat) (k : bop * nat * nat) : Prop :=
  k.1.1 = OpNot ∧ k.2 = 0 ∧ reach a [f] k.1.2 ∧ ∃ dk, repr a dk k.1.2 ∧ rank dk ≤ R.

Lemma not_fresh n : ∀ m0 m f d m' r tr, bwf m0 → step m0 m → repr (b_ar m0) d f → rank d < n →
  bdd_not_tf n m f = Some (m', r, tr) →
  step m0 m' ∧ fresh (b_cache m) (kn <$> tr) (b_cache m') ∧ ∀ k, k ∈ tr → not_key (b_ar m0) f (rank d) k.
Proof.
  induction n as [|n IH]; intros m0 m f d m' r tr Hw0 St Hr Hn E; [done|].
  split.
  { destruct (not_spec (S n) m f d) as (m1 & r1 & dr & E1 & St1 & _); [apply St|eapply repr_mono; [apply St|done]|done|].
    rewrite <- not_erase, E in E1. injection E1 as <- <-. by eapply step_trans. }
  revert E. cbn [bdd_not_tf]. rewrite cache_get_eq by apply St. cbn [mbind option_bind].
  destruct (cfind (b_cache m) _) as [v|] eqn:Hc; cbn [option_map].
  { intros [= <- <- <-]. split; [apply fresh_nil|by intros k ?%elem_of_nil]. }
  rewrite (same_node _ _ _ _ St Hr). destruct d as [t|hd ds].
  - pose proof Hr as [_ Hnd]%repr_leaf. rewrite Hnd. cbn [mbind option_bind]. intros E.
    assert (∃ x, bdd_cache_put m OpNot f 0 x = Some m' ∧ tr = [(OpNot, f, 0)]) as (x & Hp & ->).
    { destruct t; cbn [mbind option_bind] in E; (destruct (bdd_cache_put _ _ _ _ _) as [m1|] eqn:Hp; [|done]); injection E as <- <- <-; eauto. }
    apply cache_put_inv in Hp. split.
    + apply (fresh_put _ [] (b_cache m) _ (N.of_nat x)); [apply bw_c, St|apply fresh_nil|done|by intros ?%elem_of_nil|done].
    + intros k ->%elem_of_list_singleton. split; [done|]. split; [done|]. split; [apply reach_self|]. by exists (Leaf t).
  - pose proof (bw_good _ Hw0) as Hg. destruct (repr_node2 _ _ _ _ Hg Hr) as (h & lo & hi & dlo & dhi & -> & Hnd & Hh & Hlo & Hhi & Rlo & Rhi).
    rewrite Hnd. cbn [mbind option_bind edges2]. cbn [rank] in Hn |- *.
    destruct (bdd_not_tf n m lo) as [[[m1 l1] t0]|] eqn:E0; [|done]. cbn [mbind option_bind].
    destruct (bdd_not_tf n m1 hi) as [[[m2 l2] t1]|] eqn:E1; [|done]. cbn [mbind option_bind].
    destruct (bdd_create_node m2 h l1 l2) as [m3 x] eqn:Ec. cbn [mbind option_bind].
    destruct (bdd_cache_put m3 OpNot f 0 x) as [m4|] eqn:Hp; [|done]. cbn [mbind option_bind]. intros [= <- <- <-].
    apply (IH m0 m lo dlo) in E0 as (St1 & F0 & K0); [|done|done|done|lia].
    apply (IH m0 m1 hi dhi) in E1 as (St2 & F1 & K1); [|done|done|done|lia].
    apply create_node_caches in Ec as [Hc3 _]. apply cache_put_inv in Hp. rewrite Hc3 in Hp.
    assert (K : ∀ k, k ∈ t0 ++ t1 → k.1.1 = OpNot ∧ k.2 = 0 ∧ reach (b_ar m0) [f] k.1.2 ∧ ∃ dk, repr (b_ar m0) dk k.1.2 ∧ rank dk ≤ h_level hd).
    { intros k [Hk|Hk]%elem_of_app; [destruct (K0 _ Hk) as (? & ? & Hre & dk & ? & ?)|destruct (K1 _ Hk) as (? & ? & Hre & dk & ? & ?)];
        (split; [done|]; split; [done|]; split; [eapply reach_kid1; [exact Hnd| |exact Hre]; first [apply elem_of_list_here|apply elem_of_list_further, elem_of_list_here]|]; exists dk; split; [done|lia]). }
    split.
    + rewrite fmap_app. cbn [fmap list_fmap]. eapply fresh_put; [apply bw_c, St2|rewrite fmap_app; by eapply fresh_app|done| |done].
      intros (k & Hk & Hin)%elem_of_list_fmap. apply (inj kn) in Hk as <-. apply K in Hin as (_ & _ & _ & dk & Hdk & Hrk). cbn [fst snd] in Hdk.
      rewrite (repr_fun _ _ _ _ Hdk Hr) in Hrk. cbn [rank] in Hrk. lia.
    + intros k [Hk| ->%elem_of_list_singleton]%elem_of_app.
      * destruct (K _ Hk) as (? & ? & Hre & dk & ? & ?). split; [done|]. split; [done|]. split; [done|]. exists dk. split; [done|lia].
      * split; [done|]. split; [done|]. split; [apply reach_self|]. eexists. split; [done|]. cbn [rank]. lia.
Qed.

(** A key of the list of and, or, xor on [f] and [g]: an ordered pair of nodes, one below each operand; or, for xor, a negation below one of them. *)
Definition ap_key (o : bop) (a : arena tv) (f g R : nat) (k : bop * nat * nat) : Prop :=
  (k.1.1 = o ∧ k.1.2 < k.2 ∧ (reach a [f] k.1.2 ∧ reach a [g] k.2 ∨ reach a [g] k.1.2 ∧ reach a [f] k.2) ∧
   ∃ d1 d2, repr a d1 k.1.2 ∧ repr a d2 k.2 ∧ rank d1 `max` rank d2 ≤ R) ∨
  (o = OpXOr ∧ k.1.1 = OpNot ∧ k.2 = 0 ∧ (reach a [f] k.1.2 ∨ reach a [g] k.1.2)).

Lemma ap_key_mono o a f g f' g' R R' k : (∀ x, reach a [f] x → reach a [f'] x) → (∀ x, reach a [g] x → reach a [g'] x) → R ≤ R' →
  ap_key o a f g R k → ap_key o a f' g' R' k.
Proof.
  intros Hf Hg HR [(Ho & Hlt & Hre & d1 & d2 & H1 & H2 & Hle)|(Ho & Hn & Hz & Hre)].
  - left. split; [done|]. split; [done|]. split; [naive_solver|]. exists d1, d2. split; [done|]. split; [done|]. lia.
  - right. naive_solver.
Qed.
Lemma ap_key_sym o a f g R k : ap_key o a f g R k → ap_key o a g f R k.
Proof. unfold ap_key. naive_solver. Qed.

Lemma ap_spec o n m f g df dg : o ≠ OpNot → bwf m → repr (b_ar m) df f → repr (b_ar m) dg g → rank df `max` rank dg < n →
  ∃ m' r, ap_f o n m f g = Some (m', r) ∧ step m m'.
Proof.
  intros Ho Hw Hf Hg Hn. destruct o; [| | |done]; cbn [ap_f].
  - destruct (and_spec n m f g df dg) as (m' & r & dr & E & St & _); eauto.
  - destruct (or_spec n m f g df dg) as (m' & r & dr & E & St & _); eauto.
  - destruct (xor_spec n m f g df dg) as (m' & r & dr & E & St & _); eauto.
Qed.

Lemma leaf_fresh o n m0 m f g df dg fn gn m' r tr : bwf m0 → step m0 m → repr (b_ar m0) df f → repr (b_ar m0) dg g →
  rank df `max` rank dg < S n → ap_leaf o n m fn gn f g = Some (m', r, tr) →
  cwf (b_cache m') ∧ fresh (b_cache m) (kn <$> tr) (b_cache m') ∧
  ∀ k, k ∈ tr → o = OpXOr ∧ k.1.1 = OpNot ∧ k.2 = 0 ∧ (reach (b_ar m0) [f] k.1.2 ∨ reach (b_ar m0) [g] k.1.2).
Proof.
  intros Hw0 St Hf Hg Hn E.
  assert ((m' = m ∧ tr = []) ∨ (o = OpXOr ∧ (bdd_not_tf (S n) m f = Some (m', r, tr) ∨ bdd_not_tf (S n) m g = Some (m', r, tr)))) as Hcase.
  { unfold ap_leaf in E. destruct o, fn as [[]|], gn as [[]|]; try done; first [left; by injection E as <- <- <-|right; split; [done|]; first [by left|by right]]. }
  destruct Hcase as [[-> ->]|(Ho & [Hx|Hx])].
  - split; [apply bw_c, St|]. split; [apply fresh_nil|by intros k ?%elem_of_nil].
  - apply (not_fresh _ m0 _ _ df) in Hx as (St' & Fr & K); [|done|done|done|lia]. split; [apply bw_c, St'|]. split; [done|].
    intros k Hk. destruct (K k Hk) as (? & ? & ? & _). auto.
  - apply (not_fresh _ m0 _ _ dg) in Hx as (St' & Fr & K); [|done|done|done|lia]. split; [apply bw_c, St'|]. split; [done|].
    intros k Hk. destruct (K k Hk) as (? & ? & ? & _). auto.
Qed.

Lemma ap_fresh o n : o ≠ OpNot → ∀ m0 m f g df dg m' r tr, bwf m0 → step m0 m → repr (b_ar m0) df f → repr (b_ar m0) dg g →
  rank df `max` rank dg < n → bdd_ap_tf o n m f g = Some (m', r, tr) →
  step m0 m' ∧ fresh (b_cache m) (kn <$> tr) (b_cache m') ∧ ∀ k, k ∈ tr → ap_key o (b_ar m0) f g (rank df `max` rank dg) k.
Proof.
  intros Ho. induction n as [|n IH]; intros m0 m f g df dg m' r tr Hw0 St Hf Hg Hn E; [done|].
  split.
  { destruct (ap_spec o (S n) m f g df dg) as (m1 & r1 & E1 & St1); [done|apply St|eapply repr_mono; [apply St|done]|eapply repr_mono; [apply St|done]|done|].
    rewrite <- ap_erase, E in E1 by done. injection E1 as <- <-. by eapply step_trans. }
  revert E. cbn [bdd_ap_tf]. destruct (Nat.eqb_spec f g) as [->|Hne].
  { intros [= <- <- <-]. split; [apply fresh_nil|by intros k ?%elem_of_nil]. }
  assert (∃ f' g' df' dg', (if g <? f then (g, f) else (f, g)) = (f', g') ∧ f' < g' ∧ repr (b_ar m0) df' f' ∧ repr (b_ar m0) dg' g' ∧
    rank df' `max` rank dg' = rank df `max` rank dg ∧ (∀ R k, ap_key o (b_ar m0) f' g' R k → ap_key o (b_ar m0) f g R k)) as
    (f' & g' & df' & dg' & -> & Hlt & Hf' & Hg' & Hmx & Hback).
  { destruct (Nat.ltb_spec g f).
    - exists g, f, dg, df. split; [done|]. split; [done|]. split; [done|]. split; [done|]. split; [lia|]. intros R k. apply ap_key_sym.
    - exists f, g, df, dg. split; [done|]. split; [lia|]. done. }
  rewrite <- Hmx in *. intros E.
  enough (fresh (b_cache m) (kn <$> tr) (b_cache m') ∧ ∀ k, k ∈ tr → ap_key o (b_ar m0) f' g' (rank df' `max` rank dg') k) as [H1 H2] by auto.
  clear Hback Hmx Hne Hf Hg f g df dg. rename f' into f, g' into g, df' into df, dg' into dg. revert E.
  rewrite cache_get_eq by apply St. cbn [mbind option_bind].
  destruct (cfind (b_cache m) _) as [v|] eqn:Hc; cbn [option_map].
  { intros [= <- <- <-]. split; [apply fresh_nil|by intros k ?%elem_of_nil]. }
  rewrite (same_node _ _ _ _ St Hf'), (same_node _ _ _ _ St Hg').
  destruct (live_lookup _ _ (repr_live _ _ _ Hf')) as [fn Hfn]. destruct (live_lookup _ _ (repr_live _ _ _ Hg')) as [gn Hgn].
  rewrite Hfn, Hgn. cbn [mbind option_bind].
  match goal with |- (mbind _ ?x = _) → _ => destruct x as [[[m1 x1] t]|] eqn:Ex; [|done] end. cbn [mbind option_bind].
  destruct (bdd_cache_put m1 o f g x1) as [m2|] eqn:Hp; [|done]. cbn [mbind option_bind]. intros [= <- <- <-].
  apply cache_put_inv in Hp.
  assert (cwf (b_cache m1) ∧ fresh (b_cache m) (kn <$> t) (b_cache m1) ∧
     ∀ k, k ∈ t → ap_key o (b_ar m0) f g (rank df `max` rank dg) k ∧ k ≠ (o, f, g)) as (Hw1 & Fr & K).
  2: { split.
    - rewrite fmap_app. cbn [fmap list_fmap]. eapply fresh_put; [done|done|done| |done].
      intros (k & Hk & Hin)%elem_of_list_fmap. apply (inj kn) in Hk as <-. by apply K in Hin as [_ ?].
    - intros k [Hk| ->%elem_of_list_singleton]%elem_of_app; [by apply K|].
      left. cbn [fst snd]. split; [done|]. split; [done|]. split; [left; split; apply reach_self|]. exists df, dg. split; [done|]. by split. }
  assert (Hleaf : ap_leaf o n m fn gn f g = Some (m1, x1, t) → cwf (b_cache m1) ∧ fresh (b_cache m) (kn <$> t) (b_cache m1) ∧
     ∀ k, k ∈ t → ap_key o (b_ar m0) f g (rank df `max` rank dg) k ∧ k ≠ (o, f, g)).
  { intros El. apply (leaf_fresh o n m0 m f g df dg) in El as (C & Fr & K); [|done..]. split; [done|]. split; [done|].
    intros k Hk. destruct (K k Hk) as (Hx & Hnot & Hz & Hre). split; [by right|]. intros ->. by cbn in Hnot. }
  assert (Hrec : ∀ fa ga fb gb dfa dga dfb dgb h, repr (b_ar m0) dfa fa → repr (b_ar m0) dga ga → repr (b_ar m0) dfb fb → repr (b_ar m0) dgb gb →
     rank dfa `max` rank dga < rank df `max` rank dg → rank dfb `max` rank dgb < rank df `max` rank dg →
     (∀ x, reach (b_ar m0) [fa] x → reach (b_ar m0) [f] x) → (∀ x, reach (b_ar m0) [fb] x → reach (b_ar m0) [f] x) →
     (∀ x, reach (b_ar m0) [ga] x → reach (b_ar m0) [g] x) → (∀ x, reach (b_ar m0) [gb] x → reach (b_ar m0) [g] x) →
     ('(m, low, t0) ← bdd_ap_tf o n m fa ga; '(m, high, t1) ← bdd_ap_tf o n m fb gb;
      let '(m, r) := bdd_create_node m h low high in Some (m, r, t0 ++ t1)) = Some (m1, x1, t) →
     cwf (b_cache m1) ∧ fresh (b_cache m) (kn <$> t) (b_cache m1) ∧
     ∀ k, k ∈ t → ap_key o (b_ar m0) f g (rank df `max` rank dg) k ∧ k ≠ (o, f, g)).
  { intros fa ga fb gb dfa dga dfb dgb h Hfa Hga Hfb Hgb Ra Rb Qfa Qfb Qga Qgb.
    destruct (bdd_ap_tf o n m fa ga) as [[[ma la] t0]|] eqn:Ea; [|done]. cbn [mbind option_bind].
    destruct (bdd_ap_tf o n ma fb gb) as [[[mb lb] t1]|] eqn:Eb; [|done]. cbn [mbind option_bind].
    destruct (bdd_create_node mb h la lb) as [mc x] eqn:Ec. intros [= <- <- <-].
    apply (IH m0 m fa ga dfa dga) in Ea as (Sta & Fa & Ka); [|done|done|done|done|lia].
    apply (IH m0 ma fb gb dfb dgb) in Eb as (Stb & Fb & Kb); [|done|done|done|done|lia].
    apply create_node_caches in Ec as [Hcc _]. rewrite Hcc. split; [apply bw_c, Stb|]. split; [rewrite fmap_app; by eapply fresh_app|].
    assert (∀ k, k ∈ t0 ++ t1 → ∃ R, R < rank df `max` rank dg ∧ ap_key o (b_ar m0) f g R k) as K.
    { intros k [Hk|Hk]%elem_of_app; [exists (rank dfa `max` rank dga)|exists (rank dfb `max` rank dgb)]; (split; [done|]).
      - eapply ap_key_mono; [exact Qfa|exact Qga|reflexivity|by apply Ka].
      - eapply ap_key_mono; [exact Qfb|exact Qgb|reflexivity|by apply Kb]. }
    intros k Hk. destruct (K k Hk) as (R & HR & HK). split; [eapply ap_key_mono; [| | |exact HK]; [done|done|lia]|].
    intros ->. destruct HK as [(_ & _ & _ & d1 & d2 & H1 & H2 & Hle)|(_ & Hnot & _)]; cbn [fst snd] in *; [|done].
    rewrite (repr_fun _ _ _ _ H1 Hf'), (repr_fun _ _ _ _ H2 Hg') in Hle. lia. }
  destruct fn as [tf|hf fc]; [by apply Hleaf|]. destruct gn as [tg|hg gc]; [by apply Hleaf|]. clear Hleaf. revert Ex.
  pose proof (bw_good _ Hw0) as Hgd.
  destruct df as [?|hdf dsf]; [by pose proof Hf' as [_ Ht]%repr_leaf; rewrite Hfn in Ht|].
  destruct dg as [?|hdg dsg]; [by pose proof Hg' as [_ Ht]%repr_leaf; rewrite Hgn in Ht|].
  destruct (repr_node2 _ _ _ _ Hgd Hf') as (h & lo & hi & dlo & dhi & -> & Hnd & Hh & Hlo & Hhi & Hr0 & Hr1).
  rewrite Hfn in Hnd. injection Hnd as -> ->.
  destruct (repr_node2 _ _ _ _ Hgd Hg') as (h' & lo' & hi' & dlo' & dhi' & -> & Hnd & Hh' & Hlo' & Hhi' & Hr0' & Hr1').
  rewrite Hgn in Hnd. injection Hnd as -> ->.
  assert (Hhs : ar_headers (b_ar m) = ar_headers (b_ar m0)) by apply St.
  rewrite (hdr_level_eq _ h hdf), (hdr_level_eq _ h' hdg) by by rewrite Hhs. cbn [mbind option_bind edges2].
  assert (∀ c x, c ∈ [lo; hi] → reach (b_ar m0) [c] x → reach (b_ar m0) [f] x) as Qf by (intros; by eapply reach_kid1).
  assert (∀ c x, c ∈ [lo'; hi'] → reach (b_ar m0) [c] x → reach (b_ar m0) [g] x) as Qg by (intros; by eapply reach_kid1).
  change (rank (Br hdf [dlo; dhi])) with (S (h_level hdf)) in *. change (rank (Br hdg [dlo'; dhi'])) with (S (h_level hdg)) in *.
  destruct (Nat.ltb_spec (h_level hdg) (h_level hdf)); [|destruct (Nat.ltb_spec (h_level hdf) (h_level hdg))].
  - assert (rank (Br hdg [dlo'; dhi']) = S (h_level hdg)) by done.
    apply (Hrec lo g hi g dlo (Br hdg [dlo'; dhi']) dhi (Br hdg [dlo'; dhi']) h Hlo Hg' Hhi Hg'); [lia|lia|intros x Hx..].
    + exact (Qf lo x (elem_of_list_here _ _) Hx).
    + exact (Qf hi x (elem_of_list_further _ _ _ (elem_of_list_here _ _)) Hx).
    + exact Hx.
    + exact Hx.
  - assert (rank (Br hdf [dlo; dhi]) = S (h_level hdf)) by done.
    apply (Hrec f lo' f hi' (Br hdf [dlo; dhi]) dlo' (Br hdf [dlo; dhi]) dhi' h' Hf' Hlo' Hf' Hhi'); [lia|lia|intros x Hx..].
    + exact Hx.
    + exact Hx.
    + exact (Qg lo' x (elem_of_list_here _ _) Hx).
    + exact (Qg hi' x (elem_of_list_further _ _ _ (elem_of_list_here _ _)) Hx).
  - apply (Hrec lo lo' hi hi' dlo dlo' dhi dhi' h Hlo Hlo' Hhi Hhi'); [lia|lia|intros x Hx..].
    + exact (Qf lo x (elem_of_list_here _ _) Hx).
    + exact (Qf hi x (elem_of_list_further _ _ _ (elem_of_list_here _ _)) Hx).
    + exact (Qg lo' x (elem_of_list_here _ _) Hx).
    + exact (Qg hi' x (elem_of_list_further _ _ _ (elem_of_list_here _ _)) Hx).
Qed.

Definition ite_key (a : arena tv) (f g h R : nat) (k : nat * nat * nat) : Prop :=
  reach a [f] k.1.1 ∧ reach a [g] k.1.2 ∧ reach a [h] k.2 ∧
  ∃ d1 d2 d3, repr a d1 k.1.1 ∧ repr a d2 k.1.2 ∧ repr a d3 k.2 ∧ rank d1 `max` rank d2 `max` rank d3 ≤ R.

Lemma cofactor_reach m0 m id d top a b : step m0 m → repr (b_ar m0) d id → bdd_cofactor m id top = Some (a, b) →
  (∀ x, reach (b_ar m0) [a] x → reach (b_ar m0) [id] x) ∧ (∀ x, reach (b_ar m0) [b] x → reach (b_ar m0) [id] x).
Proof.
  intros St Hr. unfold bdd_cofactor. destruct (ar_node_level _ _) as [lv|]; [|done]. cbn [mbind option_bind].
  destruct (decide _); [|by intros [= <- <-]]. rewrite (same_node _ _ _ _ St Hr).
  destruct (ar_nodes (b_ar m0) !! id) as [[t|h cs]|] eqn:Hn; cbn [mbind option_bind]; [by intros [= <- <-]| |done].
  destruct cs as [|c0 [|c1 [|]]]; try done. intros [= <- <-].
  split; intros x Hx; (eapply reach_kid1; [exact Hn| |exact Hx]).
  - apply elem_of_list_here.
  - apply elem_of_list_further, elem_of_list_here.
Qed.

Lemma ite_fresh n : ∀ m0 m f g h df dg dh m' r tr, bwf m0 → step m0 m →
  repr (b_ar m0) df f → repr (b_ar m0) dg g → repr (b_ar m0) dh h → rank df `max` rank dg `max` rank dh < n →
  bdd_ite_tf n m f g h = Some (m', r, tr) →
  step m0 m' ∧ fresh (b_ite m) (kn3 <$> tr) (b_ite m') ∧
  ∀ k, k ∈ tr → ite_key (b_ar m0) f g h (rank df `max` rank dg `max` rank dh) k.
Proof.
  induction n as [|n IH]; intros m0 m f g h df dg dh m' r tr Hw0 St Hf Hg Hh Hn E; [done|].
  assert (Hw : bwf m) by apply St.
  assert (Hf' : repr (b_ar m) df f) by (eapply repr_mono; [apply St|done]).
  assert (Hg' : repr (b_ar m) dg g) by (eapply repr_mono; [apply St|done]).
  assert (Hh' : repr (b_ar m) dh h) by (eapply repr_mono; [apply St|done]).
  split.
  { destruct (ite_spec (S n) m f g h df dg dh) as (m1 & r1 & dr & E1 & St1 & _); [done..|].
    rewrite <- ite_erase, E in E1. injection E1 as <- <-. by eapply step_trans. }
  revert E. cbn [bdd_ite_tf]. rewrite (same_node _ _ _ _ St Hf).
  destruct df as [t|hd ds].
  { pose proof Hf as [_ ->]%repr_leaf. cbn [mbind option_bind].
    destruct t; intros [= <- <- <-]; (split; [apply fresh_nil|by intros k ?%elem_of_nil]). }
  destruct (repr_node2 _ _ _ _ (bw_good _ Hw0) Hf) as (hf & lo & hi & dlo & dhi & -> & Hnd & Hhd & _).
  rewrite Hnd. cbn [mbind option_bind].
  destruct (Nat.eqb_spec g h) as [->|Hne].
  { intros [= <- <- <-]. split; [apply fresh_nil|by intros k ?%elem_of_nil]. }
  rewrite ite_get_eq by done. cbn [mbind option_bind].
  destruct (cfind _ _) as [v|] eqn:Hc; cbn [option_map].
  { intros [= <- <- <-]. split; [apply fresh_nil|by intros k ?%elem_of_nil]. }
  rewrite (hdr_level_eq _ hf hd) by (rewrite (proj2 (proj2 St)); done). cbn [mbind option_bind].
  rewrite (top_step_eq _ _ _ _ Hw Hg'). cbn [mbind option_bind].
  rewrite (top_step_eq _ _ _ _ Hw Hh'). cbn [mbind option_bind].
  set (top := (h_level hd `max` Nat.pred (rank dg)) `max` Nat.pred (rank dh)).
  set (df := Br hd [dlo; dhi]) in *.
  assert (Hrf : rank df = S (h_level hd)) by done. rewrite Hrf in Hn.
  assert (Hmax : rank df `max` rank dg `max` rank dh = S top) by (subst top; lia).
  assert (rank df ≤ S top ∧ rank dg ≤ S top ∧ rank dh ≤ S top) as (Kf & Kg & Kh) by lia.
  (* the cofactors are represented in the old arena already *)
  assert (Hcof : ∀ d id, repr (b_ar m0) d id → rank d ≤ S top → ∃ a b, bdd_cofactor m id top = Some (a, b) ∧
     repr (b_ar m0) (cof d top 0) a ∧ repr (b_ar m0) (cof d top 1) b ∧ rank (cof d top 0) ≤ top ∧ rank (cof d top 1) ≤ top ∧
     (∀ x, reach (b_ar m0) [a] x → reach (b_ar m0) [id] x) ∧ (∀ x, reach (b_ar m0) [b] x → reach (b_ar m0) [id] x)).
  { intros d id Hr Hk. destruct (cofactor_eq m0 d id top Hw0 Hr Hk) as (a & b & E0 & Ha & Hb).
    destruct (cofactor_eq m d id top Hw) as (a' & b' & E1 & Ha' & Hb'); [eapply repr_mono; [apply St|done]|done|].
    assert (bdd_cofactor m id top = bdd_cofactor m0 id top) as Heq.
    { unfold bdd_cofactor. rewrite (node_level_eq _ _ _ (bw_good _ Hw0) Hr).
      rewrite (node_level_eq _ d _ (bw_good _ Hw)) by (eapply repr_mono; [apply St|done]). cbn [mbind option_bind].
      by rewrite (same_node _ _ _ _ St Hr). }
    pose proof (good_ok _ _ _ (bw_good _ Hw0) Hr) as Od.
    assert (0 < E2 top) as I0 by (unfold E2; lia). assert (1 < E2 top) as I1 by (unfold E2; lia).
    pose proof (cof_rank E2 d top 0 Od I0 Hk). pose proof (cof_rank E2 d top 1 Od I1 Hk).
    exists a, b. rewrite Heq. split; [done|]. split; [done|]. split; [done|]. split; [done|]. split; [done|].
    eapply cofactor_reach; [exact St|exact Hr|]. by rewrite Heq. }
  destruct (Hcof df f Hf Kf) as (f0 & f1 & -> & Hf0 & Hf1 & Rf0 & Rf1 & Qf0 & Qf1).
  destruct (Hcof dg g Hg Kg) as (g0 & g1 & -> & Hg0 & Hg1 & Rg0 & Rg1 & Qg0 & Qg1).
  destruct (Hcof dh h Hh Kh) as (h0 & h1 & -> & Hh0 & Hh1 & Rh0 & Rh1 & Qh0 & Qh1).
  cbn [mbind option_bind].
  destruct (bdd_top_header m [f; g; h] top) as [hid|]; [|done]. cbn [mbind option_bind].
  destruct (bdd_ite_tf n m f0 g0 h0) as [[[ma la] t0]|] eqn:Ea; [|done]. cbn [mbind option_bind].
  destruct (bdd_ite_tf n ma f1 g1 h1) as [[[mb lb] t1]|] eqn:Eb; [|done]. cbn [mbind option_bind].
  destruct (bdd_create_node mb hid la lb) as [mc x] eqn:Ec.
  destruct (bdd_ite_put mc f g h x) as [md|] eqn:Hp; [|done]. cbn [mbind option_bind]. intros [= <- <- <-].
  apply ite_put_inv in Hp. apply create_node_caches in Ec as [_ Hcc]. rewrite Hcc in Hp.
  apply (IH m0 m f0 g0 h0 (cof df top 0) (cof dg top 0) (cof dh top 0)) in Ea as (Sta & Fa & Ka); [|exact Hw0|first [exact St|exact Sta]|first [exact Hf0|exact Hf1]|first [exact Hg0|exact Hg1]|first [exact Hh0|exact Hh1]|clear - Rf0 Rf1 Rg0 Rg1 Rh0 Rh1 Hn Hmax Hrf; lia].
  apply (IH m0 ma f1 g1 h1 (cof df top 1) (cof dg top 1) (cof dh top 1)) in Eb as (Stb & Fb & Kb); [|exact Hw0|first [exact St|exact Sta]|first [exact Hf0|exact Hf1]|first [exact Hg0|exact Hg1]|first [exact Hh0|exact Hh1]|clear - Rf0 Rf1 Rg0 Rg1 Rh0 Rh1 Hn Hmax Hrf; lia].
  assert (∀ k, k ∈ t0 ++ t1 → ite_key (b_ar m0) f g h top k) as K.
  { intros k [Hk|Hk]%elem_of_app.
    - destruct (Ka k Hk) as (K1 & K2 & K3 & d1 & d2 & d3 & H1 & H2 & H3 & Hle).
      refine (conj (Qf0 _ K1) (conj (Qg0 _ K2) (conj (Qh0 _ K3) (ex_intro _ d1 (ex_intro _ d2 (ex_intro _ d3 (conj H1 (conj H2 (conj H3 _)))))))))  . lia.
    - destruct (Kb k Hk) as (K1 & K2 & K3 & d1 & d2 & d3 & H1 & H2 & H3 & Hle).
      refine (conj (Qf1 _ K1) (conj (Qg1 _ K2) (conj (Qh1 _ K3) (ex_intro _ d1 (ex_intro _ d2 (ex_intro _ d3 (conj H1 (conj H2 (conj H3 _)))))))))  . lia. }
  rewrite app_assoc. split.
  - rewrite fmap_app. cbn [fmap list_fmap]. eapply fresh_put; [apply bw_i, Stb|rewrite fmap_app; by eapply fresh_app|done| |done].
    intros (k & Hk & Hin)%elem_of_list_fmap. apply (inj kn3) in Hk as <-. apply K in Hin as (_ & _ & _ & d1 & d2 & d3 & H1 & H2 & H3 & Hle).
    cbn [fst snd] in *. rewrite (repr_fun _ _ _ _ H1 Hf), (repr_fun _ _ _ _ H2 Hg), (repr_fun _ _ _ _ H3 Hh) in Hle. lia.
  - rewrite Hmax. intros k [Hk| ->%elem_of_list_singleton]%elem_of_app.
    + destruct (K k Hk) as (? & ? & ? & d1 & d2 & d3 & ? & ? & ? & ?). split; [done|]. split; [done|]. split; [done|].
      exists d1, d2, d3. split; [done|]. split; [done|]. split; [done|lia].
    + cbn [fst snd]. split; [apply reach_self|]. split; [apply reach_self|]. split; [apply reach_self|].
      exists df, dg, dh. split; [done|]. split; [done|]. split; [done|lia].
Qed.
