(** The set operations as functions of diagrams: whatever the operation cache holds, the diagram of the result depends on the diagrams
    of the operands only.  This covers what the family semantics leaves open: division, and operands with undetermined members. *)
From stdpp Require Import strings.
From Verif Require Import Prelude ComputeCache Arena Trees ArenaProofs ArenaMore Bdd BddProofs Zdd ZddTrees ZddProofs SpecZdd ZddMain.

Global Instance header_eq_dec : EqDecision header.
Proof. solve_decision. Defined.
Fixpoint deq (d e : dd tv) : bool :=
  match d, e with
  | Leaf t, Leaf u => bool_decide (t = u)
  | Br h ds, Br k es => bool_decide (h = k) &&
      (fix go ds es := match ds, es with
        | [], [] => true
        | d :: ds, e :: es => deq d e && go ds es
        | _, _ => false
        end) ds es
  | _, _ => false
  end.
Lemma deq_spec d : ∀ e, deq d e = true ↔ d = e.
Proof.
  induction d as [t|h ds IH] using dd_ind'; intros [u|k es]; cbn [deq]; [by rewrite bool_decide_eq_true; split; [intros ->|intros [= ->]]|done|done|].
  rewrite andb_true_iff, bool_decide_eq_true.
  match goal with |- _ ∧ ?go ds es = true ↔ _ => enough (∀ es, go ds es = true ↔ ds = es) as Hg by (rewrite Hg; split; [by intros [-> ->]|by intros [= -> ->]]) end.
  clear es. induction IH as [|d ds Hd _ IH]; intros [|e es]; try done. rewrite andb_true_iff, Hd, IH.
  split; [by intros [-> ->]|by intros [= -> ->]].
Qed.
Lemma deq_refl d : deq d d = true.
Proof. by apply deq_spec. Qed.
Lemma deq_ne d e : d ≠ e → deq d e = false.
Proof. intros Hn. apply not_true_is_false. by rewrite deq_spec. Qed.

(** create_node, with zero-suppression *)
Definition zn (hd : header) (lo hi : dd tv) : dd tv := match hi with Leaf TZero => lo | _ => Br hd [lo; hi] end.

(** one level of each operation; [rec] for the calls below *)
Section one.
Context (rec : zop → dd tv → dd tv → option (dd tv)).
Definition lvl3 (df dg : dd tv) (hi lo : header → dd tv → dd tv → option (dd tv)) (both : header → dd tv → dd tv → dd tv → dd tv → option (dd tv)) : option (dd tv) :=
  match df, dg with
  | Br hf [f0; f1], Br hg [g0; g1] =>
      if h_level hg <? h_level hf then hi hf f0 f1
      else if h_level hf <? h_level hg then lo hg g0 g1
      else both hf f0 f1 g0 g1
  | _, _ => None
  end.
Definition ztree (o : zop) (df dg : dd tv) : option (dd tv) :=
  match o with
  | ZIntersect =>
      if deq df dg then Some df else
      match df, dg with
      | Leaf TUndet, _ => Some dg
      | _, Leaf TUndet => Some df
      | Leaf TZero, _ => Some (Leaf TZero)
      | _, Leaf TZero => Some (Leaf TZero)
      | Leaf TOne, _ => Some dg
      | _, Leaf TOne => Some df
      | _, _ => lvl3 df dg (λ _ f0 _, rec ZIntersect f0 dg) (λ _ g0 _, rec ZIntersect df g0)
          (λ h f0 f1 g0 g1, l ← rec ZIntersect f0 g0; k ← rec ZIntersect f1 g1; Some (zn h l k))
      end
  | ZUnion =>
      if deq df dg then Some df else
      match df, dg with
      | Leaf TUndet, _ => Some df
      | _, Leaf TUndet => Some dg
      | Leaf TZero, _ => Some dg
      | _, Leaf TZero => Some df
      | Leaf TOne, Leaf TOne => Some (Leaf TOne)
      | Br hf [f0; f1], Leaf TOne => l ← rec ZUnion f0 (Leaf TOne); Some (zn hf l f1)
      | Leaf TOne, Br hg [g0; g1] => l ← rec ZUnion (Leaf TOne) g0; Some (zn hg l g1)
      | _, _ => lvl3 df dg (λ h f0 f1, l ← rec ZUnion f0 dg; Some (zn h l f1)) (λ h g0 g1, l ← rec ZUnion df g0; Some (zn h l g1))
          (λ h f0 f1 g0 g1, l ← rec ZUnion f0 g0; k ← rec ZUnion f1 g1; Some (zn h l k))
      end
  | ZSetdiff =>
      if deq df dg then Some (if deq df (Leaf TUndet) then Leaf TUndet else Leaf TZero) else
      match df, dg with
      | Leaf TUndet, _ => Some (Leaf TUndet)
      | _, Leaf TUndet => Some df
      | Leaf TZero, _ => Some (Leaf TZero)
      | _, Leaf TZero => Some df
      | Leaf TOne, Leaf TOne => Some (Leaf TZero)
      | Br hf [f0; f1], Leaf TOne => l ← rec ZSetdiff f0 (Leaf TOne); Some (zn hf l f1)
      | Leaf TOne, Br hg [g0; g1] => rec ZSetdiff (Leaf TOne) g0
      | _, _ => lvl3 df dg (λ h f0 f1, l ← rec ZSetdiff f0 dg; Some (zn h l f1)) (λ h g0 g1, rec ZSetdiff df g0)
          (λ h f0 f1 g0 g1, l ← rec ZSetdiff f0 g0; k ← rec ZSetdiff f1 g1; Some (zn h l k))
      end
  | ZProduct =>
      match df, dg with
      | Leaf TUndet, _ => Some (Leaf TUndet)
      | _, Leaf TUndet => Some (Leaf TUndet)
      | Leaf TZero, _ => Some (Leaf TZero)
      | _, Leaf TZero => Some (Leaf TZero)
      | _, Leaf TOne => Some df
      | Leaf TOne, _ => Some dg
      | _, _ => lvl3 df dg (λ h f0 f1, l ← rec ZProduct f0 dg; k ← rec ZProduct f1 dg; Some (zn h l k))
          (λ h g0 g1, l ← rec ZProduct df g0; k ← rec ZProduct df g1; Some (zn h l k))
          (λ h f0 f1 g0 g1, l ← rec ZProduct f0 g0; k ← rec ZProduct f1 g1; t ← rec ZProduct f1 g0; k ← rec ZUnion k t;
            t ← rec ZProduct f0 g1; k ← rec ZUnion k t; Some (zn h l k))
      end
  | ZDivision =>
      match df, dg with
      | Leaf TUndet, _ => Some (Leaf TUndet)
      | _, Leaf TUndet => Some (Leaf TUndet)
      | _, Leaf TZero => Some (Leaf TUndet)
      | _, Leaf TOne => Some df
      | Leaf TZero, _ => Some (Leaf TZero)
      | Leaf TOne, _ => Some dg
      | _, _ => lvl3 df dg (λ _ f0 _, rec ZDivision f0 dg) (λ _ _ _, Some (Leaf TUndet))
          (λ h f0 f1 g0 g1, x ← rec ZDivision f0 g0; y ← rec ZDivision f1 g1; rec ZIntersect x y)
      end
  end.
End one.
Fixpoint ztf (n : nat) (o : zop) (df dg : dd tv) : option (dd tv) :=
  match n with O => None | S n => ztree (ztf n) o df dg end.
Definition zt (o : zop) (df dg dr : dd tv) : Prop := ∃ n, ztf n o df dg = Some dr.

Lemma bind_mono {A B} (x x' : option A) (k k' : A → option B) r : (∀ a, x = Some a → x' = Some a) → (∀ a r, k a = Some r → k' a = Some r) →
  x ≫= k = Some r → x' ≫= k' = Some r.
Proof. intros Hx Hk. destruct x as [a|]; [|done]. cbn. rewrite (Hx a eq_refl). apply Hk. Qed.
Lemma ztree_mono (R R' : zop → dd tv → dd tv → option (dd tv)) : (∀ o x y r, R o x y = Some r → R' o x y = Some r) →
  ∀ o df dg r, ztree R o df dg = Some r → ztree R' o df dg = Some r.
Proof.
  intros HR o df dg r.
  assert (HL : ∀ hi lo both hi' lo' both', (∀ h x y r, hi h x y = Some r → hi' h x y = Some r) → (∀ h x y r, lo h x y = Some r → lo' h x y = Some r) →
    (∀ h x y z u r, both h x y z u = Some r → both' h x y z u = Some r) → lvl3 df dg hi lo both = Some r → lvl3 df dg hi' lo' both' = Some r).
  { intros hi lo both hi' lo' both' H1 H2 H3. unfold lvl3. destruct df as [|hf [|f0 [|f1 [|]]]]; try done. destruct dg as [|hg [|g0 [|g1 [|]]]]; try done.
    destruct (_ <? _); [apply H1|]. destruct (_ <? _); [apply H2|apply H3]. }
  assert (HM : ∀ o x y (k k' : dd tv → option (dd tv)) r, (∀ a r, k a = Some r → k' a = Some r) → R o x y ≫= k = Some r → R' o x y ≫= k' = Some r).
  { intros o' x y k k' r' Hk. apply bind_mono; [intros a; apply HR|done]. }
  destruct o; cbn [ztree]; try (destruct (deq df dg); [done|]).
  all: destruct df as [[]|hf [|f0 [|f1 [|]]]], dg as [[]|hg [|g0 [|g1 [|]]]]; try done.
  all: try (apply HR).
  all: try (apply HM; done).
  all: apply HL; intros; repeat (first [done | match goal with H : _ = Some _ |- _ = Some _ => first [exact (HR _ _ _ _ H) | revert H; apply HM; intros] end]).
Qed.
Lemma ztf_more n : ∀ k o df dg r, n ≤ k → ztf n o df dg = Some r → ztf k o df dg = Some r.
Proof.
  induction n as [|n IH]; intros [|k] o df dg r Hle; try done; [lia|]. cbn [ztf]. apply ztree_mono. intros. eapply IH; [lia|done].
Qed.
(** an operation has one result *)
Lemma zt_fun o df dg d1 d2 : zt o df dg d1 → zt o df dg d2 → d1 = d2.
Proof.
  intros [n H1] [k H2]. apply (ztf_more _ (n + k)) in H1; [|lia]. apply (ztf_more _ (n + k)) in H2; [|lia]. congruence.
Qed.
Lemma zt_one o df dg r : ztree (λ _ _ _, None) o df dg = Some r → zt o df dg r.
Proof. intros H. exists 1. cbn [ztf]. by eapply ztree_mono; [|exact H]. Qed.

(** ** the operations compute it, whatever is in the cache *)
Definition ZT (o : zop) (df dg dr : dd tv) : Prop := zt o df dg dr ∧ rank dr ≤ rank df `max` rank dg.
Record zd (m : zdd) : Prop := {
  zd_good : zgood (z_ar m);
  zd_cache : ∀ k v, z_cache m !! k = Some v → ∃ df dg dr, repr (z_ar m) df k.1.2 ∧ repr (z_ar m) dg k.2 ∧ repr (z_ar m) dr v ∧ ZT k.1.1 df dg dr;
}.
Definition dstep (m m' : zdd) : Prop := zd m' ∧ ext (z_ar m) (z_ar m') ∧ ar_headers (z_ar m') = ar_headers (z_ar m).
Lemma dstep_refl m : zd m → dstep m m.
Proof. intros. split; [done|]. split; [apply ext_refl|done]. Qed.
Lemma dstep_trans m1 m2 m3 : dstep m1 m2 → dstep m2 m3 → dstep m1 m3.
Proof. intros (_ & H1 & H2) (? & H3 & H4). split; [done|]. split; [by eapply ext_trans|congruence]. Qed.
Lemma dstep_repr m m' d id : dstep m m' → repr (z_ar m) d id → repr (z_ar m') d id.
Proof. intros (_ & He & _). by apply repr_mono. Qed.

(** if [x] returns, the diagram of its result has [Q] *)
Definition pc (m : zdd) (x : option (zdd * nat)) (Q : dd tv → Prop) : Prop :=
  ∀ m' r, x = Some (m', r) → dstep m m' ∧ ∃ d, repr (z_ar m') d r ∧ Q d.
Lemma pc_none m Q : pc m None Q.
Proof. by intros ? ?. Qed.
Lemma pc_ret m r d (Q : dd tv → Prop) : zd m → repr (z_ar m) d r → Q d → pc m (Some (m, r)) Q.
Proof. intros Hz Hr HQ m' r' [= <- <-]. split; [by apply dstep_refl|]. by exists d. Qed.
Lemma pc_bind m x (P Q : dd tv → Prop) k : pc m x P →
  (∀ m' r d, dstep m m' → repr (z_ar m') d r → P d → pc m' (k (m', r)) Q) → pc m (x ≫= k) Q.
Proof.
  intros Hx Hk m2 r2. destruct x as [[m1 r1]|]; [|done]. cbn. destruct (Hx m1 r1 eq_refl) as (Hs & d & Hr & HP).
  intros E. destruct (Hk m1 r1 d Hs Hr HP m2 r2 E) as [Hs2 Hd]. split; [by eapply dstep_trans|done].
Qed.
Lemma pc_imp m x (P Q : dd tv → Prop) : pc m x P → (∀ d, P d → Q d) → pc m x Q.
Proof. intros Hx Hi m' r E. destruct (Hx m' r E) as (Hs & d & Hr & HP). split; [done|]. exists d. auto. Qed.
Lemma pc_node m h hd lo hi dlo dhi (Q : dd tv → Prop) : zd m → ar_headers (z_ar m) !! h = Some hd → repr (z_ar m) dlo lo → repr (z_ar m) dhi hi →
  rank dlo ≤ h_level hd → rank dhi ≤ h_level hd → Q (zn hd dlo dhi) → pc m (Some (zdd_create_node m h lo hi)) Q.
Proof.
  intros [Hg Hc] Hh Hlo Hhi R0 R1 HQ m' r [= E].
  assert (Hw : zwf (Zdd (z_ar m) ∅)) by (constructor; [done|]; intros k v; cbn; by rewrite lookup_empty).
  destruct (zcreate_node_spec _ h hd lo hi dlo dhi Hw Hh Hlo Hhi R0 R1) as (m1 & r1 & dr & E1 & (Hw1 & He & Hh1) & Hr & Hd).
  assert (m' = Zdd (z_ar m1) (z_cache m) ∧ r = r1) as [-> ->].
  { unfold zdd_create_node in E, E1. destruct (hi =? zdd_zero); [injection E1 as <- <-; injection E as <- <-; by destruct m|].
    cbn [z_ar] in E1. destruct (ar_hashcons _ _ _). injection E1 as <- <-. by injection E as <- <-. }
  cbn [z_ar] in He, Hh1. split.
  - split; [|done]. constructor; [apply Hw1|]. intros k v Hk. destruct (Hc k v Hk) as (df & dg & dx & ? & ? & ? & ?).
    exists df, dg, dx. sp; try done; by eapply repr_mono.
  - exists dr. split; [done|]. destruct Hd as [[-> ->]|[Hnz ->]]; [done|]. unfold zn in HQ. by destruct dhi as [[]|].
Qed.
Lemma pc_cached m o f g df dg x : zd m → repr (z_ar m) df f → repr (z_ar m) dg g → pc m x (ZT o df dg) →
  pc m (match zdd_cache_get m o f g with Some v => Some (m, v)
        | None => '(m, result) ← x; Some (zdd_cache_put m o f g result, result) end) (ZT o df dg).
Proof.
  intros Hz Hf Hg Hx. destruct (zdd_cache_get m o f g) as [v|] eqn:E.
  - destruct (zd_cache _ Hz _ _ E) as (df' & dg' & dr & Hf' & Hg' & Hr & HZ). cbn in Hf', Hg', HZ.
    rewrite (repr_fun _ _ _ _ Hf' Hf), (repr_fun _ _ _ _ Hg' Hg) in HZ. by eapply pc_ret.
  - eapply pc_bind; [exact Hx|]. intros m' r d Hs Hr HZ m2 r2 [= <- <-]. pose proof (proj1 Hs) as Hz'. split.
    + split; [|split; [apply ext_refl|done]]. constructor; [apply Hz'|]. intros k v. cbn. rewrite lookup_insert_Some. intros [[<- <-]|[_ Hold]].
      * exists df, dg, d. cbn. sp; [by eapply dstep_repr|by eapply dstep_repr|done|done].
      * by apply (zd_cache _ Hz').
    + by exists d.
Qed.

Lemma pc_call m o f g df dg nf ng (X : node tv → node tv → option (zdd * nat)) : zd m → repr (z_ar m) df f → repr (z_ar m) dg g →
  ar_nodes (z_ar m) !! f = Some nf → ar_nodes (z_ar m) !! g = Some ng → pc m (X nf ng) (ZT o df dg) →
  pc m (match zdd_cache_get m o f g with Some v => Some (m, v)
        | None => fn ← ar_nodes (z_ar m) !! f; gn ← ar_nodes (z_ar m) !! g;
                  '(m, result) ← X fn gn; Some (zdd_cache_put m o f g result, result) end) (ZT o df dg).
Proof. intros Hz Hf Hg -> -> Hx. cbn [mbind option_bind]. exact (pc_cached m o f g df dg (X nf ng) Hz Hf Hg Hx). Qed.

Lemma rank_zn hd lo hi k : rank lo ≤ h_level hd → S (h_level hd) ≤ k → rank (zn hd lo hi) ≤ k.
Proof. intros. unfold zn. destruct hi as [[]|]; cbn [rank]; lia. Qed.

Lemma zview a d id : zgood a → repr a d id →
  (∃ t, d = Leaf t ∧ ar_nodes a !! id = Some (Term t)) ∨
  (∃ hd h lo hi dlo dhi, d = Br hd [dlo; dhi] ∧ ar_nodes a !! id = Some (NT h [lo; hi]) ∧ ar_headers a !! h = Some hd ∧
     repr a dlo lo ∧ repr a dhi hi ∧ rank dlo ≤ h_level hd ∧ rank dhi ≤ h_level hd).
Proof.
  intros Hg Hr. destruct d as [t|hd ds]; [left; exists t; by apply repr_leaf in Hr as [_ ?]|right].
  destruct (zrepr_node2 _ _ _ _ Hg Hr) as (h & lo & hi & dlo & dhi & -> & ? & ? & ? & ? & ? & ? & _). by exists hd, h, lo, hi, dlo, dhi.
Qed.
Lemma zt_step (o : zop) df dg r N : ztree (ztf N) o df dg = Some r → zt o df dg r.
Proof. intros H. by exists (S N). Qed.
Lemma zt_two o1 a1 b1 r1 o2 a2 b2 r2 : zt o1 a1 b1 r1 → zt o2 a2 b2 r2 → ∃ N, ztf N o1 a1 b1 = Some r1 ∧ ztf N o2 a2 b2 = Some r2.
Proof. intros [n H1] [k H2]. exists (n + k). split; (eapply ztf_more; [|done]; lia). Qed.

Lemma int_pc n : ∀ m f g df dg, zd m → repr (z_ar m) df f → repr (z_ar m) dg g → pc m (zdd_intersect_f n m f g) (ZT ZIntersect df dg).
Proof.
  induction n as [|n IH]; intros m f g df dg Hz Hf Hg; [apply pc_none|]. pose proof (zd_good _ Hz) as Gd. cbn [zdd_intersect_f].
  destruct (Nat.eqb_spec f g) as [->|Hne].
  { rewrite (repr_fun _ _ _ _ Hf Hg). eapply pc_ret; [done|exact Hg|]. split; [|lia]. apply zt_one. cbn [ztree]. by rewrite deq_refl. }
  assert (Hde : deq df dg = false) by (apply deq_ne; intros ->; by apply Hne, (repr_inj _ _ _ _ _ (zg_wf _ Gd) Hf)).
  destruct (zview _ _ _ Gd Hf) as [(tf & -> & Nf)|(hf & xf & f0 & f1 & df0 & df1 & -> & Nf & Xf & Hf0 & Hf1 & Rf0 & Rf1)];
    (destruct (zview _ _ _ Gd Hg) as [(tg & -> & Ng)|(hg & xg & g0 & g1 & dg0 & dg1 & -> & Ng & Xg & Hg0 & Hg1 & Rg0 & Rg1)]); (eapply pc_call; [exact Hz|exact Hf|exact Hg|exact Nf|exact Ng|]).
  - destruct tf, tg; (eapply pc_ret; [done|first [exact Hf|exact Hg|apply Gd]|split; [apply zt_one; cbn [ztree]; by rewrite Hde|cbn; lia]]).
  - destruct tf; (eapply pc_ret; [done|first [exact Hf|exact Hg|apply Gd]|split; [apply zt_one; cbn [ztree]; by rewrite Hde|cbn; lia]]).
  - destruct tg; (eapply pc_ret; [done|first [exact Hf|exact Hg|apply Gd]|split; [apply zt_one; cbn [ztree]; by rewrite Hde|cbn; lia]]).
  - cbv beta iota. rewrite (a_hdr_level _ _ _ Xf), (a_hdr_level _ _ _ Xg). cbn [mbind option_bind edges2].
    destruct (h_level hg <? h_level hf) eqn:E1; [|destruct (h_level hf <? h_level hg) eqn:E2].
    + apply Nat.ltb_lt in E1 as L1. eapply pc_imp; [apply IH; [done|exact Hf0|exact Hg]|]. intros d [[N H] Hr]. split; [|cbn [rank] in *; lia].
      apply (zt_step _ _ _ _ N). cbn [ztree lvl3]. by rewrite Hde, E1.
    + apply Nat.ltb_lt in E2 as L2. eapply pc_imp; [apply IH; [done|exact Hf|exact Hg0]|]. intros d [[N H] Hr]. split; [|cbn [rank] in *; lia].
      apply (zt_step _ _ _ _ N). cbn [ztree lvl3]. by rewrite Hde, E1, E2.
    + apply Nat.ltb_ge in E1 as L1, E2 as L2.
      eapply pc_bind; [apply IH; [done|exact Hf0|exact Hg0]|]. intros m1 l dl S1 Rl [Tl Kl].
      eapply pc_bind; [apply IH; [apply S1|by eapply dstep_repr|by eapply dstep_repr]|]. intros m2 k dk S2 Rk [Tk Kk]. cbn [rank] in *.
      eapply (pc_node m2 xf hf l k dl dk); [apply S2|rewrite (proj2 (proj2 S2)), (proj2 (proj2 S1)); exact Xf|by eapply dstep_repr|done|lia|lia|].
      split; [|apply rank_zn; cbn [rank]; lia]. destruct (zt_two _ _ _ _ _ _ _ _ Tl Tk) as (N & Q1 & Q2).
      apply (zt_step _ _ _ _ N). cbn [ztree lvl3]. rewrite Hde, E1, E2, Q1. cbn [mbind option_bind]. by rewrite Q2.
Qed.

Lemma union_pc n : ∀ m f g df dg, zd m → repr (z_ar m) df f → repr (z_ar m) dg g → pc m (zdd_union_f n m f g) (ZT ZUnion df dg).
Proof.
  induction n as [|n IH]; intros m f g df dg Hz Hf Hg; [apply pc_none|]. pose proof (zd_good _ Hz) as Gd. cbn [zdd_union_f].
  destruct (Nat.eqb_spec f g) as [->|Hne].
  { rewrite (repr_fun _ _ _ _ Hf Hg). eapply pc_ret; [done|exact Hg|]. split; [|lia]. apply zt_one. cbn [ztree]. by rewrite deq_refl. }
  assert (Hde : deq df dg = false) by (apply deq_ne; intros ->; by apply Hne, (repr_inj _ _ _ _ _ (zg_wf _ Gd) Hf)).
  destruct (zview _ _ _ Gd Hf) as [(tf & -> & Nf)|(hf & xf & f0 & f1 & df0 & df1 & -> & Nf & Xf & Hf0 & Hf1 & Rf0 & Rf1)];
    (destruct (zview _ _ _ Gd Hg) as [(tg & -> & Ng)|(hg & xg & g0 & g1 & dg0 & dg1 & -> & Ng & Xg & Hg0 & Hg1 & Rg0 & Rg1)]); (eapply pc_call; [exact Hz|exact Hf|exact Hg|exact Nf|exact Ng|]).
  - destruct tf, tg; (eapply pc_ret; [done|first [exact Hf|exact Hg|apply Gd]|split; [apply zt_one; cbn [ztree]; by rewrite ?Hde|cbn; lia]]).
  - destruct tf; cbv beta iota.
    + (eapply pc_ret; [done|first [exact Hf|exact Hg|apply Gd]|split; [apply zt_one; cbn [ztree]; by rewrite ?Hde|cbn; lia]]).
    + cbn [mbind option_bind edges2].
      eapply pc_bind; [apply IH; [done|exact (zg_one _ Gd)|exact Hg0]|]. intros m1 l dl S1 Rl [Tl Kl]. cbn [rank] in *.
      eapply (pc_node m1 xg hg l g1 dl dg1); [apply S1|rewrite (proj2 (proj2 S1)); assumption|done|by eapply dstep_repr|lia|lia|].
      split; [|apply rank_zn; cbn [rank]; lia]. destruct Tl as [N Q1].
      apply (zt_step _ _ _ _ N). cbn [ztree lvl3]. rewrite Hde, Q1. done.
    + (eapply pc_ret; [done|first [exact Hf|exact Hg|apply Gd]|split; [apply zt_one; cbn [ztree]; by rewrite ?Hde|cbn; lia]]).
  - destruct tg; cbv beta iota.
    + (eapply pc_ret; [done|first [exact Hf|exact Hg|apply Gd]|split; [apply zt_one; cbn [ztree]; by rewrite ?Hde|cbn; lia]]).
    + cbn [mbind option_bind edges2].
      eapply pc_bind; [apply IH; [done|exact Hf0|exact (zg_one _ Gd)]|]. intros m1 l dl S1 Rl [Tl Kl]. cbn [rank] in *.
      eapply (pc_node m1 xf hf l f1 dl df1); [apply S1|rewrite (proj2 (proj2 S1)); assumption|done|by eapply dstep_repr|lia|lia|].
      split; [|apply rank_zn; cbn [rank]; lia]. destruct Tl as [N Q1].
      apply (zt_step _ _ _ _ N). cbn [ztree lvl3]. rewrite Hde, Q1. done.
    + (eapply pc_ret; [done|first [exact Hf|exact Hg|apply Gd]|split; [apply zt_one; cbn [ztree]; by rewrite ?Hde|cbn; lia]]).
  - cbv beta iota. rewrite (a_hdr_level _ _ _ Xf), (a_hdr_level _ _ _ Xg). cbn [mbind option_bind edges2].
    destruct (h_level hg <? h_level hf) eqn:E1; [|destruct (h_level hf <? h_level hg) eqn:E2].
    + apply Nat.ltb_lt in E1 as L1.
      eapply pc_bind; [apply IH; [done|exact Hf0|exact Hg]|]. intros m1 l dl S1 Rl [Tl Kl]. cbn [rank] in *.
      eapply (pc_node m1 xf hf l f1 dl df1); [apply S1|rewrite (proj2 (proj2 S1)); assumption|done|by eapply dstep_repr|lia|lia|].
      split; [|apply rank_zn; cbn [rank]; lia]. destruct Tl as [N Q1].
      apply (zt_step _ _ _ _ N). cbn [ztree lvl3]. rewrite Hde, E1, Q1. done.
    + apply Nat.ltb_lt in E2 as L2.
      eapply pc_bind; [apply IH; [done|exact Hf|exact Hg0]|]. intros m1 l dl S1 Rl [Tl Kl]. cbn [rank] in *.
      eapply (pc_node m1 xg hg l g1 dl dg1); [apply S1|rewrite (proj2 (proj2 S1)); assumption|done|by eapply dstep_repr|lia|lia|].
      split; [|apply rank_zn; cbn [rank]; lia]. destruct Tl as [N Q1].
      apply (zt_step _ _ _ _ N). cbn [ztree lvl3]. rewrite Hde, E1, E2, Q1. done.
    + apply Nat.ltb_ge in E1 as L1, E2 as L2.
      eapply pc_bind; [apply IH; [done|exact Hf0|exact Hg0]|]. intros m1 l dl S1 Rl [Tl Kl].
      eapply pc_bind; [apply IH; [apply S1|by eapply dstep_repr|by eapply dstep_repr]|]. intros m2 k dk S2 Rk [Tk Kk]. cbn [rank] in *.
      eapply (pc_node m2 xf hf l k dl dk); [apply S2|rewrite (proj2 (proj2 S2)), (proj2 (proj2 S1)); exact Xf|by eapply dstep_repr|done|lia|lia|].
      split; [|apply rank_zn; cbn [rank]; lia]. destruct (zt_two _ _ _ _ _ _ _ _ Tl Tk) as (N & Q1 & Q2).
      apply (zt_step _ _ _ _ N). cbn [ztree lvl3]. rewrite Hde, E1, E2, Q1. cbn [mbind option_bind]. by rewrite Q2.
Qed.

Lemma diff_pc n : ∀ m f g df dg, zd m → repr (z_ar m) df f → repr (z_ar m) dg g → pc m (zdd_setdiff_f n m f g) (ZT ZSetdiff df dg).
Proof.
  induction n as [|n IH]; intros m f g df dg Hz Hf Hg; [apply pc_none|]. pose proof (zd_good _ Hz) as Gd. cbn [zdd_setdiff_f].
  destruct (Nat.eqb_spec f g) as [->|Hne].
  { rewrite (repr_fun _ _ _ _ Hf Hg). destruct (Nat.eqb_spec g zdd_undet) as [->|Hnu].
    - eapply pc_ret; [done|apply Gd|]. rewrite (repr_fun _ _ _ _ Hg (zg_undet _ Gd)). split; [by apply zt_one|cbn; lia].
    - eapply pc_ret; [done|apply Gd|]. split; [|cbn; lia]. apply zt_one. cbn [ztree]. rewrite deq_refl, (deq_ne dg (Leaf TUndet)); [done|].
      intros ->. apply Hnu. eapply repr_inj; [apply Gd|exact Hg|apply Gd]. }
  assert (Hde : deq df dg = false) by (apply deq_ne; intros ->; by apply Hne, (repr_inj _ _ _ _ _ (zg_wf _ Gd) Hf)).
  destruct (zview _ _ _ Gd Hf) as [(tf & -> & Nf)|(hf & xf & f0 & f1 & df0 & df1 & -> & Nf & Xf & Hf0 & Hf1 & Rf0 & Rf1)];
    (destruct (zview _ _ _ Gd Hg) as [(tg & -> & Ng)|(hg & xg & g0 & g1 & dg0 & dg1 & -> & Ng & Xg & Hg0 & Hg1 & Rg0 & Rg1)]); (eapply pc_call; [exact Hz|exact Hf|exact Hg|exact Nf|exact Ng|]).
  - destruct tf, tg; (eapply pc_ret; [done|first [exact Hf|exact Hg|apply Gd]|split; [apply zt_one; cbn [ztree]; by rewrite ?Hde|cbn; lia]]).
  - destruct tf; cbv beta iota.
    + (eapply pc_ret; [done|first [exact Hf|exact Hg|apply Gd]|split; [apply zt_one; cbn [ztree]; by rewrite ?Hde|cbn; lia]]).
    + cbn [mbind option_bind edges2]. eapply pc_imp; [apply IH; [done|exact (zg_one _ Gd)|exact Hg0]|]. intros d [[N H] Hr]. split; [|cbn [rank] in *; lia].
      apply (zt_step _ _ _ _ N). cbn [ztree lvl3]. by rewrite Hde.
    + (eapply pc_ret; [done|first [exact Hf|exact Hg|apply Gd]|split; [apply zt_one; cbn [ztree]; by rewrite ?Hde|cbn; lia]]).
  - destruct tg; cbv beta iota.
    + (eapply pc_ret; [done|first [exact Hf|exact Hg|apply Gd]|split; [apply zt_one; cbn [ztree]; by rewrite ?Hde|cbn; lia]]).
    + cbn [mbind option_bind edges2].
      eapply pc_bind; [apply IH; [done|exact Hf0|exact (zg_one _ Gd)]|]. intros m1 l dl S1 Rl [Tl Kl]. cbn [rank] in *.
      eapply (pc_node m1 xf hf l f1 dl df1); [apply S1|rewrite (proj2 (proj2 S1)); assumption|done|by eapply dstep_repr|lia|lia|].
      split; [|apply rank_zn; cbn [rank]; lia]. destruct Tl as [N Q1].
      apply (zt_step _ _ _ _ N). cbn [ztree lvl3]. rewrite Hde, Q1. done.
    + (eapply pc_ret; [done|first [exact Hf|exact Hg|apply Gd]|split; [apply zt_one; cbn [ztree]; by rewrite ?Hde|cbn; lia]]).
  - cbv beta iota. rewrite (a_hdr_level _ _ _ Xf), (a_hdr_level _ _ _ Xg). cbn [mbind option_bind edges2].
    destruct (h_level hg <? h_level hf) eqn:E1; [|destruct (h_level hf <? h_level hg) eqn:E2].
    + apply Nat.ltb_lt in E1 as L1.
      eapply pc_bind; [apply IH; [done|exact Hf0|exact Hg]|]. intros m1 l dl S1 Rl [Tl Kl]. cbn [rank] in *.
      eapply (pc_node m1 xf hf l f1 dl df1); [apply S1|rewrite (proj2 (proj2 S1)); assumption|done|by eapply dstep_repr|lia|lia|].
      split; [|apply rank_zn; cbn [rank]; lia]. destruct Tl as [N Q1].
      apply (zt_step _ _ _ _ N). cbn [ztree lvl3]. rewrite Hde, E1, Q1. done.
    + apply Nat.ltb_lt in E2 as L2. eapply pc_imp; [apply IH; [done|exact Hf|exact Hg0]|]. intros d [[N H] Hr]. split; [|cbn [rank] in *; lia].
      apply (zt_step _ _ _ _ N). cbn [ztree lvl3]. by rewrite Hde, E1, E2.
    + apply Nat.ltb_ge in E1 as L1, E2 as L2.
      eapply pc_bind; [apply IH; [done|exact Hf0|exact Hg0]|]. intros m1 l dl S1 Rl [Tl Kl].
      eapply pc_bind; [apply IH; [apply S1|by eapply dstep_repr|by eapply dstep_repr]|]. intros m2 k dk S2 Rk [Tk Kk]. cbn [rank] in *.
      eapply (pc_node m2 xf hf l k dl dk); [apply S2|rewrite (proj2 (proj2 S2)), (proj2 (proj2 S1)); exact Xf|by eapply dstep_repr|done|lia|lia|].
      split; [|apply rank_zn; cbn [rank]; lia]. destruct (zt_two _ _ _ _ _ _ _ _ Tl Tk) as (N & Q1 & Q2).
      apply (zt_step _ _ _ _ N). cbn [ztree lvl3]. rewrite Hde, E1, E2, Q1. cbn [mbind option_bind]. by rewrite Q2.
Qed.

Lemma prod_pc n : ∀ m f g df dg, zd m → repr (z_ar m) df f → repr (z_ar m) dg g → pc m (zdd_product_f n m f g) (ZT ZProduct df dg).
Proof.
  induction n as [|n IH]; intros m f g df dg Hz Hf Hg; [apply pc_none|]. pose proof (zd_good _ Hz) as Gd. cbn [zdd_product_f].
  destruct (zview _ _ _ Gd Hf) as [(tf & -> & Nf)|(hf & xf & f0 & f1 & df0 & df1 & -> & Nf & Xf & Hf0 & Hf1 & Rf0 & Rf1)];
    (destruct (zview _ _ _ Gd Hg) as [(tg & -> & Ng)|(hg & xg & g0 & g1 & dg0 & dg1 & -> & Ng & Xg & Hg0 & Hg1 & Rg0 & Rg1)]); (eapply pc_call; [exact Hz|exact Hf|exact Hg|exact Nf|exact Ng|]).
  - destruct tf, tg; (eapply pc_ret; [done|first [exact Hf|exact Hg|apply Gd]|split; [by apply zt_one|cbn; lia]]).
  - destruct tf; (eapply pc_ret; [done|first [exact Hf|exact Hg|apply Gd]|split; [by apply zt_one|cbn; lia]]).
  - destruct tg; (eapply pc_ret; [done|first [exact Hf|exact Hg|apply Gd]|split; [by apply zt_one|cbn; lia]]).
  - cbv beta iota. rewrite (a_hdr_level _ _ _ Xf), (a_hdr_level _ _ _ Xg). cbn [mbind option_bind edges2].
    destruct (h_level hg <? h_level hf) eqn:E1; [|destruct (h_level hf <? h_level hg) eqn:E2].
    + apply Nat.ltb_lt in E1 as L1.
      eapply pc_bind; [apply IH; [done|exact Hf0|exact Hg]|]. intros m1 l dl S1 Rl [Tl Kl].
      eapply pc_bind; [apply IH; [apply S1|eapply dstep_repr; [done|exact Hf1]|eapply dstep_repr; [done|exact Hg]]|]. intros m2 k dk S2 Rk [Tk Kk]. cbn [rank] in *.
      eapply (pc_node m2 xf hf l k dl dk); [apply S2|rewrite (proj2 (proj2 S2)), (proj2 (proj2 S1)); assumption|by eapply dstep_repr|done|lia|lia|].
      split; [|apply rank_zn; cbn [rank]; lia]. destruct (zt_two _ _ _ _ _ _ _ _ Tl Tk) as (N & Q1 & Q2).
      apply (zt_step _ _ _ _ N). cbn [ztree lvl3]. rewrite E1, Q1. cbn [mbind option_bind]. by rewrite Q2.
    + apply Nat.ltb_lt in E2 as L2.
      eapply pc_bind; [apply IH; [done|exact Hf|exact Hg0]|]. intros m1 l dl S1 Rl [Tl Kl].
      eapply pc_bind; [apply IH; [apply S1|eapply dstep_repr; [done|exact Hf]|eapply dstep_repr; [done|exact Hg1]]|]. intros m2 k dk S2 Rk [Tk Kk]. cbn [rank] in *.
      eapply (pc_node m2 xg hg l k dl dk); [apply S2|rewrite (proj2 (proj2 S2)), (proj2 (proj2 S1)); assumption|by eapply dstep_repr|done|lia|lia|].
      split; [|apply rank_zn; cbn [rank]; lia]. destruct (zt_two _ _ _ _ _ _ _ _ Tl Tk) as (N & Q1 & Q2).
      apply (zt_step _ _ _ _ N). cbn [ztree lvl3]. rewrite E1, E2, Q1. cbn [mbind option_bind]. by rewrite Q2.
    + apply Nat.ltb_ge in E1 as L1, E2 as L2.
      eapply pc_bind; [apply IH; [done|exact Hf0|exact Hg0]|]. intros m1 l dl S1 Rl [Tl Kl].
      eapply pc_bind; [apply IH; [apply S1|eapply dstep_repr; [exact S1|exact Hf1]|eapply dstep_repr; [exact S1|exact Hg1]]|]. intros m2 k dk S2 Rk [Tk Kk].
      pose proof (dstep_trans _ _ _ S1 S2) as S12.
      eapply pc_bind; [apply IH; [apply S2|eapply dstep_repr; [exact S12|exact Hf1]|eapply dstep_repr; [exact S12|exact Hg0]]|]. intros m3 t dt S3 Rt [Tt Kt].
      eapply pc_bind; [apply union_pc; [apply S3|eapply dstep_repr; [exact S3|exact Rk]|exact Rt]|]. intros m4 k2 dk2 S4 Rk2 [Tk2 Kk2].
      pose proof (dstep_trans _ _ _ S12 (dstep_trans _ _ _ S3 S4)) as S14.
      eapply pc_bind; [apply IH; [apply S4|eapply dstep_repr; [exact S14|exact Hf0]|eapply dstep_repr; [exact S14|exact Hg1]]|]. intros m5 t2 dt2 S5 Rt2 [Tt2 Kt2].
      eapply pc_bind; [apply union_pc; [apply S5|eapply dstep_repr; [exact S5|exact Rk2]|exact Rt2]|]. intros m6 k3 dk3 S6 Rk3 [Tk3 Kk3].
      pose proof (dstep_trans _ _ _ S14 (dstep_trans _ _ _ S5 S6)) as S16. cbn [rank] in *.
      eapply (pc_node m6 xf hf l k3 dl dk3); [apply S6|rewrite (proj2 (proj2 S16)); exact Xf| |exact Rk3|lia|lia|].
      { eapply dstep_repr; [exact (dstep_trans _ _ _ S2 (dstep_trans _ _ _ S3 (dstep_trans _ _ _ S4 (dstep_trans _ _ _ S5 S6))))|exact Rl]. }
      split; [|apply rank_zn; cbn [rank]; lia].
      destruct Tl as [n1 Q1], Tk as [n2 Q2], Tt as [n3 Q3], Tk2 as [n4 Q4], Tt2 as [n5 Q5], Tk3 as [n6 Q6].
      set (N := n1 + n2 + n3 + n4 + n5 + n6). apply (zt_step _ _ _ _ N). cbn [ztree lvl3].
      apply (ztf_more _ N) in Q1, Q2, Q3, Q4, Q5, Q6; try (subst N; lia). rewrite E1, E2, Q1. cbn [mbind option_bind]. rewrite Q2. cbn [mbind option_bind].
      rewrite Q3. cbn [mbind option_bind]. rewrite Q4. cbn [mbind option_bind]. rewrite Q5. cbn [mbind option_bind]. by rewrite Q6.
Qed.

Lemma div_pc n : ∀ m f g df dg, zd m → repr (z_ar m) df f → repr (z_ar m) dg g → pc m (zdd_divide_f n m f g) (ZT ZDivision df dg).
Proof.
  induction n as [|n IH]; intros m f g df dg Hz Hf Hg; [apply pc_none|]. pose proof (zd_good _ Hz) as Gd. cbn [zdd_divide_f].
  destruct (zview _ _ _ Gd Hf) as [(tf & -> & Nf)|(hf & xf & f0 & f1 & df0 & df1 & -> & Nf & Xf & Hf0 & Hf1 & Rf0 & Rf1)];
    (destruct (zview _ _ _ Gd Hg) as [(tg & -> & Ng)|(hg & xg & g0 & g1 & dg0 & dg1 & -> & Ng & Xg & Hg0 & Hg1 & Rg0 & Rg1)]); (eapply pc_call; [exact Hz|exact Hf|exact Hg|exact Nf|exact Ng|]).
  - destruct tf, tg; (eapply pc_ret; [done|first [exact Hf|exact Hg|apply Gd]|split; [by apply zt_one|cbn; lia]]).
  - destruct tf; (eapply pc_ret; [done|first [exact Hf|exact Hg|apply Gd]|split; [by apply zt_one|cbn; lia]]).
  - destruct tg; (eapply pc_ret; [done|first [exact Hf|exact Hg|apply Gd]|split; [by apply zt_one|cbn; lia]]).
  - cbv beta iota. rewrite (a_hdr_level _ _ _ Xf), (a_hdr_level _ _ _ Xg). cbn [mbind option_bind edges2].
    destruct (h_level hg <? h_level hf) eqn:E1; [|destruct (h_level hf <? h_level hg) eqn:E2].
    + apply Nat.ltb_lt in E1 as L1. eapply pc_imp; [apply IH; [done|exact Hf0|exact Hg]|]. intros d [[N H] Hr]. split; [|cbn [rank] in *; lia].
      apply (zt_step _ _ _ _ N). cbn [ztree lvl3]. by rewrite E1.
    + eapply pc_ret; [done|apply Gd|]. split; [|cbn; lia]. apply zt_one. cbn [ztree lvl3]. by rewrite E1, E2.
    + apply Nat.ltb_ge in E1 as L1, E2 as L2.
      eapply pc_bind; [apply IH; [done|exact Hf0|exact Hg0]|]. intros m1 l dl S1 Rl [Tl Kl].
      eapply pc_bind; [apply IH; [apply S1|by eapply dstep_repr|by eapply dstep_repr]|]. intros m2 k dk S2 Rk [Tk Kk].
      eapply pc_imp; [apply int_pc; [apply S2|eapply dstep_repr; [exact S2|exact Rl]|exact Rk]|]. intros d [Td Kd]. split; [|cbn [rank] in *; lia].
      destruct Tl as [n1 Q1], Tk as [n2 Q2], Td as [n3 Q3]. set (N := n1 + n2 + n3). apply (zt_step _ _ _ _ N). cbn [ztree lvl3].
      apply (ztf_more _ N) in Q1, Q2, Q3; try (subst N; lia). rewrite E1, E2, Q1. cbn [mbind option_bind]. rewrite Q2. cbn [mbind option_bind]. exact Q3.
Qed.
Lemma op_pc o m f g df dg : zd m → repr (z_ar m) df f → repr (z_ar m) dg g → pc m (zdd_op o m f g) (ZT o df dg).
Proof. intros. destruct o; [by apply int_pc|by apply union_pc|by apply diff_pc|by apply prod_pc|by apply div_pc]. Qed.

(** ** the other calls keep the cache exact *)
Definition zx (m : zdd) : Prop := zwf m ∧ zd m.
Lemma zx_new : zx zdd_new.
Proof. split; [apply znew_ok|]. constructor; [apply znew_ok|]. intros k v. cbn. by rewrite lookup_empty. Qed.
Lemma zx_clear m : zx m → zx (zdd_clear_cache m).
Proof. intros [Hw Hd]. split; [by apply zclear_cache_ok|]. constructor; [apply Hd|]. intros k v. cbn. by rewrite lookup_empty. Qed.
Lemma zx_header m l x m' h : zx m → zdd_create_header m l x = (m', h) → zx m' ∧ ext (z_ar m) (z_ar m') ∧ h = length (ar_headers (z_ar m)) ∧
  ar_headers (z_ar m') = ar_headers (z_ar m) ++ [Header h l x 2].
Proof.
  intros [Hw Hd] E. destruct (zcreate_header_ok _ _ _ _ _ Hw E) as (Hw' & He & Hh & Hhd & _). split; [|done]. split; [done|]. constructor; [apply Hw'|].
  intros k v Hk. assert (z_cache m' = z_cache m) as Hc by (unfold zdd_create_header in E; destruct (ar_create_header _ _ _ _); by injection E as <- _).
  rewrite Hc in Hk. destruct (zd_cache _ Hd k v Hk) as (df & dg & dr & ? & ? & ? & ?). exists df, dg, dr. sp; try done; by eapply repr_mono.
Qed.
Lemma zx_node m h hd lo hi dlo dhi : zx m → ar_headers (z_ar m) !! h = Some hd → repr (z_ar m) dlo lo → repr (z_ar m) dhi hi →
  rank dlo ≤ h_level hd → rank dhi ≤ h_level hd →
  ∃ m' r, zdd_create_node m h lo hi = (m', r) ∧ zx m' ∧ ext (z_ar m) (z_ar m') ∧ ar_headers (z_ar m') = ar_headers (z_ar m) ∧ repr (z_ar m') (zn hd dlo dhi) r.
Proof.
  intros [Hw Hd] Hh Hlo Hhi R0 R1. destruct (zcreate_node_spec m h hd lo hi dlo dhi) as (m' & r & dr & E & (Hw' & He & Hh') & _); try done.
  destruct (pc_node m h hd lo hi dlo dhi (λ d, d = zn hd dlo dhi) Hd Hh Hlo Hhi R0 R1 eq_refl m' r) as [(Hd' & _ & _) (d & Hr & ->)]; [by rewrite E|].
  by exists m', r.
Qed.
Lemma zx_op o m f g df dg : zx m → repr (z_ar m) df f → repr (z_ar m) dg g →
  ∃ m' r dr, zdd_op o m f g = Some (m', r) ∧ zx m' ∧ ext (z_ar m) (z_ar m') ∧ ar_headers (z_ar m') = ar_headers (z_ar m) ∧ repr (z_ar m') dr r ∧ zt o df dg dr.
Proof.
  intros [Hw Hd] Hf Hg. destruct (zop_ok o m f g df dg Hw Hf Hg) as (m' & r & d0 & E & (Hw' & He & Hh) & _ & _).
  destruct (op_pc o m f g df dg Hd Hf Hg m' r E) as [(Hd' & _ & _) (dr & Hr & [HT _])]. by exists m', r, dr.
Qed.
Lemma zx_gc m roots : zx m → (∀ r, r ∈ roots → live (z_ar m) r) →
  ∃ m' n, zdd_gc m roots = Some (m', n) ∧ zx m' ∧ ar_headers (z_ar m') = ar_headers (z_ar m) ∧
    ∀ d r, r ∈ roots → repr (z_ar m) d r → repr (z_ar m') d r.
Proof.
  intros [Hw Hd] Hr. destruct (zgc_ok m roots Hw Hr) as (m' & n & E & Hw' & Hh & Hn & Hl & _ & _). exists m', n. pose proof (zg_wf _ (zw_good _ Hw')) as W'.
  assert (Hk : ∀ d r, live (z_ar m') r → repr (z_ar m) d r → repr (z_ar m') d r) by (intros d r Hlr; by apply (repr_gc _ _ _ d r W' Hh Hn)).
  sp; [done| |done|].
  - split; [done|]. constructor; [apply Hw'|]. intros k v Hv. destruct (zw_cok _ Hw' _ _ Hv) as (df' & dg' & dr' & ?%repr_live & ?%repr_live & ?%repr_live & _).
    assert (z_cache m !! k = Some v) as Hv0.
    { unfold zdd_gc in E. destruct (ar_gc _ _ _) as [[a lv]|]; [|done]. cbn [mbind option_bind] in E. destruct (decide _); [|done]. injection E as <- _.
      cbn in Hv. by apply map_filter_lookup_Some in Hv as [? _]. }
    destruct (zd_cache _ Hd _ _ Hv0) as (df & dg & dr & ? & ? & ? & ?). exists df, dg, dr. sp; try done; by apply Hk.
  - intros d r Hin. apply Hk. apply Hl. right. by constructor.
Qed.
