(** The minimal-solution functions as functions of diagrams: whatever arena and operation cache they start with, the diagram of the result
    depends on the diagram of the operand only (internal lemmas). *)
From stdpp Require Import strings.
From Verif Require Import Prelude ComputeCache Arena Trees ArenaProofs ArenaMore Bdd BddProofs SpecBdd BddMain BssAlg Zdd ZddTrees ZddProofs SpecZdd ZddMain ZddDet.

(** create_node *)
Definition bn (hd : header) (lo hi : dd tv) : dd tv := if deq lo hi then lo else Br hd [lo; hi].

Fixpoint wtf (n : nat) (df dg : dd tv) : option (dd tv) :=
  match n with
  | O => None
  | S n =>
      match df, dg with
      | Leaf TZero, _ => Some (Leaf TZero)
      | _, Leaf TZero => Some df
      | _, Leaf TOne => Some (Leaf TZero)
      | Leaf TOne, Br _ [g0; _] => wtf n df g0
      | Br hf [f0; f1], Br hg [g0; g1] =>
          if deq df dg then Some (Leaf TZero)
          else if h_level hg <? h_level hf then l ← wtf n f0 dg; h ← wtf n f1 dg; Some (bn hf l h)
          else if h_level hf <? h_level hg then wtf n df g0
          else l ← wtf n f0 g0; h ← wtf n f1 g1; Some (bn hf l h)
      | _, _ => None
      end
  end.
Lemma wtf_more n : ∀ k df dg r, n ≤ k → wtf n df dg = Some r → wtf k df dg = Some r.
Proof.
  induction n as [|n IH]; intros [|k] df dg r Hle; try done; [lia|].
  assert (HR : ∀ df dg r, wtf n df dg = Some r → wtf k df dg = Some r) by (intros; eapply IH; [lia|done]). clear IH Hle.
  assert (H2 : ∀ hd a b c d r, (l ← wtf n a b; h ← wtf n c d; Some (bn hd l h)) = Some r → (l ← wtf k a b; h ← wtf k c d; Some (bn hd l h)) = Some r).
  { intros hd a b c d r'. destruct (wtf n a b) as [l|] eqn:E1; [|done]. cbn [mbind option_bind].
    destruct (wtf n c d) as [h|] eqn:E2; [|done]. cbn [mbind option_bind]. by rewrite (HR _ _ _ E1), (HR _ _ _ E2). }
  cbn [wtf]. destruct df as [[]|hf [|f0 [|f1 [|]]]], dg as [[]|hg [|g0 [|g1 [|]]]]; try done; try apply HR.
  destruct (deq _ _); [done|]. destruct (_ <? _); [apply H2|]. destruct (_ <? _); [apply HR|apply H2].
Qed.
Definition WT (df dg dr : dd tv) : Prop := (∃ n, wtf n df dg = Some dr) ∧ rank dr ≤ rank df.
Lemma WT_fun df dg d1 d2 : WT df dg d1 → WT df dg d2 → d1 = d2.
Proof.
  intros [[n H1] _] [[k H2] _]. apply (wtf_more _ (n + k)) in H1; [|lia]. apply (wtf_more _ (n + k)) in H2; [|lia]. congruence.
Qed.
Lemma rank_bn hd lo hi k : rank lo ≤ h_level hd → S (h_level hd) ≤ k → rank (bn hd lo hi) ≤ k.
Proof. intros. unfold bn. destruct (deq _ _); cbn [rank]; lia. Qed.

(** ** without *)
Definition wc (m : bdd) (c : gmap (nat * nat) nat) : Prop :=
  ∀ f g r, c !! (f, g) = Some r → ∃ df dg dr, repr (b_ar m) df f ∧ repr (b_ar m) dg g ∧ repr (b_ar m) dr r ∧ WT df dg dr.
Lemma wc_step m m' c : step m m' → wc m c → wc m' c.
Proof.
  intros (_ & He & _) Hc f g r H. destruct (Hc _ _ _ H) as (df & dg & dr & ? & ? & ? & ?). exists df, dg, dr. sp; try done; by eapply repr_mono.
Qed.
Lemma st_repr m m' d id : step m m' → repr (b_ar m) d id → repr (b_ar m') d id.
Proof. intros (_ & He & _). by apply repr_mono. Qed.
Definition pw (m : bdd) (x : option (bdd * gmap (nat * nat) nat * nat)) (Q : dd tv → Prop) : Prop :=
  ∀ m' c r, x = Some (m', c, r) → step m m' ∧ wc m' c ∧ ∃ d, repr (b_ar m') d r ∧ Q d.
Lemma pw_none m Q : pw m None Q.
Proof. by intros ???. Qed.
Lemma pw_ret m c r d (Q : dd tv → Prop) : bwf m → wc m c → repr (b_ar m) d r → Q d → pw m (Some (m, c, r)) Q.
Proof. intros Hw Hc Hr HQ m' c' r' [= <- <- <-]. split; [by apply step_refl|]. split; [done|]. by exists d. Qed.
Lemma pw_bind m x (P Q : dd tv → Prop) k : pw m x P →
  (∀ m' c r d, step m m' → wc m' c → repr (b_ar m') d r → P d → pw m' (k (m', c, r)) Q) → pw m (x ≫= k) Q.
Proof.
  intros Hx Hk m2 c2 r2. destruct x as [[[m1 c1] r1]|]; [|done]. cbn. destruct (Hx m1 c1 r1 eq_refl) as (Hs & Hc & d & Hr & HP).
  intros E. destruct (Hk m1 c1 r1 d Hs Hc Hr HP m2 c2 r2 E) as [Hs2 Hd]. split; [by eapply step_trans|done].
Qed.
Lemma pw_imp m x (P Q : dd tv → Prop) : pw m x P → (∀ d, P d → Q d) → pw m x Q.
Proof. intros Hx Hi m' c r E. destruct (Hx m' c r E) as (Hs & Hc & d & Hr & HP). split; [done|]. split; [done|]. exists d. auto. Qed.
Lemma node_bn m h hd lo hi dlo dhi m' r : bwf m → ar_headers (b_ar m) !! h = Some hd → repr (b_ar m) dlo lo → repr (b_ar m) dhi hi →
  rank dlo ≤ h_level hd → rank dhi ≤ h_level hd → bdd_create_node m h lo hi = (m', r) → step m m' ∧ repr (b_ar m') (bn hd dlo dhi) r.
Proof.
  intros Hw Hh Hlo Hhi R0 R1 E. destruct (create_node_spec m h hd lo hi dlo dhi Hw Hh Hlo Hhi R0 R1) as (m1 & r1 & dr & E1 & Hst & Hr & Hd).
  rewrite E in E1. injection E1 as <- <-. split; [done|]. unfold bn. destruct Hd as [[<- ->]|[Hne ->]]; [by rewrite deq_refl|].
  by rewrite deq_ne.
Qed.
Lemma pw_node m c h hd lo hi dlo dhi (Q : dd tv → Prop) : bwf m → wc m c → ar_headers (b_ar m) !! h = Some hd → repr (b_ar m) dlo lo → repr (b_ar m) dhi hi →
  rank dlo ≤ h_level hd → rank dhi ≤ h_level hd → Q (bn hd dlo dhi) → pw m (let '(m, r) := bdd_create_node m h lo hi in Some (m, c, r)) Q.
Proof.
  intros Hw Hc Hh Hlo Hhi R0 R1 HQ m' c' r'. destruct (bdd_create_node m h lo hi) as [m1 r1] eqn:E. intros [= <- <- <-].
  destruct (node_bn _ _ _ _ _ _ _ _ _ Hw Hh Hlo Hhi R0 R1 E) as [Hs Hr]. split; [done|]. split; [by eapply wc_step|]. eauto.
Qed.
Lemma pw_call (m : bdd) (c : gmap (nat * nat) nat) (f g : nat) (df dg : dd tv) (nf ng : node tv) (X : node tv → node tv → option (bdd * gmap (nat * nat) nat * nat)) : bwf m → wc m c → repr (b_ar m) df f → repr (b_ar m) dg g →
  ar_nodes (b_ar m) !! f = Some nf → ar_nodes (b_ar m) !! g = Some ng → pw m (X nf ng) (WT df dg) →
  pw m (match c !! (f, g) with Some x => Some (m, c, x)
        | None => fn ← ar_nodes (b_ar m) !! f; gn ← ar_nodes (b_ar m) !! g;
                  '(m, cache, node) ← X fn gn; Some (m, <[(f, g) := node]> cache, node) end) (WT df dg).
Proof.
  intros Hw Hc Hf Hg -> -> Hx. cbn [mbind option_bind]. destruct (c !! (f, g)) as [v|] eqn:E.
  - destruct (Hc _ _ _ E) as (df' & dg' & dr & Hf' & Hg' & Hr & HZ).
    rewrite (repr_fun _ _ _ _ Hf' Hf), (repr_fun _ _ _ _ Hg' Hg) in HZ. by eapply pw_ret.
  - eapply pw_bind; [exact Hx|]. intros m' c' r d Hs Hc' Hr HZ m2 c2 r2 [= <- <- <-]. split; [by apply step_refl, Hs|]. split; [|by exists d].
    intros f' g' r'. rewrite lookup_insert_Some. intros [[[= <- <-] <-]|[_ Hold]]; [|by apply Hc'].
    exists df, dg, d. sp; [by eapply st_repr|by eapply st_repr|done|done].
Qed.
Lemma bview a d id : good a → repr a d id →
  (∃ t, d = Leaf t ∧ ar_nodes a !! id = Some (Term t)) ∨
  (∃ hd h lo hi dlo dhi, d = Br hd [dlo; dhi] ∧ ar_nodes a !! id = Some (NT h [lo; hi]) ∧ ar_headers a !! h = Some hd ∧
     repr a dlo lo ∧ repr a dhi hi ∧ rank dlo ≤ h_level hd ∧ rank dhi ≤ h_level hd).
Proof.
  intros Hg Hr. destruct d as [t|hd ds]; [left; exists t; by apply repr_leaf in Hr as [_ ?]|right].
  destruct (repr_node2 _ _ _ _ Hg Hr) as (h & lo & hi & dlo & dhi & -> & ? & ? & ? & ? & ? & ?). by exists hd, h, lo, hi, dlo, dhi.
Qed.
Lemma WT_two a1 b1 r1 a2 b2 r2 : WT a1 b1 r1 → WT a2 b2 r2 → ∃ N, wtf N a1 b1 = Some r1 ∧ wtf N a2 b2 = Some r2.
Proof. intros [[n H1] _] [[k H2] _]. exists (n + k). split; (eapply wtf_more; [|done]; lia). Qed.

Lemma without_pw n : ∀ m f g df dg c, bwf m → wc m c → repr (b_ar m) df f → repr (b_ar m) dg g → pw m (without_f n m f g c) (WT df dg).
Proof.
  induction n as [|n IH]; intros m f g df dg c Hw Hc Hf Hg; [apply pw_none|]. cbn [without_f]. pose proof (bw_good _ Hw) as Gm.
  assert (Zz := gd_zero _ Gm).
  destruct (bview _ _ _ Gm Hf) as [(t & -> & Nf)|(hf & xf & f0 & f1 & df0 & df1 & -> & Nf & Hhf & Hf0 & Hf1 & Rf0 & Rf1)];
  destruct (bview _ _ _ Gm Hg) as [(u & -> & Ng)|(hg & xg & g0 & g1 & dg0 & dg1 & -> & Ng & Hhg & Hg0 & Hg1 & Rg0 & Rg1)];
  (eapply pw_call; [done|done|done|done|exact Nf|exact Ng|]); cbv beta iota.
  - destruct t, u; first [apply pw_none | by eapply pw_ret; [| |exact Zz|]; [| |split; [by exists 1|cbn; lia]] | by eapply pw_ret; [| |exact Hf|]; [| |split; [by exists 1|cbn; lia]]].
  - destruct t; [| |apply pw_none].
    + eapply pw_ret; [done|done|exact Zz|]. split; [by exists 1|cbn; lia].
    + cbn [edges2 mbind option_bind]. eapply pw_imp; [by apply IH|]. intros d [[N HN] Hr]. split; [|done]. by exists (S N).
  - destruct u; [| |apply pw_none].
    + eapply pw_ret; [done|done|exact Hf|]. split; [by exists 1|done].
    + eapply pw_ret; [done|done|exact Zz|]. split; [by exists 1|cbn; lia].
  - unfold hdr_level. rewrite Hhf, Hhg. cbn [edges2 mbind option_bind].
    destruct (Nat.eqb_spec f g) as [->|Hne].
    { rewrite (repr_fun _ _ _ _ Hg Hf). eapply pw_ret; [done|done|exact Zz|]. split; [|cbn; lia]. exists 1. cbn [wtf]. by rewrite deq_refl. }
    assert (Hdn : deq (Br hf [df0; df1]) (Br hg [dg0; dg1]) = false).
    { apply deq_ne. intros E. apply Hne. rewrite E in Hf. eapply repr_inj; [apply (gd_wf _ Gm)|done|done]. }
    destruct (h_level hg <? h_level hf) eqn:L1.
    { eapply pw_bind; [by eapply IH|]. intros m1 c1 r1 d1 S1 C1 P1 T1. cbv beta iota.
      eapply pw_bind; [eapply IH; [apply S1|done|by eapply st_repr|by eapply st_repr]|]. intros m2 c2 r2 d2 S2 C2 P2 T2. cbv beta iota.
      pose proof (proj2 T1). pose proof (proj2 T2).
      eapply (pw_node _ _ _ hf _ _ d1 d2); [apply S2|done| |by eapply st_repr|done|lia|lia|].
      { rewrite (proj2 (proj2 S2)), (proj2 (proj2 S1)). done. }
      destruct (WT_two _ _ _ _ _ _ T1 T2) as (N & E1 & E2). split; [|apply rank_bn; cbn [rank]; lia].
      exists (S N). cbn [wtf]. rewrite Hdn, L1, E1. cbn [mbind option_bind]. by rewrite E2. }
    destruct (h_level hf <? h_level hg) eqn:L2.
    { eapply pw_imp; [by apply IH|]. intros d [[N HN] Hr]. split; [|done]. exists (S N). cbn [wtf]. by rewrite Hdn, L1, L2. }
    eapply pw_bind; [by eapply IH|]. intros m1 c1 r1 d1 S1 C1 P1 T1. cbv beta iota.
    eapply pw_bind; [eapply IH; [apply S1|done|by eapply st_repr|by eapply st_repr]|]. intros m2 c2 r2 d2 S2 C2 P2 T2. cbv beta iota.
    pose proof (proj2 T1). pose proof (proj2 T2).
    eapply (pw_node _ _ _ hf _ _ d1 d2); [apply S2|done| |by eapply st_repr|done|lia|lia|].
    { rewrite (proj2 (proj2 S2)), (proj2 (proj2 S1)). done. }
    destruct (WT_two _ _ _ _ _ _ T1 T2) as (N & E1 & E2). split; [|apply rank_bn; cbn [rank]; lia].
    exists (S N). cbn [wtf]. rewrite Hdn, L1, L2, E1. cbn [mbind option_bind]. by rewrite E2.
Qed.

(** ** minsol *)
Inductive MT : dd tv → dd tv → Prop :=
  | mt_leaf t : MT (Leaf t) (Leaf t)
  | mt_br hd d0 d1 l s h : MT d0 l → MT d1 s → WT s d0 h → MT (Br hd [d0; d1]) (bn hd l h).
Lemma MT_fun d r1 : MT d r1 → ∀ r2, MT d r2 → r1 = r2.
Proof.
  induction 1 as [t|hd d0 d1 l s h H1 IH1 H2 IH2 H3]; intros r2 Hr; inversion Hr as [|? ? ? l' s' h' K1 K2 K3]; subst; [done|].
  rewrite (IH1 _ K1). rewrite <- (IH2 _ K2) in K3. by rewrite (WT_fun _ _ _ _ H3 K3).
Qed.
Definition MR (d r : dd tv) : Prop := MT d r ∧ rank r ≤ rank d.
Definition mc (m : bdd) (c : gmap nat (option nat)) : Prop :=
  ∀ f r, c !! f = Some (Some r) → ∃ df dr, repr (b_ar m) df f ∧ repr (b_ar m) dr r ∧ MR df dr.
Lemma mc_step m m' c : step m m' → mc m c → mc m' c.
Proof. intros (_ & He & _) Hc f r H. destruct (Hc _ _ H) as (df & dr & ? & ? & ?). exists df, dr. sp; try done; by eapply repr_mono. Qed.
Lemma minsol_pw n : ∀ m f df c1 c2 m' c1' c2' x, bwf m → mc m c1 → wc m c2 → repr (b_ar m) df f → minsol_f n m f c1 c2 = Some (m', c1', c2', x) →
  step m m' ∧ mc m' c1' ∧ wc m' c2' ∧ ∀ r, x = Some r → ∃ dr, repr (b_ar m') dr r ∧ MR df dr.
Proof.
  induction n as [|n IH]; intros m f df c1 c2 m' c1' c2' x Hw H1 H2 Hf; [done|]. cbn [minsol_f]. pose proof (bw_good _ Hw) as Gm.
  destruct (c1 !! f) as [y|] eqn:E.
  { intros [= <- <- <- <-]. sp; [by apply step_refl|done|done|]. intros r ->. destruct (H1 _ _ E) as (df' & dr & Hf' & Hr & HM).
    rewrite (repr_fun _ _ _ _ Hf' Hf) in HM. by exists dr. }
  assert (HF : ∀ X, (∀ m' c1' c2' x, X = Some (m', c1', c2', x) → step m m' ∧ mc m' c1' ∧ wc m' c2' ∧ ∀ r, x = Some r → ∃ dr, repr (b_ar m') dr r ∧ MR df dr) →
    ('(m, c1, c2, result) ← X; Some (m, <[f := result]> c1, c2, result)) = Some (m', c1', c2', x) →
    step m m' ∧ mc m' c1' ∧ wc m' c2' ∧ ∀ r, x = Some r → ∃ dr, repr (b_ar m') dr r ∧ MR df dr).
  { intros X HX. destruct X as [[[[m1 a1] a2] x1]|]; [|done]. cbn [mbind option_bind]. intros [= <- <- <- <-].
    destruct (HX _ _ _ _ eq_refl) as (Hs & Ha & Hb & Hx). sp; [done| |done|done].
    intros g r. rewrite lookup_insert_Some. intros [[<- ->]|[_ Hold]]; [|by apply Ha]. destruct (Hx r eq_refl) as (dr & Hr & HM).
    exists df, dr. sp; [by eapply st_repr|done|done]. }
  destruct (bview _ _ _ Gm Hf) as [(t & -> & Nf)|(hf & xf & f0 & f1 & df0 & df1 & -> & Nf & Hhf & Hf0 & Hf1 & Rf0 & Rf1)]; rewrite Nf; cbn [mbind option_bind].
  - apply HF. intros m1 a1 a2 x1. destruct t; [| |done]; intros [= <- <- <- <-]; (sp; [by apply step_refl|done|done|]); intros r [= <-].
    + exists (Leaf TZero). split; [apply (gd_zero _ Gm)|]. split; [constructor|done].
    + exists (Leaf TOne). split; [apply (gd_one _ Gm)|]. split; [constructor|done].
  - apply HF. clear HF. intros mz a1 a2 xz. cbn [edges2 mbind option_bind].
    destruct (minsol_f n m f0 c1 c2) as [[[[ma b1] b2] low]|] eqn:Ea; [|done]. cbn [mbind option_bind].
    destruct (IH _ _ df0 _ _ _ _ _ _ Hw H1 H2 Hf0 Ea) as (Sa & A1 & A2 & A3). destruct low as [low|]; [|intros [= <- <- <- <-]; sp; done].
    destruct (A3 low eq_refl) as (dl & Hl & Ml).
    destruct (minsol_f n ma f1 b1 b2) as [[[[mb b3] b4] hs]|] eqn:Eb; [|done]. cbn [mbind option_bind].
    destruct (IH _ _ df1 _ _ _ _ _ _ (proj1 Sa) A1 A2 (st_repr _ _ _ _ Sa Hf1) Eb) as (Sb & B1 & B2 & B3).
    assert (Sab : step m mb) by (eapply step_trans; [exact Sa|exact Sb]).
    destruct hs as [hs|]; [|intros [= <- <- <- <-]; sp; done].
    destruct (B3 hs eq_refl) as (dh & Hh & Mh).
    destruct (bdd_and_ok mb f0 f1 df0 df1 (proj1 Sb) (st_repr _ _ _ _ Sab Hf0) (st_repr _ _ _ _ Sab Hf1)) as (m3 & r3 & d3 & -> & S3 & _).
    cbn [mbind option_bind]. assert (S03 : step m m3) by (eapply step_trans; [exact Sab|exact S3]).
    destruct (negb _); [intros [= <- <- <- <-]; sp; [done|exact (mc_step _ _ _ S3 B1)|exact (wc_step _ _ _ S3 B2)|done]|].
    destruct (without_f _ m3 hs f0 b4) as [[[m4 c4] hi]|] eqn:E4; [|done]. cbn [mbind option_bind].
    destruct (without_pw _ m3 hs f0 dh df0 b4 (proj1 S3) (wc_step _ _ _ S3 B2) (st_repr _ _ _ _ S3 Hh) (st_repr _ _ _ _ S03 Hf0) _ _ _ E4) as (S4 & C4 & dw & Hdw & HW).
    assert (S04 : step m m4) by (eapply step_trans; [exact S03|exact S4]).
    destruct (bdd_create_node m4 xf low hi) as [m5 r5] eqn:E5. intros [= <- <- <- <-].
    pose proof (proj2 Ml). pose proof (proj2 Mh). pose proof (proj2 HW).
    destruct (node_bn m4 xf hf low hi dl dw m5 r5) as [S5 H5].
    { apply S4. } { by rewrite (proj2 (proj2 S04)). } { exact (st_repr _ _ _ _ S4 (st_repr _ _ _ _ S3 (st_repr _ _ _ _ Sb Hl))). } { done. } { lia. } { lia. } { done. }
    sp.
    + exact (step_trans _ _ _ S04 S5).
    + exact (mc_step _ _ _ S5 (mc_step _ _ _ S4 (mc_step _ _ _ S3 B1))).
    + exact (wc_step _ _ _ S5 C4).
    + intros r [= <-]. exists (bn hf dl dw). split; [done|]. split; [|apply rank_bn; cbn [rank]; lia].
      eapply mt_br; [apply Ml|apply Mh|done].
Qed.
Lemma bdd_minsol_pw m f df m' r : bwf m → repr (b_ar m) df f → bdd_minsol m f = Some (m', Some r) → ∃ dr, repr (b_ar m') dr r ∧ MT df dr.
Proof.
  intros Hw Hf. unfold bdd_minsol. destruct (minsol_f _ _ _ _ _) as [[[[m1 c1] c2] x]|] eqn:E; [|done]. cbn [mbind option_bind]. intros [= <- ->].
  destruct (minsol_pw _ _ _ df _ _ _ _ _ _ Hw ltac:(intros ? ?; by rewrite lookup_empty) ltac:(intros ? ? ?; by rewrite lookup_empty) Hf E) as (_ & _ & _ & Hx).
  destruct (Hx r eq_refl) as (dr & ? & ? & _). by exists dr.
Qed.
