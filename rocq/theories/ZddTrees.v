(** Trees read as families of sets (zero-suppressed semantics).  Used by proofs only. *)
From Verif Require Import Prelude Arena Trees Bdd BddProofs Zdd.

(** the terminal that [d] assigns to the set of levels [S]; [TZero] when no path spells [S] *)
Fixpoint zev (S : gset nat) (d : dd tv) : tv :=
  match d with
  | Leaf t => if decide (S = ∅) then t else TZero
  | Br hd cs =>
      match cs with
      | [lo; hi] => if decide (h_level hd ∈ S) then zev (S ∖ {[h_level hd]}) hi else zev S lo
      | _ => TUndet
      end
  end.

Lemma ok2 hd (ds : list (dd tv)) : okdd E2 (Br hd ds) → ∃ lo hi, ds = [lo; hi] ∧
  rank lo ≤ h_level hd ∧ rank hi ≤ h_level hd ∧ okdd E2 lo ∧ okdd E2 hi.
Proof.
  intros [Hl Hcs]%okdd_br. destruct ds as [|lo [|hi [|]]]; try done.
  rewrite !Forall_cons in Hcs. exists lo, hi. sp; try done; tauto.
Qed.

Lemma zev_high S d x : okdd E2 d → x ∈ S → rank d ≤ x → zev S d = TZero.
Proof.
  revert S. induction d as [t|hd ds IH] using dd_ind'; intros S Ho Hx Hr.
  - cbn. rewrite decide_False; [done|]. intros ->. by apply not_elem_of_empty in Hx.
  - destruct (ok2 _ _ Ho) as (lo & hi & -> & R0 & R1 & O0 & O1). cbn [rank] in Hr.
    rewrite !Forall_cons in IH. destruct IH as (IH0 & IH1 & _). cbn [zev].
    destruct (decide (h_level hd ∈ S)).
    + apply IH1; [done| |lia]. apply elem_of_difference. split; [done|].
      rewrite elem_of_singleton. lia.
    + apply IH0; [done|done|lia].
Qed.

Definition zmem (S : gset nat) (d : dd tv) : Prop := zev S d = TOne.
Definition zdet (d : dd tv) : Prop := ∀ S, zev S d ≠ TUndet.

(** [d] is the family that contains [S] when [S] avoids level [l] and is in [d0], and [S] when it
    contains [l] and [S ∖ {[l]}] is in [d1] *)
Definition zsplit (l : nat) (d d0 d1 : dd tv) : Prop :=
  okdd E2 d0 ∧ okdd E2 d1 ∧ rank d0 ≤ l ∧ rank d1 ≤ l ∧
  ∀ S, zev S d = if decide (l ∈ S) then zev (S ∖ {[l]}) d1 else zev S d0.

Lemma zsplit_br hd lo hi : okdd E2 (Br hd [lo; hi]) → zsplit (h_level hd) (Br hd [lo; hi]) lo hi.
Proof.
  intros Ho. destruct (ok2 _ _ Ho) as (? & ? & [= <- <-] & R0 & R1 & O0 & O1).
  split; [done|]. split; [done|]. split; [done|]. split; [done|]. done.
Qed.
Lemma zev_zero S : zev S (Leaf TZero) = TZero.
Proof. cbn. by destruct (decide _). Qed.
Lemma zsplit_low l d : okdd E2 d → rank d ≤ l → zsplit l d d (Leaf TZero).
Proof.
  intros Ho Hr. split; [done|]. split; [done|]. split; [done|]. split; [cbn; lia|].
  intros S. destruct (decide (l ∈ S)); [|done]. rewrite zev_zero. by eapply zev_high.
Qed.

Lemma zsplit_0 l d d0 d1 S : zsplit l d d0 d1 → l ∉ S → zev S d = zev S d0.
Proof. intros (_ & _ & _ & _ & H) Hl. rewrite H. by rewrite decide_False. Qed.
Lemma zsplit_1 l d d0 d1 S : zsplit l d d0 d1 → l ∉ S → zev ({[l]} ∪ S) d = zev S d1.
Proof.
  intros (_ & _ & _ & _ & H) Hl. rewrite H. rewrite decide_True by set_solver.
  f_equal. set_solver.
Qed.
Lemma zsplit_z0 l d d0 d1 S : zsplit l d d0 d1 → l ∈ S → zev S d0 = TZero.
Proof. intros (? & _ & ? & _) Hl. by eapply zev_high. Qed.
Lemma zsplit_z1 l d d0 d1 S : zsplit l d d0 d1 → l ∈ S → zev S d1 = TZero.
Proof. intros (_ & ? & _ & ? & _) Hl. by eapply zev_high. Qed.

Lemma set_case (l : nat) (S : gset nat) : l ∉ S ∨ ∃ S', l ∉ S' ∧ S = {[l]} ∪ S'.
Proof.
  destruct (decide (l ∈ S)); [right|by left]. exists (S ∖ {[l]}). split; [set_solver|].
  by rewrite <- union_difference_singleton_L.
Qed.

Lemma zdet_split l d d0 d1 : zsplit l d d0 d1 → zdet d ↔ zdet d0 ∧ zdet d1.
Proof.
  intros Hs. split.
  - intros Hd. split; intros S.
    + destruct (decide (l ∈ S)); [by rewrite (zsplit_z0 _ _ _ _ _ Hs)|].
      rewrite <- (zsplit_0 _ _ _ _ _ Hs) by done. apply Hd.
    + destruct (decide (l ∈ S)); [by rewrite (zsplit_z1 _ _ _ _ _ Hs)|].
      rewrite <- (zsplit_1 _ _ _ _ _ Hs) by done. apply Hd.
  - intros [H0 H1] S. destruct (set_case l S) as [Hl|(S' & Hl & ->)].
    + by rewrite (zsplit_0 _ _ _ _ _ Hs).
    + by rewrite (zsplit_1 _ _ _ _ _ Hs).
Qed.

Lemma zdet_zero : zdet (Leaf TZero).
Proof. intros S. by rewrite zev_zero. Qed.

(** no high edge leads to the zero leaf *)
Fixpoint zred (d : dd tv) : Prop :=
  match d with
  | Leaf _ => True
  | Br hd cs =>
      match cs with
      | [lo; hi] => hi ≠ Leaf TZero ∧ zred lo ∧ zred hi
      | _ => True
      end
  end.

(** a reduced tree other than the zero leaf has a non-zero value somewhere *)
Lemma zred_witness d : okdd E2 d → zred d → d ≠ Leaf TZero → ∃ S, zev S d ≠ TZero.
Proof.
  induction d as [t|hd ds IH] using dd_ind'; intros Ho Hz Hne.
  - exists ∅. cbn [zev]. rewrite decide_True by done. congruence.
  - pose proof Ho as Ho'. destruct (ok2 _ _ Ho) as (lo & hi & -> & R0 & R1 & O0 & O1).
    rewrite !Forall_cons in IH. destruct IH as (IH0 & IH1 & _). destruct Hz as (Hh & Z0 & Z1).
    destruct (IH1 O1 Z1 Hh) as [S HS]. exists ({[h_level hd]} ∪ S).
    assert (h_level hd ∉ S). { intros Hl. apply HS. by eapply zev_high. }
    by rewrite (zsplit_1 _ _ _ _ _ (zsplit_br _ _ _ Ho')).
Qed.

(** [S] followed in [d] arrives at the One leaf, whatever is left of [S] there: no level of [S] is skipped on the way *)
Fixpoint zthru (S : gset nat) (d : dd tv) : Prop :=
  match d with
  | Leaf t => t = TOne
  | Br hd cs =>
      match cs with
      | [lo; hi] => (∀ x, x ∈ S → x ≤ h_level hd) ∧
          if decide (h_level hd ∈ S) then zthru (S ∖ {[h_level hd]}) hi else zthru S lo
      | _ => False
      end
  end.

(** [B] is the only member *)
Definition zonly (B : gset nat) (d : dd tv) : Prop := ∀ A, zmem A d ↔ A = B.
(** every member is [B] and levels below all of [B] *)
Definition zunder (B : gset nat) (d : dd tv) : Prop :=
  ∀ A, zmem A d → B ⊆ A ∧ ∀ x b, x ∈ A → x ∉ B → b ∈ B → x < b.

Definition zspec (o : zop) (df dg dr : dd tv) : Prop :=
  match o with
  | ZUnion => ∀ S, zmem S dr ↔ zmem S df ∨ zmem S dg
  | ZSetdiff => ∀ S, zmem S dr ↔ zmem S df ∧ ¬ zmem S dg
  | ZIntersect => ∀ S, zmem S dr ↔ zmem S dg ∧ zthru S df ∨ zmem S df ∧ zthru S dg
  | ZProduct => ∀ S, zmem S dr ↔ ∃ A B, S = A ∪ B ∧ zmem A df ∧ zmem B dg
  | ZDivision => True
  end.
(** what the operation cache promises *)
Definition zrel (o : zop) (df dg dr : dd tv) : Prop :=
  match o with
  | ZDivision => (dg = Leaf TOne → dr = df) ∧ (dg = Leaf TZero → dr = Leaf TUndet) ∧
      (zdet df → zdet dg → ∀ B, zred df → zred dg → zonly B dg → zunder B df →
        zdet dr ∧ ∀ S, zmem S dr ↔ S ## B ∧ zmem (S ∪ B) df)
  | ZIntersect => (df = Leaf TUndet → dr = dg) ∧ (dg = Leaf TUndet → dr = df) ∧
      (zdet df → zdet dg → zdet dr ∧ zspec o df dg dr)
  | _ => zdet df → zdet dg → zdet dr ∧ zspec o df dg dr
  end.

Definition pointwise (o : zop) : Prop :=
  match o with ZUnion | ZSetdiff => True | _ => False end.

Lemma zmem_leaf1 S : zmem S (Leaf TOne) ↔ S = ∅.
Proof. unfold zmem. cbn. by destruct (decide _). Qed.
Lemma zmem_leaf0 S : ¬ zmem S (Leaf TZero).
Proof. unfold zmem. by rewrite zev_zero. Qed.

Lemma zrel_pointwise o l df dg dr f0 f1 g0 g1 r0 r1 : pointwise o →
  zsplit l df f0 f1 → zsplit l dg g0 g1 → zsplit l dr r0 r1 →
  zrel o f0 g0 r0 → zrel o f1 g1 r1 → zrel o df dg dr.
Proof.
  intros Ho Hf Hg Hr H0 H1.
  assert (Hgo : zdet df → zdet dg → zdet dr ∧ zspec o df dg dr); [|by destruct o].
  intros Df Dg.
  apply (zdet_split _ _ _ _ Hf) in Df as [Df0 Df1]. apply (zdet_split _ _ _ _ Hg) in Dg as [Dg0 Dg1].
  assert (G0 : zdet r0 ∧ zspec o f0 g0 r0) by (destruct o; try done; by apply H0).
  assert (G1 : zdet r1 ∧ zspec o f1 g1 r1) by (destruct o; try done; by apply H1).
  destruct G0 as [Dr0 G0], G1 as [Dr1 G1].
  split; [by apply (zdet_split _ _ _ _ Hr)|].
  assert (Hcase : ∀ (P : gset nat → Prop), (∀ S, l ∉ S → P S) → (∀ S, l ∉ S → P ({[l]} ∪ S)) → ∀ S, P S).
  { intros P P0 P1 S. destruct (set_case l S) as [|(S' & Hl & ->)]; auto. }
  destruct o; try done; unfold zspec in *.
  - apply Hcase; intros S Hl; unfold zmem in *.
    + rewrite (zsplit_0 _ _ _ _ _ Hf), (zsplit_0 _ _ _ _ _ Hg), (zsplit_0 _ _ _ _ _ Hr) by done. apply G0.
    + rewrite (zsplit_1 _ _ _ _ _ Hf), (zsplit_1 _ _ _ _ _ Hg), (zsplit_1 _ _ _ _ _ Hr) by done. apply G1.
  - apply Hcase; intros S Hl; unfold zmem in *.
    + rewrite (zsplit_0 _ _ _ _ _ Hf), (zsplit_0 _ _ _ _ _ Hg), (zsplit_0 _ _ _ _ _ Hr) by done. apply G0.
    + rewrite (zsplit_1 _ _ _ _ _ Hf), (zsplit_1 _ _ _ _ _ Hg), (zsplit_1 _ _ _ _ _ Hr) by done. apply G1.
Qed.

(** ** intersect *)
Lemma zthru_cons0 S hd lo hi : h_level hd ∉ S →
  zthru S (Br hd [lo; hi]) ↔ (∀ x, x ∈ S → x ≤ h_level hd) ∧ zthru S lo.
Proof. intros H. cbn [zthru]. by rewrite decide_False. Qed.
Lemma zthru_cons1 S hd lo hi : h_level hd ∉ S →
  zthru ({[h_level hd]} ∪ S) (Br hd [lo; hi]) ↔ (∀ x, x ∈ S → x ≤ h_level hd) ∧ zthru S hi.
Proof.
  intros H. cbn [zthru]. rewrite decide_True by set_solver.
  replace (({[h_level hd]} ∪ S) ∖ {[h_level hd]}) with S by set_solver.
  split; intros [H1 H2]; (split; [|done]); [set_solver|].
  intros x [->%elem_of_singleton|Hx]%elem_of_union; [done|auto].
Qed.
Lemma zmem_bound S d l x : okdd E2 d → rank d ≤ l → zmem S d → x ∈ S → x < l.
Proof.
  intros Ho Hr Hm Hx. destruct (decide (x < l)); [done|].
  unfold zmem in Hm. rewrite (zev_high S d x) in Hm; [done|done|done|lia].
Qed.
Lemma zmem_thru S d : okdd E2 d → zmem S d → zthru S d.
Proof.
  revert S. induction d as [t|hd ds IH] using dd_ind'; intros S Ho Hm.
  - unfold zmem in Hm. cbn in *. by destruct (decide _).
  - pose proof Ho as Ho'. destruct (ok2 _ _ Ho) as (lo & hi & -> & R0 & R1 & O0 & O1).
    rewrite !Forall_cons in IH. destruct IH as (IH0 & IH1 & _).
    assert (Hb : ∀ x, x ∈ S → x ≤ h_level hd).
    { intros x Hx. assert (x < Datatypes.S (h_level hd)); [|lia]. eapply zmem_bound; [exact Ho'| |exact Hm|exact Hx]. cbn. lia. }
    split; [done|]. unfold zmem in Hm. cbn [zev] in Hm. by case_decide; [apply IH1|apply IH0].
Qed.

Lemma zthru_empty d : okdd E2 d → zthru ∅ d → zmem ∅ d.
Proof.
  induction d as [t|hd ds IH] using dd_ind'; intros Ho Ht.
  - cbn in Ht. subst t. done.
  - destruct (ok2 _ _ Ho) as (lo & hi & -> & R0 & R1 & O0 & O1).
    rewrite !Forall_cons in IH. destruct IH as (IH0 & _). destruct Ht as [_ Ht].
    rewrite decide_False in Ht by set_solver. unfold zmem. cbn [zev]. rewrite decide_False by set_solver. by apply IH0.
Qed.

Lemma zrel_int_both hd hd' lo hi lo' hi' dr r0 r1 : h_level hd = h_level hd' →
  okdd E2 (Br hd [lo; hi]) → okdd E2 (Br hd' [lo'; hi']) → zsplit (h_level hd) dr r0 r1 →
  zrel ZIntersect lo lo' r0 → zrel ZIntersect hi hi' r1 →
  zrel ZIntersect (Br hd [lo; hi]) (Br hd' [lo'; hi']) dr.
Proof.
  intros Hl Of Og Hr (_ & _ & H0) (_ & _ & H1). split; [done|]. split; [done|]. intros Df Dg.
  pose proof (zsplit_br _ _ _ Of) as Hf. pose proof (zsplit_br _ _ _ Og) as Hg. rewrite <- Hl in Hg.
  apply (zdet_split _ _ _ _ Hf) in Df as [Df0 Df1]. apply (zdet_split _ _ _ _ Hg) in Dg as [Dg0 Dg1].
  destruct (H0 Df0 Dg0) as [Dr0 S0]. destruct (H1 Df1 Dg1) as [Dr1 S1].
  split; [by apply (zdet_split _ _ _ _ Hr)|]. cbn [zspec] in *.
  pose proof Hf as (F0 & F1 & RF0 & RF1 & _). pose proof Hg as (G0 & G1 & RG0 & RG1 & _).
  intros S. destruct (set_case (h_level hd) S) as [Hn|(S' & Hn & ->)].
  - rewrite !zthru_cons0 by congruence. rewrite <- Hl. unfold zmem in *.
    rewrite (zsplit_0 _ _ _ _ _ Hf), (zsplit_0 _ _ _ _ _ Hg), (zsplit_0 _ _ _ _ _ Hr), S0 by done.
    assert (zev S lo = TOne ∨ zev S lo' = TOne → ∀ x, x ∈ S → x ≤ h_level hd); [|naive_solver].
    intros [Hm|Hm] x Hx; apply Nat.lt_le_incl; [exact (zmem_bound _ _ _ _ F0 RF0 Hm Hx)|exact (zmem_bound _ _ _ _ G0 RG0 Hm Hx)].
  - rewrite zthru_cons1 by done. rewrite Hl at 4. rewrite zthru_cons1 by congruence. rewrite <- Hl. unfold zmem in *.
    rewrite (zsplit_1 _ _ _ _ _ Hf), (zsplit_1 _ _ _ _ _ Hg), (zsplit_1 _ _ _ _ _ Hr), S1 by done.
    assert (zev S' hi = TOne ∨ zev S' hi' = TOne → ∀ x, x ∈ S' → x ≤ h_level hd); [|naive_solver].
    intros [Hm|Hm] x Hx; apply Nat.lt_le_incl; [exact (zmem_bound _ _ _ _ F1 RF1 Hm Hx)|exact (zmem_bound _ _ _ _ G1 RG1 Hm Hx)].
Qed.
Lemma zspec_int_sym df dg dr : zspec ZIntersect df dg dr → zspec ZIntersect dg df dr.
Proof. intros H S. rewrite (H S). tauto. Qed.
Lemma zspec_int_low hd hd' lo hi ds dr : h_level hd' < h_level hd →
  okdd E2 (Br hd [lo; hi]) → okdd E2 (Br hd' ds) → okdd E2 dr → rank dr ≤ h_level hd →
  zspec ZIntersect lo (Br hd' ds) dr → zspec ZIntersect (Br hd [lo; hi]) (Br hd' ds) dr.
Proof.
  intros Hl Of Og Or Rr H0 S. pose proof (zsplit_br _ _ _ Of) as Hf.
  destruct (set_case (h_level hd) S) as [Hn|(S' & Hn & ->)].
  - rewrite (H0 S), zthru_cons0 by done. unfold zmem at 4. rewrite (zsplit_0 _ _ _ _ _ Hf) by done.
    assert (zmem S (Br hd' ds) → ∀ x, x ∈ S → x ≤ h_level hd); [|unfold zmem in *; naive_solver].
    intros Hm x Hx. apply Nat.lt_le_incl. eapply zmem_bound; [exact Og| |done|done]. cbn [rank]. lia.
  - assert (h_level hd ∈ {[h_level hd]} ∪ S') as Hin by set_solver.
    split.
    + intros Hm. apply (zmem_bound _ _ _ _ Or Rr Hm) in Hin. lia.
    + intros [[Hm _]|[_ Ht]].
      * eapply (zmem_bound _ _ (h_level hd)) in Hin; [lia|exact Og|cbn; lia|done].
      * destruct (ok2 _ _ Og) as (? & ? & -> & _). destruct Ht as [Ht _]. specialize (Ht _ Hin). lia.
Qed.

(** ** divide *)
Lemma zred_mem d : okdd E2 d → zred d → zdet d → d ≠ Leaf TZero → ∃ S, zmem S d.
Proof.
  intros Ho Hr Hd Hn. destruct (zred_witness d Ho Hr Hn) as [S HS]. exists S. specialize (Hd S).
  unfold zmem. by destruct (zev S d).
Qed.
Lemma zred_mem_hi hd lo hi : okdd E2 (Br hd [lo; hi]) → zred (Br hd [lo; hi]) → zdet (Br hd [lo; hi]) →
  ∃ S, h_level hd ∉ S ∧ zmem ({[h_level hd]} ∪ S) (Br hd [lo; hi]) ∧ zmem S hi.
Proof.
  intros Ho (Hh & _ & Z1) Hd. pose proof (zsplit_br _ _ _ Ho) as Hs.
  apply (zdet_split _ _ _ _ Hs) in Hd as [_ D1]. pose proof Hs as (_ & O1 & _ & R1 & _).
  destruct (zred_mem hi O1 Z1 D1 Hh) as [S HS]. exists S.
  assert (h_level hd ∉ S) as Hn. { intros Hx. pose proof (zmem_bound _ _ _ _ O1 R1 HS Hx). lia. }
  split; [done|]. split; [|done]. unfold zmem. by rewrite (zsplit_1 _ _ _ _ _ Hs).
Qed.
(** members of the divisor and of the dividend, when the top levels agree *)
Lemma zdiv_top B hd hd' lo hi lo' hi' : h_level hd = h_level hd' →
  okdd E2 (Br hd [lo; hi]) → okdd E2 (Br hd' [lo'; hi']) → zred (Br hd [lo; hi]) → zred (Br hd' [lo'; hi']) →
  zdet (Br hd [lo; hi]) → zdet (Br hd' [lo'; hi']) → zonly B (Br hd' [lo'; hi']) → zunder B (Br hd [lo; hi]) →
  lo' = Leaf TZero ∧ ∃ B', h_level hd ∉ B' ∧ B = {[h_level hd]} ∪ B' ∧ zonly B' hi' ∧ zunder B' hi.
Proof.
  intros Hl Of Og Zf Zg Df Dg HB HF. pose proof (zsplit_br _ _ _ Of) as Hf. pose proof (zsplit_br _ _ _ Og) as Hg.
  destruct (zred_mem_hi _ _ _ Og Zg Dg) as (B' & Hn & Hm & Hm1). apply HB in Hm as HeB.
  pose proof Hg as (G0 & G1 & RG0 & RG1 & _). pose proof Hf as (F0 & F1 & RF0 & RF1 & _).
  destruct Zg as (_ & Z0 & Z1). apply (zdet_split _ _ _ _ Hg) in Dg as [Dg0 Dg1].
  split.
  - assert (lo' = Leaf TZero ∨ lo' ≠ Leaf TZero) as [->|Hne] by (destruct lo' as [[]|]; auto); [done|].
    destruct (zred_mem lo' G0 Z0 Dg0 Hne) as [A HA].
    assert (h_level hd' ∉ A) as HnA. { intros Hx. pose proof (zmem_bound _ _ _ _ G0 RG0 HA Hx). lia. }
    assert (A = B) as ->. { apply HB. unfold zmem. by rewrite (zsplit_0 _ _ _ _ _ Hg). }
    set_solver.
  - exists B'. rewrite <- Hl in *. split; [done|]. split; [done|]. split.
    + intros A. split; [|by intros ->]. intros HA.
      assert (h_level hd ∉ A) as HnA. { intros Hx. pose proof (zmem_bound _ _ _ _ G1 RG1 HA Hx). lia. }
      assert ({[h_level hd]} ∪ A = B) as HAB. { apply HB. unfold zmem. by rewrite (zsplit_1 _ _ _ _ _ Hg). }
      apply set_eq. intros x. rewrite set_eq in HAB. specialize (HAB x). set_solver.
    + intros A HA.
      assert (h_level hd ∉ A) as HnA. { intros Hx. pose proof (zmem_bound _ _ _ _ F1 RF1 HA Hx). lia. }
      destruct (HF ({[h_level hd]} ∪ A)) as [Hsub Hlt]. { unfold zmem. by rewrite (zsplit_1 _ _ _ _ _ Hf). }
      subst B. split; [set_solver|]. intros x b Hx Hxb Hb. apply Hlt; [set_solver| |set_solver].
      intros [->%elem_of_singleton|]%elem_of_union; done.
Qed.
(** equal top levels: the quotient of the high parts *)
Lemma zdiv_both hd hd' lo hi lo' hi' dr : h_level hd = h_level hd' →
  okdd E2 (Br hd [lo; hi]) → okdd E2 (Br hd' [lo'; hi']) → okdd E2 dr → rank dr ≤ h_level hd →
  (lo' = Leaf TZero → zrel ZDivision hi hi' dr) → zrel ZDivision (Br hd [lo; hi]) (Br hd' [lo'; hi']) dr.
Proof.
  intros Hl Of Og Or Rr H. split; [done|]. split; [done|]. intros Df Dg B Zf Zg HB HF.
  destruct (zdiv_top B hd hd' lo hi lo' hi') as (-> & B' & Hn & -> & HB' & HF'); [done..|].
  pose proof (zsplit_br _ _ _ Of) as Hf. pose proof (zsplit_br _ _ _ Og) as Hg.
  apply (zdet_split _ _ _ _ Hf) in Df as [Df0 Df1]. apply (zdet_split _ _ _ _ Hg) in Dg as [Dg0 Dg1].
  destruct (H eq_refl) as (_ & _ & H').
  destruct (H' Df1 Dg1 B') as [Dr Hs]; [apply Zf|apply Zg|done|done|].
  split; [done|]. intros S. rewrite Hs. destruct (decide (h_level hd ∈ S)) as [Hin|Hni].
  - split; [|set_solver]. intros Hq. apply Hs in Hq. pose proof (zmem_bound _ _ _ _ Or Rr Hq Hin). lia.
  - replace (S ∪ ({[h_level hd]} ∪ B')) with ({[h_level hd]} ∪ (S ∪ B')) by set_solver.
    unfold zmem at 2. rewrite (zsplit_1 _ _ _ _ _ Hf) by set_solver. unfold zmem. set_solver.
Qed.
(** different top levels: the conditions are not met *)
Lemma zdiv_apart hd hd' lo hi lo' hi' dr : h_level hd ≠ h_level hd' →
  okdd E2 (Br hd [lo; hi]) → okdd E2 (Br hd' [lo'; hi']) → zrel ZDivision (Br hd [lo; hi]) (Br hd' [lo'; hi']) dr.
Proof.
  intros Hl Of Og. split; [done|]. split; [done|]. intros Df Dg B Zf Zg HB HF. exfalso.
  destruct (zred_mem_hi _ _ _ Of Zf Df) as (A & HnA & HmA & _).
  destruct (zred_mem_hi _ _ _ Og Zg Dg) as (C & HnC & HmC & _).
  apply HB in HmC as HeB. destruct (HF _ HmA) as [Hsub Hlt].
  assert (Hb : ∀ x, x ∈ B → x < Datatypes.S (h_level hd')). { intros x Hx. eapply (zmem_bound B); [exact Og|cbn; lia|by apply HB|exact Hx]. }
  destruct (decide (h_level hd < h_level hd')).
  - assert (h_level hd' ∈ {[h_level hd]} ∪ A) as Hin by set_solver.
    eapply (zmem_bound _ _ (Datatypes.S (h_level hd))) in Hin; [lia|exact Of|cbn; lia|exact HmA].
  - assert (h_level hd < h_level hd'); [|lia]. apply Hlt; [set_solver| |set_solver].
    intros Hx. apply Hb in Hx. lia.
Qed.
Lemma zdiv_one_br hd' ds' dr : okdd E2 (Br hd' ds') → zrel ZDivision (Leaf TOne) (Br hd' ds') dr.
Proof.
  intros Og. split; [done|]. split; [done|]. intros Df Dg B Zf Zg HB HF. exfalso.
  destruct (ok2 _ _ Og) as (lo & hi & -> & _). destruct (zred_mem_hi _ _ _ Og Zg Dg) as (C & HnC & HmC & _).
  apply HB in HmC as HeB. destruct (HF ∅) as [Hsub _]; [by apply zmem_leaf1|]. set_solver.
Qed.
Lemma zdiv_zero_br hd' ds' : zrel ZDivision (Leaf TZero) (Br hd' ds') (Leaf TZero).
Proof.
  split; [done|]. split; [done|]. intros Df Dg B Zf Zg HB HF. split; [done|]. intros S.
  split; [by intros ?%zmem_leaf0|]. by intros [_ ?%zmem_leaf0].
Qed.
Lemma zdiv_by_one d : zrel ZDivision d (Leaf TOne) d.
Proof.
  split; [done|]. split; [done|]. intros Df Dg B Zf Zg HB HF. split; [done|]. intros S.
  assert (B = ∅) as ->. { symmetry. apply HB. by apply zmem_leaf1. }
  rewrite (right_id_L ∅ (∪)). set_solver.
Qed.
Lemma zdiv_by_zero d : zrel ZDivision d (Leaf TZero) (Leaf TUndet).
Proof.
  split; [done|]. split; [done|]. intros Df Dg B Zf Zg HB HF. exfalso. by apply (zmem_leaf0 B), HB.
Qed.
Lemma zdiv_undet_l d : zrel ZDivision (Leaf TUndet) d (Leaf TUndet).
Proof. split; [done|]. split; [done|]. intros Df. by destruct (Df ∅). Qed.
Lemma zdiv_undet_r d dr : zrel ZDivision d (Leaf TUndet) dr.
Proof. split; [done|]. split; [done|]. intros _ Dg. by destruct (Dg ∅). Qed.

(** members of a split family *)
Lemma zmem_split l d d0 d1 S : zsplit l d d0 d1 →
  zmem S d ↔ (l ∉ S ∧ zmem S d0) ∨ ∃ S', l ∉ S' ∧ S = {[l]} ∪ S' ∧ zmem S' d1.
Proof.
  intros Hs. unfold zmem. split.
  - intros H. destruct (set_case l S) as [Hl|(S' & Hl & ->)].
    + left. by rewrite <- (zsplit_0 _ _ _ _ _ Hs).
    + right. exists S'. by rewrite <- (zsplit_1 _ _ _ _ _ Hs).
  - intros [[Hl H]|(S' & Hl & -> & H)]; [by rewrite (zsplit_0 _ _ _ _ _ Hs)|].
    by rewrite (zsplit_1 _ _ _ _ _ Hs).
Qed.
Lemma zmem_fresh0 l d d0 d1 S : zsplit l d d0 d1 → zmem S d0 → l ∉ S.
Proof. intros Hs H Hl. unfold zmem in H. by rewrite (zsplit_z0 _ _ _ _ _ Hs Hl) in H. Qed.
Lemma zmem_fresh1 l d d0 d1 S : zsplit l d d0 d1 → zmem S d1 → l ∉ S.
Proof. intros Hs H Hl. unfold zmem in H. by rewrite (zsplit_z1 _ _ _ _ _ Hs Hl) in H. Qed.

Definition zjoin (df dg : dd tv) (S : gset nat) : Prop := ∃ A B, S = A ∪ B ∧ zmem A df ∧ zmem B dg.

Lemma zjoin_split l df dg f0 f1 g0 g1 S : zsplit l df f0 f1 → zsplit l dg g0 g1 →
  zjoin df dg S ↔ (l ∉ S ∧ zjoin f0 g0 S) ∨
    ∃ S', l ∉ S' ∧ S = {[l]} ∪ S' ∧ (zjoin f1 g1 S' ∨ zjoin f1 g0 S' ∨ zjoin f0 g1 S').
Proof.
  intros Hf Hg. split.
  - intros (A & B & -> & HA & HB).
    apply (zmem_split _ _ _ _ _ Hf) in HA as [[lA HA]|(A' & lA & -> & HA)];
      apply (zmem_split _ _ _ _ _ Hg) in HB as [[lB HB]|(B' & lB & -> & HB)].
    + left. split; [set_solver|]. by exists A, B.
    + right. exists (A ∪ B'). sp; [set_solver|set_solver|]. right; right. by exists A, B'.
    + right. exists (A' ∪ B). sp; [set_solver|set_solver|]. right; left. by exists A', B.
    + right. exists (A' ∪ B'). sp; [set_solver|set_solver|]. left. by exists A', B'.
  - intros [[Hl H]|(S' & Hl & -> & H)].
    + destruct H as (A & B & -> & HA & HB). exists A, B. sp; [done| |].
      * apply (zmem_split _ _ _ _ _ Hf). left. split; [set_solver|done].
      * apply (zmem_split _ _ _ _ _ Hg). left. split; [set_solver|done].
    + destruct H as [H|[H|H]]; destruct H as (A & B & -> & HA & HB).
      * exists ({[l]} ∪ A), ({[l]} ∪ B). sp; [set_solver| |].
        -- apply (zmem_split _ _ _ _ _ Hf). right. exists A. split; [set_solver|done].
        -- apply (zmem_split _ _ _ _ _ Hg). right. exists B. split; [set_solver|done].
      * exists ({[l]} ∪ A), B. sp; [set_solver| |].
        -- apply (zmem_split _ _ _ _ _ Hf). right. exists A. split; [set_solver|done].
        -- apply (zmem_split _ _ _ _ _ Hg). left. split; [set_solver|done].
      * exists A, ({[l]} ∪ B). sp; [set_solver| |].
        -- apply (zmem_split _ _ _ _ _ Hf). left. split; [set_solver|done].
        -- apply (zmem_split _ _ _ _ _ Hg). right. exists B. split; [set_solver|done].
Qed.

Lemma zrel_product l df dg dr f0 f1 g0 g1 r0 r1 :
  zsplit l df f0 f1 → zsplit l dg g0 g1 → zsplit l dr r0 r1 →
  zrel ZProduct f0 g0 r0 →
  (zdet f0 → zdet f1 → zdet g0 → zdet g1 →
     zdet r1 ∧ ∀ S, zmem S r1 ↔ zjoin f1 g1 S ∨ zjoin f1 g0 S ∨ zjoin f0 g1 S) →
  zrel ZProduct df dg dr.
Proof.
  intros Hf Hg Hr H0 H1 Df Dg.
  apply (zdet_split _ _ _ _ Hf) in Df as [Df0 Df1]. apply (zdet_split _ _ _ _ Hg) in Dg as [Dg0 Dg1].
  destruct (H0 Df0 Dg0) as [Dr0 G0]. destruct (H1 Df0 Df1 Dg0 Dg1) as [Dr1 G1].
  split; [by apply (zdet_split _ _ _ _ Hr)|]. unfold zspec in *. intros S.
  rewrite (zmem_split _ _ _ _ _ Hr). change (∃ A B, S = A ∪ B ∧ zmem A df ∧ zmem B dg) with (zjoin df dg S).
  rewrite (zjoin_split _ _ _ _ _ _ _ S Hf Hg).
  setoid_rewrite G1. setoid_rewrite G0. done.
Qed.

Lemma zjoin_zero_l d S : ¬ zjoin (Leaf TZero) d S.
Proof. intros (A & B & _ & H & _). by apply zmem_leaf0 in H. Qed.
Lemma zjoin_zero_r d S : ¬ zjoin d (Leaf TZero) S.
Proof. intros (A & B & _ & _ & H). by apply zmem_leaf0 in H. Qed.

(** ** reduced trees are canonical *)
Lemma zcanon_lt hd lo hi d : okdd E2 (Br hd [lo; hi]) → okdd E2 d → zred (Br hd [lo; hi]) →
  rank d ≤ h_level hd → (∀ S, zev S (Br hd [lo; hi]) = zev S d) → False.
Proof.
  intros Ho Hd (Hh & Z0 & Z1) Hr Heq. pose proof Ho as Ho'.
  destruct (ok2 _ _ Ho) as (? & ? & [= <- <-] & R0 & R1 & O0 & O1).
  destruct (zred_witness hi O1 Z1 Hh) as [S HS].
  assert (h_level hd ∉ S). { intros Hl. apply HS. by eapply zev_high. }
  specialize (Heq ({[h_level hd]} ∪ S)). rewrite (zsplit_1 _ _ _ _ _ (zsplit_br _ _ _ Ho')) in Heq by done.
  rewrite (zev_high _ d (h_level hd)) in Heq; [done|done|set_solver|done].
Qed.

Lemma zcanon H d1 : ∀ d2, okdd E2 d1 → okdd E2 d2 → zred d1 → zred d2 → hdby H d1 → hdby H d2 →
  (∀ S, zev S d1 = zev S d2) → d1 = d2.
Proof.
  induction d1 as [t1|hd1 ds1 IH] using dd_ind'; intros d2 O1 O2 Z1 Z2 H1 H2 Heq.
  - destruct d2 as [t2|hd2 ds2].
    + specialize (Heq ∅). cbn [zev] in Heq. rewrite !decide_True in Heq by done. congruence.
    + destruct (ok2 _ _ O2) as (lo & hi & -> & _). exfalso. eapply (zcanon_lt hd2 lo hi (Leaf t1)); try done.
      cbn. lia.
  - destruct (ok2 _ _ O1) as (lo1 & hi1 & -> & R0 & R1 & Q0 & Q1).
    destruct d2 as [t2|hd2 ds2].
    { exfalso. eapply (zcanon_lt hd1 lo1 hi1 (Leaf t2)); try done. cbn. lia. }
    destruct (ok2 _ _ O2) as (lo2 & hi2 & -> & R02 & R12 & Q02 & Q12).
    destruct (Nat.lt_trichotomy (h_level hd1) (h_level hd2)) as [Hlt|[Hle|Hlt]].
    { exfalso. eapply (zcanon_lt hd2 lo2 hi2 (Br hd1 [lo1; hi1])); try done. }
    2: { exfalso. eapply (zcanon_lt hd1 lo1 hi1 (Br hd2 [lo2; hi2])); try done. }
    apply hdby_br in H1 as [E1 H1]. apply hdby_br in H2 as [E2' H2].
    assert (hd1 = hd2) as <- by congruence.
    rewrite !Forall_cons in IH, H1, H2. destruct IH as (IH0 & IH1 & _).
    destruct H1 as (H10 & H11 & _), H2 as (H20 & H21 & _).
    destruct Z1 as (_ & Z10 & Z11), Z2 as (_ & Z20 & Z21).
    pose proof (zsplit_br _ _ _ O1) as S1. pose proof (zsplit_br _ _ _ O2) as S2.
    assert (lo1 = lo2) as ->.
    { apply IH0; try done. intros S. destruct (decide (h_level hd1 ∈ S)).
      - by rewrite (zsplit_z0 _ _ _ _ _ S1), (zsplit_z0 _ _ _ _ _ S2).
      - rewrite <- (zsplit_0 _ _ _ _ _ S1), <- (zsplit_0 _ _ _ _ _ S2) by done. apply Heq. }
    assert (hi1 = hi2) as ->; [|done].
    apply IH1; try done. intros S. destruct (decide (h_level hd1 ∈ S)).
    + by rewrite (zsplit_z1 _ _ _ _ _ S1), (zsplit_z1 _ _ _ _ _ S2).
    + rewrite <- (zsplit_1 _ _ _ _ _ S1), <- (zsplit_1 _ _ _ _ _ S2) by done. apply Heq.
Qed.
