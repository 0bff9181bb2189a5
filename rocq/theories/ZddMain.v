(** From the internal invariants to the statements about reachable ZDD managers. *)
From Coq Require Import String.
From Verif Require Import Prelude Arena Trees ArenaProofs ArenaMore Bdd BddProofs Zdd ZddTrees ZddProofs SpecZdd.

Lemma has_zev m t d id S : zgood (z_ar m) → repr (z_ar m) d id → t ≠ TZero →
  zdd_has m t id S ↔ zev S d = t.
Proof.
  intros Hg Hr Ht. split.
  - intros H. revert d Hr. induction H as [id Hn|id h lo hi S Hn H IH|id h lo hi hd S Hn Hh H IH]; intros d Hr.
    + destruct d as [t'|hd ds].
      * apply repr_leaf in Hr as [_ Hn']. cbn [zev]. rewrite decide_True by done. congruence.
      * apply repr_br in Hr as [_ (h & cs & Hn' & _)]. congruence.
    + destruct d as [t'|hd' ds]; [apply repr_leaf in Hr as [_ Hn']; congruence|].
      pose proof (zgood_ok _ _ _ Hg Hr) as Ho.
      destruct (zrepr_node2 _ _ _ _ Hg Hr) as (h' & lo' & hi' & dlo & dhi & -> & Hn' & Hh' & Hlo & Hhi & R0 & R1 & _).
      rewrite Hn in Hn'. injection Hn' as <- <- <-. specialize (IH _ Hlo).
      rewrite (zsplit_0 _ _ _ _ _ (zsplit_br _ _ _ Ho)); [done|]. intros Hl.
      rewrite (zev_high _ _ (h_level hd')) in IH; [congruence|by eapply zgood_ok|done|done].
    + destruct d as [t'|hd' ds]; [apply repr_leaf in Hr as [_ Hn']; congruence|].
      pose proof (zgood_ok _ _ _ Hg Hr) as Ho.
      destruct (zrepr_node2 _ _ _ _ Hg Hr) as (h' & lo' & hi' & dlo & dhi & -> & Hn' & Hh' & Hlo & Hhi & R0 & R1 & _).
      rewrite Hn in Hn'. injection Hn' as <- <- <-. rewrite Hh in Hh'. injection Hh' as <-. specialize (IH _ Hhi).
      rewrite (zsplit_1 _ _ _ _ _ (zsplit_br _ _ _ Ho)); [done|]. intros Hl.
      rewrite (zev_high _ _ (h_level hd)) in IH; [congruence|by eapply zgood_ok|done|done].
  - revert id S Hr. induction d as [t'|hd ds IH] using dd_ind'; intros id S Hr Hev.
    + cbn [zev] in Hev. destruct (decide (S = ∅)) as [->|]; [|congruence]. subst t'.
      apply repr_leaf in Hr as [_ Hn]. by constructor.
    + pose proof (zgood_ok _ _ _ Hg Hr) as Ho.
      destruct (zrepr_node2 _ _ _ _ Hg Hr) as (h & lo & hi & dlo & dhi & -> & Hn & Hh & Hlo & Hhi & R0 & R1 & _).
      rewrite !Forall_cons in IH. destruct IH as (IH0 & IH1 & _).
      destruct (set_case (h_level hd) S) as [Hl|(S' & Hl & ->)].
      * rewrite (zsplit_0 _ _ _ _ _ (zsplit_br _ _ _ Ho)) in Hev by done. eapply zh_low; eauto.
      * rewrite (zsplit_1 _ _ _ _ _ (zsplit_br _ _ _ Ho)) in Hev by done. eapply zh_high; eauto.
Qed.

Lemma mem_zmem m d id S : zgood (z_ar m) → repr (z_ar m) d id → zdd_mem m id S ↔ zmem S d.
Proof. intros. by apply has_zev. Qed.
Lemma det_zdet m d id : zgood (z_ar m) → repr (z_ar m) d id → zdd_det m id ↔ zdet d.
Proof. intros Hg Hr. unfold zdd_det, zdet. by setoid_rewrite has_zev. Qed.

Lemma zvalid_repr m id : zwf m → zdd_valid m id → ∃ d, repr (z_ar m) d id.
Proof. intros Hw Hv. eapply repr_exists; [apply (zg_wf _ (zw_good _ Hw))|done]. Qed.

Lemma zbelow_rank m id d l : repr (z_ar m) d id → zdd_below m id l → rank d ≤ l.
Proof.
  intros Hr Hb. unfold zdd_below in Hb. rewrite (a_node_level _ _ _ Hr) in Hb.
  destruct d; cbn in *; lia.
Qed.

Lemma zop_ok o m f g df dg : zwf m → repr (z_ar m) df f → repr (z_ar m) dg g →
  zres o m df dg (zdd_op o m f g).
Proof.
  destruct o; cbn [zdd_op]; [apply zdd_intersect_ok|apply zdd_union_ok|apply zdd_setdiff_ok|apply zdd_product_ok
    |apply zdd_divide_ok].
Qed.

Lemma zexec_ok m c : zwf m → zdd_legal m c →
  ∃ m' r, zdd_exec m c = Some (m', r) ∧ zwf m' ∧
    ((∀ roots, c ≠ ZGc roots) → ext (z_ar m) (z_ar m')).
Proof.
  intros Hw. destruct c as [l s|h lo hi|o f g|roots|]; cbn [zdd_exec zdd_legal]; intros Hl.
  - destruct (zdd_create_header m l s) as [m' h] eqn:Hh. exists m', h.
    destruct (zcreate_header_ok _ _ _ _ _ Hw Hh) as (? & ? & _). done.
  - destruct (ar_headers (z_ar m) !! h) as [hd|] eqn:Hh; [|done].
    destruct Hl as [[Vlo Blo] [Vhi Bhi]].
    destruct (zvalid_repr _ _ Hw Vlo) as [dlo Hlo]. destruct (zvalid_repr _ _ Hw Vhi) as [dhi Hhi].
    destruct (zcreate_node_spec m h hd lo hi dlo dhi) as (m' & r & dr & Heq & (? & ? & _) & _); try done.
    { by eapply zbelow_rank. } { by eapply zbelow_rank. }
    exists m', r. rewrite Heq. done.
  - destruct Hl as [Vf Vg]. destruct (zvalid_repr _ _ Hw Vf) as [df Hf]. destruct (zvalid_repr _ _ Hw Vg) as [dg Hg].
    destruct (zop_ok o m f g df dg Hw Hf Hg) as (m' & r & dr & Heq & (? & ? & _) & _). by exists m', r.
  - destruct (zgc_ok m roots Hw) as (m' & n & Heq & Hw' & _).
    { intros r Hr. rewrite Forall_forall in Hl. by apply Hl. }
    exists m', n. sp; try done. intros H. by destruct (H roots).
  - eexists _, _. split; [done|]. split; [by apply zclear_cache_ok|intros _; apply ext_refl].
Qed.

Lemma zrun_ok m cs m' : zwf m → zdd_run m cs = Some m' → zwf m'.
Proof.
  revert m. induction cs as [|c cs IH]; intros m Hw; cbn [zdd_run]; [by intros [= <-]|].
  destruct (decide (zdd_legal m c)) as [Hl|]; [|done].
  destruct (zexec_ok m c Hw Hl) as (m1 & r & -> & Hw1 & _). cbn [mbind option_bind]. by apply IH.
Qed.

Lemma zreachable_wf m : zdd_reachable m → zwf m.
Proof. intros [cs Hcs]. eapply zrun_ok; [apply znew_ok|done]. Qed.

(** ** Property lemmas *)
(** nodes are reduced *)
Lemma repr_zred m d id : zgood (z_ar m) → repr (z_ar m) d id → zred d.
Proof.
  intros Gm. revert id. induction d as [t|hd ds IH] using dd_ind'; intros id Hr; [done|].
  destruct (zrepr_node2 _ _ _ _ Gm Hr) as (h & lo & hi & dlo & dhi & -> & _ & _ & Hlo & Hhi & _ & _ & Hnz).
  rewrite !Forall_cons in IH. destruct IH as (IH0 & IH1 & _). cbn. eauto.
Qed.

(** following [S] to the One leaf, in terms of members *)
Lemma elem_max (S : gset nat) : ∃ l, ∀ x, x ∈ S → x < l.
Proof.
  induction S as [|y S Hy [l IH]] using set_ind_L; [exists 0; set_solver|].
  exists (Datatypes.S y `max` l). intros x [->%elem_of_singleton|Hx]%elem_of_union; [lia|]. specialize (IH _ Hx). lia.
Qed.
Lemma zthru_settles d S : okdd E2 d → zred d → zdet d → zthru S d ↔ settles (λ A, zmem A d) S.
Proof.
  revert S. induction d as [t|hd ds IH] using dd_ind'; intros S Ho Hz Hd.
  - split.
    + cbn. intros ->. destruct (elem_max S) as [l Hl]. exists l, ∅. split; [set_solver by lia|].
      intros C. rewrite zmem_leaf1. split; [tauto|]. intros ->. split; [done|]. intros x Hx.
      split; [set_solver|]. intros Hs. specialize (Hl _ Hs). lia.
    + intros (l & A & HA & HC). destruct (HC A) as [_ [Hm _]]; [done|]. unfold zmem in Hm. cbn in *. by destruct (decide _).
  - pose proof Ho as Ho'. destruct (ok2 _ _ Ho) as (lo & hi & -> & R0 & R1 & O0 & O1).
    rewrite !Forall_cons in IH. destruct IH as (IH0 & IH1 & _).
    pose proof (zsplit_br _ _ _ Ho') as Hs. pose proof Hz as (Hnz & Z0 & Z1).
    pose proof Hd as [D0 D1]%(zdet_split _ _ _ _ Hs).
    assert (Hbd : ∀ C x, zmem C (Br hd [lo; hi]) → x ∈ C → x ≤ h_level hd).
    { intros C x Hm Hx. assert (x < Datatypes.S (h_level hd)); [|lia]. eapply (zmem_bound C); [exact Ho'|cbn; lia|done|done]. }
    assert (Hb0 : ∀ C x, zmem C lo → x ∈ C → x < h_level hd) by (intros C x; by apply zmem_bound).
    assert (Hb1 : ∀ C x, zmem C hi → x ∈ C → x < h_level hd) by (intros C x; by apply zmem_bound).
    destruct (set_case (h_level hd) S) as [Hn|(S' & Hn & ->)].
    + rewrite zthru_cons0 by done. rewrite (IH0 S O0 Z0 D0). split.
      * intros (Hle & l & A & HA & HC). exists (l `min` h_level hd), A.
        assert (Hlt : ∀ x, x ∈ S → x < h_level hd).
        { intros x Hx. specialize (Hle _ Hx). destruct (decide (x = h_level hd)); [by subst|lia]. }
        destruct (HC A) as [_ [HmA HagA]]; [done|].
        assert (HA' : ∀ x, x ∈ A ↔ x ∈ S ∧ l `min` h_level hd ≤ x).
        { intros x. rewrite HA. split; [intros []; split; [done|lia]|]. intros [Hx ?]. specialize (Hlt _ Hx). split; [done|lia]. }
        split; [done|]. intros C. rewrite <- HC. split.
        -- intros [Hm Hag]. assert (HnC : h_level hd ∉ C) by (intros Hx; apply Hag in Hx; [done|lia]).
           split; [by apply (zmem_split _ _ _ _ _ Hs) in Hm as [[_ ?]|(? & _ & -> & _)]; [|set_solver]|].
           intros x Hx. destruct (decide (l `min` h_level hd ≤ x)); [by apply Hag|]. lia.
        -- intros [Hm Hag]. assert (HnC : h_level hd ∉ C) by (intros Hx; specialize (Hb0 _ _ Hm Hx); lia).
           split; [apply (zmem_split _ _ _ _ _ Hs); by left|]. intros x Hx.
           destruct (decide (l ≤ x)); [by apply Hag|]. split; intros Hx'; [specialize (Hb0 _ _ Hm Hx')|specialize (Hlt _ Hx')]; lia.
      * intros (l & A & HA & HC). destruct (HC A) as [_ [HmA HagA]]; [done|].
        assert (Hl : l ≤ h_level hd).
        { destruct (decide (l ≤ h_level hd)); [done|]. exfalso.
          destruct (zred_mem_hi _ _ _ Ho' Hz Hd) as (D & HnD & HmD & _).
          assert ({[h_level hd]} ∪ D = A) as <-.
          { apply HC. split; [done|]. intros x Hx. split; intros Hx'; [specialize (Hbd _ _ HmD Hx'); lia|].
            assert (x ∈ A) as HxA by (apply HA; split; [done|lia]). specialize (Hbd _ _ HmA HxA). lia. }
          assert (h_level hd ∈ {[h_level hd]} ∪ D) as Hin by set_solver. apply HA in Hin as [? _]. done. }
        assert (Hle : ∀ x, x ∈ S → x ≤ h_level hd).
        { intros x Hx. destruct (decide (l ≤ x)); [|lia]. apply (Hbd A); [done|]. by apply HA. }
        split; [done|]. exists l, A. split; [done|]. intros C. rewrite <- HC.
        split; intros [Hm Hag]; (split; [|done]).
        -- apply (zmem_split _ _ _ _ _ Hs). left. split; [by intros Hx%Hag|done].
        -- apply (zmem_split _ _ _ _ _ Hs) in Hm as [[_ ?]|(? & _ & -> & _)]; [done|].
           exfalso. apply Hn. apply Hag; [done|]. set_solver.
    + rewrite zthru_cons1 by done. rewrite (IH1 S' O1 Z1 D1). split.
      * intros (Hle & l & A & HA & HC). exists (l `min` h_level hd), ({[h_level hd]} ∪ A).
        assert (Hlt : ∀ x, x ∈ S' → x < h_level hd).
        { intros x Hx. specialize (Hle _ Hx). destruct (decide (x = h_level hd)); [by subst|lia]. }
        split.
        { intros x. rewrite !elem_of_union, elem_of_singleton, HA. split.
          - intros [->|[Hx ?]]; (split; [tauto|lia]).
          - intros [[->|Hx] ?]; [tauto|]. specialize (Hlt _ Hx). right. split; [done|lia]. }
        intros C. split.
        -- intros [Hm Hag]. assert (HnC : h_level hd ∈ C) by (apply Hag; [lia|set_solver]).
           apply (zmem_split _ _ _ _ _ Hs) in Hm as [[? _]|(C' & HnC' & -> & Hm)]; [done|].
           f_equal. apply HC. split; [done|]. intros x Hx. destruct (decide (x = h_level hd)) as [->|Hne]; [done|].
           destruct (decide (l `min` h_level hd ≤ x)) as [Hmin|]; [|lia]. specialize (Hag _ Hmin). set_solver.
        -- intros ->. destruct (HC A) as [_ [HmA HagA]]; [done|].
           assert (HnA : h_level hd ∉ A) by (intros Hx; specialize (Hb1 _ _ HmA Hx); lia).
           split; [apply (zmem_split _ _ _ _ _ Hs); right; by exists A|]. intros x Hx.
           rewrite !elem_of_union. destruct (decide (l ≤ x)) as [Hlx|]; [by rewrite (HagA x Hlx)|].
           split; (intros [?|Hx']; [by left|]); [specialize (Hb1 _ _ HmA Hx')|specialize (Hlt _ Hx')]; lia.
      * intros (l & A & HA & HC). destruct (HC A) as [_ [HmA HagA]]; [done|].
        assert (Hl : l ≤ h_level hd).
        { destruct (decide (l ≤ h_level hd)); [done|]. exfalso.
          destruct (zred_mem_hi _ _ _ Ho' Hz Hd) as (D & HnD & HmD & _).
          assert (HSA : ∀ x, l ≤ x → x ∈ {[h_level hd]} ∪ S' → False).
          { intros x Hx Hx'. assert (x ∈ A) as HxA by (apply HA; split; done). specialize (Hbd _ _ HmA HxA). lia. }
          assert ({[h_level hd]} ∪ D = A) as <-.
          { apply HC. split; [done|]. intros x Hx. split; intros Hx'; [specialize (Hbd _ _ HmD Hx'); lia|by destruct (HSA x)]. }
          assert (h_level hd ∈ {[h_level hd]} ∪ D) as Hin by set_solver. apply HA in Hin as [_ ?]. lia. }
        assert (Hle : ∀ x, x ∈ S' → x ≤ h_level hd).
        { intros x Hx. destruct (decide (l ≤ x)); [|lia]. apply (Hbd A); [done|]. apply HA. split; [set_solver|done]. }
        split; [done|]. exists l, (A ∖ {[h_level hd]}).
        assert (HinA : h_level hd ∈ A) by (apply HA; split; [set_solver|done]).
        split.
        { intros x. rewrite elem_of_difference, HA, elem_of_union, elem_of_singleton. split; [naive_solver|].
          intros [Hx ?]. split; [auto|]. by intros ->. }
        intros C. split.
        -- intros [Hm Hag]. assert (HnC : h_level hd ∉ C) by (intros Hx; specialize (Hb1 _ _ Hm Hx); lia).
           assert ({[h_level hd]} ∪ C = A) as <-; [|set_solver]. apply HC.
           split; [apply (zmem_split _ _ _ _ _ Hs); right; by exists C|].
           intros x Hx. specialize (Hag _ Hx). set_solver.
        -- intros ->. apply (zmem_split _ _ _ _ _ Hs) in HmA as [[? _]|(C' & HnC' & -> & Hm)]; [done|].
           replace (({[h_level hd]} ∪ C') ∖ {[h_level hd]}) with C' by set_solver. split; [done|].
           intros x Hx. specialize (HagA _ Hx). destruct (decide (x = h_level hd)) as [->|]; [tauto|]. set_solver.
Qed.
(** a member settles its family, and no nesting leaves nothing else *)
Lemma settles_mem (F : gset nat → Prop) S : F S → settles F S.
Proof.
  intros H. exists 0, S. split; [intros x; split; [split; [done|lia]|tauto]|]. intros C. split.
  - intros [_ Hag]. apply set_eq. intros x. apply Hag. lia.
  - intros ->. by split.
Qed.
Lemma settles_sep (F : gset nat → Prop) S : (∀ A, F A → A ⊆ S → A = S) → settles F S → F S.
Proof.
  intros Hs (l & A & HA & HC). destruct (HC A) as [_ [HF _]]; [done|].
  rewrite <- (Hs A); [done|done|]. intros x Hx. by apply HA.
Qed.

Lemma settles_both (F G : gset nat → Prop) S : (∀ A B, F A → G B → A ⊆ B ∨ B ⊆ A → A = B) →
  G S ∧ settles F S ∨ F S ∧ settles G S ↔ F S ∧ G S.
Proof.
  intros Hs.
  assert (settles F S → G S → F S). { intros Hf Hg. apply settles_sep; [|done]. intros A HA HAS. apply Hs; auto. }
  assert (settles G S → F S → G S). { intros Hg Hf. apply settles_sep; [|done]. intros A HA HAS. symmetry. apply Hs; auto. }
  pose proof (settles_mem F S). tauto.
Qed.

Lemma zalgebra_wf o m f g : zwf m → zdd_valid m f → zdd_valid m g →
  ∃ m' r, zdd_op o m f g = Some (m', r) ∧ zdd_valid m' r ∧
    (o ≠ ZDivision → zdd_det m f → zdd_det m g → zdd_det m' r ∧
     match o with
     | ZUnion => ∀ S, zdd_mem m' r S ↔ zdd_mem m f S ∨ zdd_mem m g S
     | ZSetdiff => ∀ S, zdd_mem m' r S ↔ zdd_mem m f S ∧ ¬ zdd_mem m g S
     | ZProduct => ∀ S, zdd_mem m' r S ↔ ∃ A B, S = A ∪ B ∧ zdd_mem m f A ∧ zdd_mem m g B
     | ZIntersect => ∀ S, zdd_mem m' r S ↔
         zdd_mem m g S ∧ settles (zdd_mem m f) S ∨ zdd_mem m f S ∧ settles (zdd_mem m g) S
     | ZDivision => True
     end).
Proof.
  intros Hw Vf Vg. destruct (zvalid_repr _ _ Hw Vf) as [df Hf]. destruct (zvalid_repr _ _ Hw Vg) as [dg Hg].
  destruct (zop_ok o m f g df dg Hw Hf Hg) as (m' & r & dr & Heq & Hst & Hr & _ & Hp).
  exists m', r. split; [done|]. split; [by eapply repr_live|]. intros Ho Df Dg.
  pose proof (zw_good _ Hw) as Gm. pose proof (zw_good _ (proj1 Hst)) as Gm'.
  apply (det_zdet _ _ _ Gm Hf) in Df. apply (det_zdet _ _ _ Gm Hg) in Dg.
  rewrite (det_zdet _ _ _ Gm' Hr).
  assert (Ff : ∀ S, zdd_mem m f S ↔ zmem S df) by (intros; by apply mem_zmem).
  assert (Fg : ∀ S, zdd_mem m g S ↔ zmem S dg) by (intros; by apply mem_zmem).
  assert (Fr : ∀ S, zdd_mem m' r S ↔ zmem S dr) by (intros; by apply mem_zmem).
  assert (Sx : ∀ F G S, (∀ A : gset nat, F A ↔ G A) → settles F S ↔ settles G S).
  { intros F G S HFG. unfold settles. by setoid_rewrite HFG. }
  destruct o; try done.
  { destruct Hp as (_ & _ & Hp). destruct (Hp Df Dg) as [Dr Hs]. split; [done|]. intros S.
    rewrite Fr, (Hs S), !zthru_settles, Ff, Fg, (Sx _ _ _ Ff), (Sx _ _ _ Fg); eauto using zgood_ok, repr_zred. }
  all: destruct (Hp Df Dg) as [Dr Hs]; (split; [done|]); unfold zspec in Hs.
  - intros S. by rewrite Fr, Ff, Fg.
  - intros S. by rewrite Fr, Ff, Fg.
  - intros S. rewrite Fr, Hs. by setoid_rewrite Ff; setoid_rewrite Fg.
Qed.

Lemma zdivide_one m f : zwf m → zdd_valid m f →
  ∃ m', zdd_divide m f zdd_one = Some (m', f) ∧ zwf m' ∧
    ∀ S, zdd_mem m' f S ↔ zdd_mem m f S.
Proof.
  intros Hw Vf. destruct (zvalid_repr _ _ Hw Vf) as [df Hf].
  pose proof (zg_one _ (zw_good _ Hw)) as Ho.
  destruct (zdd_divide_ok m f zdd_one df _ Hw Hf Ho) as (m' & r & dr & Heq & Hst & Hr & _ & Hp).
  assert (dr = df) as -> by by apply Hp.
  assert (Hf' : repr (z_ar m') df f) by (eapply zstep_repr; done).
  assert (r = f) as -> by (eapply repr_inj; [apply (zg_wf _ (zw_good _ (proj1 Hst)))|done|done]).
  exists m'. split; [done|]. split; [apply Hst|]. intros S.
  rewrite (mem_zmem m' df), (mem_zmem m df); try done; [apply Hw|apply Hst].
Qed.

(** a valid node has finitely... its family is decided by the tree, so the quotient of a family by [{∅}]
    is the family *)
Lemma quotient_one m F : zwf m → ∀ Q, quotient F (zdd_mem m zdd_one) Q ↔ F Q.
Proof.
  intros Hw Q.
  assert (Hone : ∀ S, zdd_mem m zdd_one S ↔ S = ∅).
  { intros S. rewrite (mem_zmem m (Leaf TOne)); [|apply Hw|apply (zw_good _ Hw)]. apply zmem_leaf1. }
  unfold quotient. setoid_rewrite Hone. split.
  - intros H. destruct (H ∅ eq_refl) as [_ HQ]. by rewrite (right_id_L ∅ (∪)) in HQ.
  - intros HQ B ->. split; [set_solver|]. by rewrite (right_id_L ∅ (∪)).
Qed.

Lemma zcanonical_wf m f g : zwf m → zdd_levels_distinct m → zdd_valid m f → zdd_valid m g →
  (f = g ↔ (∀ S, zdd_mem m f S ↔ zdd_mem m g S) ∧
           (∀ S, zdd_has m TUndet f S ↔ zdd_has m TUndet g S)).
Proof.
  intros Hw Hd Vf Vg. split; [by intros ->|]. intros [H1 H2].
  destruct (zvalid_repr _ _ Hw Vf) as [df Hf]. destruct (zvalid_repr _ _ Hw Vg) as [dg Hg].
  pose proof (zw_good _ Hw) as Gm. destruct (a_hdby (z_ar m) Hd) as [H Hhd].
  assert (Hz : ∀ d id, repr (z_ar m) d id → zred d) by (intros d id; by apply repr_zred).
  assert (df = dg) as <-; [|by eapply repr_inj; [apply (zg_wf _ Gm)|done|done]].
  eapply (zcanon H); eauto using zgood_ok.
  intros S. specialize (H1 S). specialize (H2 S). unfold zdd_mem in H1.
  rewrite (has_zev m TOne df f S), (has_zev m TOne dg g S) in H1 by done.
  rewrite (has_zev m TUndet df f S), (has_zev m TUndet dg g S) in H2 by done.
  destruct (zev S df), (zev S dg); naive_solver.
Qed.

Lemma zhas_ext m m' id : zwf m → zwf m' → ext (z_ar m) (z_ar m') → zdd_valid m id →
  zdd_valid m' id ∧ (∀ S, zdd_mem m' id S ↔ zdd_mem m id S) ∧ (zdd_det m' id ↔ zdd_det m id).
Proof.
  intros Hw Hw' He Hv. split; [by eapply ext_live|].
  destruct (zvalid_repr _ _ Hw Hv) as [d Hd]. pose proof (repr_mono _ _ _ _ He Hd) as Hd'. split.
  - intros S. rewrite (mem_zmem m d _ _ (zw_good _ Hw) Hd), (mem_zmem m' d _ _ (zw_good _ Hw') Hd'). done.
  - rewrite (det_zdet m d _ (zw_good _ Hw) Hd), (det_zdet m' d _ (zw_good _ Hw') Hd'). done.
Qed.

Lemma zframe_l m c : zdd_reachable m → zdd_legal m c → (∀ roots, c ≠ ZGc roots) →
  ∃ m' r, zdd_exec m c = Some (m', r) ∧
    (∀ id, zdd_valid m id → zdd_valid m' id ∧ (∀ S, zdd_mem m' id S ↔ zdd_mem m id S) ∧
       (zdd_det m' id ↔ zdd_det m id)).
Proof.
  intros Hre Hl Hng. pose proof (zreachable_wf _ Hre) as Hw.
  destruct (zexec_ok m c Hw Hl) as (m' & r & Heq & Hw' & He).
  exists m', r. split; [done|]. intros id Hv. apply zhas_ext; auto.
Qed.

Lemma zreaches_reach m roots id : zdd_reaches m roots id ↔ reach (z_ar m) roots id.
Proof. split; induction 1; [by constructor|by econstructor|by constructor|by econstructor]. Qed.

Lemma zgc_exact_l m roots : zdd_reachable m → Forall (zdd_valid m) roots →
  ∃ m' n, zdd_gc m roots = Some (m', n) ∧
    (∀ id, zdd_valid m' id ↔ id ∈ [zdd_zero; zdd_one; zdd_undet] ∨ zdd_reaches m roots id) ∧
    (∀ id S t, zdd_has m' t id S ↔ zdd_has m t id S) ∧
    (∀ l, NoDup l → (∀ id, id ∈ l ↔ zdd_valid m' id) →
       zdd_live_node_count m' = length l ∧ n + length l = length (ar_nodes (z_ar m))).
Proof.
  intros Hre Hroots. pose proof (zreachable_wf _ Hre) as Hw. rewrite Forall_forall in Hroots.
  destruct (zgc_ok m roots Hw) as (m' & n & Heq & Hw' & Hhd & Hns & Hl & Hsub & Hn).
  { intros r Hr. by apply Hroots. }
  exists m', n. split; [done|]. sp.
  - intros id. rewrite zreaches_reach. apply Hl.
  - intros id S t. split; induction 1.
    + constructor. by rewrite <- Hns.
    + eapply zh_low; [by rewrite <- Hns|done].
    + eapply zh_high; [by rewrite <- Hns|by rewrite <- Hhd|done].
    + constructor. by rewrite Hns.
    + eapply zh_low; [by rewrite Hns|done].
    + eapply zh_high; [by rewrite Hns|by rewrite Hhd|done].
  - intros l Hnd Hin. unfold zdd_live_node_count, ar_live_count. rewrite <- Hns.
    pose proof (a_free_count Rz (z_ar m') l (zg_wf _ (zw_good _ Hw')) Hnd Hin). lia.
Qed.

Lemma zunion_l m f g : zdd_reachable m → zdd_valid m f → zdd_valid m g → zdd_det m f → zdd_det m g →
  ∃ m' r, zdd_union m f g = Some (m', r) ∧ zdd_valid m' r ∧ zdd_det m' r ∧
    ∀ S, zdd_mem m' r S ↔ zdd_mem m f S ∨ zdd_mem m g S.
Proof.
  intros Hm Vf Vg Df Dg.
  destruct (zalgebra_wf ZUnion m f g (zreachable_wf _ Hm) Vf Vg) as (m' & r & ? & ? & H).
  exists m', r. destruct H; done.
Qed.
Lemma zsetdiff_l m f g : zdd_reachable m → zdd_valid m f → zdd_valid m g → zdd_det m f → zdd_det m g →
  ∃ m' r, zdd_setdiff m f g = Some (m', r) ∧ zdd_valid m' r ∧ zdd_det m' r ∧
    ∀ S, zdd_mem m' r S ↔ zdd_mem m f S ∧ ¬ zdd_mem m g S.
Proof.
  intros Hm Vf Vg Df Dg.
  destruct (zalgebra_wf ZSetdiff m f g (zreachable_wf _ Hm) Vf Vg) as (m' & r & ? & ? & H).
  exists m', r. destruct H; done.
Qed.
Lemma zproduct_l m f g : zdd_reachable m → zdd_valid m f → zdd_valid m g → zdd_det m f → zdd_det m g →
  ∃ m' r, zdd_product m f g = Some (m', r) ∧ zdd_valid m' r ∧ zdd_det m' r ∧
    ∀ S, zdd_mem m' r S ↔ ∃ A B, S = A ∪ B ∧ zdd_mem m f A ∧ zdd_mem m g B.
Proof.
  intros Hm Vf Vg Df Dg.
  destruct (zalgebra_wf ZProduct m f g (zreachable_wf _ Hm) Vf Vg) as (m' & r & ? & ? & H).
  exists m', r. destruct H; done.
Qed.
Lemma zintersect_l m f g : zdd_reachable m → zdd_valid m f → zdd_valid m g → zdd_det m f → zdd_det m g →
  (∀ A B, zdd_mem m f A → zdd_mem m g B → A ⊆ B ∨ B ⊆ A → A = B) →
  ∃ m' r, zdd_intersect m f g = Some (m', r) ∧ zdd_valid m' r ∧ zdd_det m' r ∧
    ∀ S, zdd_mem m' r S ↔ zdd_mem m f S ∧ zdd_mem m g S.
Proof.
  intros Hm Vf Vg Df Dg Hs.
  destruct (zalgebra_wf ZIntersect m f g (zreachable_wf _ Hm) Vf Vg) as (m' & r & ? & ? & H).
  exists m', r. destruct H as [? H]; try done. sp; try done. intros S. rewrite H. by apply settles_both.
Qed.
Lemma zintersect_exact m f g : zdd_reachable m → zdd_valid m f → zdd_valid m g → zdd_det m f → zdd_det m g →
  ∃ m' r, zdd_intersect m f g = Some (m', r) ∧ zdd_valid m' r ∧ zdd_det m' r ∧
    ∀ S, zdd_mem m' r S ↔
      zdd_mem m g S ∧ settles (zdd_mem m f) S ∨ zdd_mem m f S ∧ settles (zdd_mem m g) S.
Proof.
  intros Hm Vf Vg Df Dg.
  destruct (zalgebra_wf ZIntersect m f g (zreachable_wf _ Hm) Vf Vg) as (m' & r & ? & ? & H).
  exists m', r. destruct H; done.
Qed.
Lemma zdivide_top m f g B : zdd_reachable m → zdd_valid m f → zdd_valid m g → zdd_det m f → zdd_det m g →
  (∀ A, zdd_mem m g A ↔ A = B) →
  (∀ A, zdd_mem m f A → B ⊆ A ∧ ∀ x b, x ∈ A → x ∉ B → b ∈ B → x < b) →
  ∃ m' r, zdd_divide m f g = Some (m', r) ∧ zdd_valid m' r ∧ zdd_det m' r ∧
    ∀ S, zdd_mem m' r S ↔ quotient (zdd_mem m f) (zdd_mem m g) S.
Proof.
  intros Hm Vf Vg Df Dg HB HF. pose proof (zreachable_wf _ Hm) as Hw.
  destruct (zvalid_repr _ _ Hw Vf) as [df Hf]. destruct (zvalid_repr _ _ Hw Vg) as [dg Hg].
  destruct (zdd_divide_ok m f g df dg Hw Hf Hg) as (m' & r & dr & Heq & Hst & Hr & _ & _ & _ & Hp).
  pose proof (zw_good _ Hw) as Gm. pose proof (zw_good _ (proj1 Hst)) as Gm'.
  apply (det_zdet _ _ _ Gm Hf) in Df. apply (det_zdet _ _ _ Gm Hg) in Dg.
  destruct (Hp Df Dg B) as [Dr Hs]; [exact (repr_zred _ _ _ Gm Hf)|exact (repr_zred _ _ _ Gm Hg)| | |].
  { intros A. by rewrite <- (mem_zmem _ _ _ _ Gm Hg), HB. }
  { intros A HA. apply HF. by apply (mem_zmem _ _ _ _ Gm Hf). }
  exists m', r. split; [done|]. split; [by eapply repr_live|]. split; [by apply (det_zdet _ _ _ Gm' Hr)|].
  intros S. rewrite (mem_zmem _ _ _ _ Gm' Hr), Hs, <- (mem_zmem _ _ _ _ Gm Hf). unfold quotient. split.
  - intros H C ->%HB. done.
  - intros H. apply H. by apply HB.
Qed.
Lemma zdivide_l m f : zdd_reachable m → zdd_valid m f →
  ∃ m' r, zdd_divide m f zdd_one = Some (m', r) ∧ zdd_valid m' r ∧
    ∀ S, zdd_mem m' r S ↔ quotient (zdd_mem m f) (zdd_mem m zdd_one) S.
Proof.
  intros Hm Vf. pose proof (zreachable_wf _ Hm) as Hw.
  destruct (zdivide_one m f Hw Vf) as (m' & Heq & Hw' & Hme).
  destruct (zalgebra_wf ZDivision m f zdd_one Hw Vf) as (m1 & r & Heq1 & V1 & _).
  { by eapply repr_live, (zg_one _ (zw_good _ Hw)). }
  cbn [zdd_op] in Heq1. rewrite Heq in Heq1. injection Heq1 as <- <-.
  exists m', f. sp; try done. intros S. by rewrite quotient_one, Hme.
Qed.

Lemma zcanonical_l m f g : zdd_reachable m → zdd_levels_distinct m → zdd_valid m f → zdd_valid m g →
  zdd_det m f → zdd_det m g →
  (f = g ↔ ∀ S, zdd_mem m f S ↔ zdd_mem m g S).
Proof.
  intros Hm Hd Vf Vg Df Dg. rewrite (zcanonical_wf m f g (zreachable_wf _ Hm) Hd Vf Vg).
  split; [by intros []|]. intros H. split; [done|]. intros S. split; intros Hu; [by destruct (Df S)|by destruct (Dg S)].
Qed.

Lemma znode_l m h hd lo hi : zdd_reachable m → ar_headers (z_ar m) !! h = Some hd →
  zdd_legal m (ZNode h lo hi) →
  ∃ m' r, zdd_create_node m h lo hi = (m', r) ∧ zdd_valid m' r ∧
    ∀ S, zdd_mem m' r S ↔
      zdd_mem m lo S ∨ (h_level hd ∈ S ∧ zdd_mem m hi (S ∖ {[h_level hd]})).
Proof.
  intros Hm Hh Hl. pose proof (zreachable_wf _ Hm) as Hw. cbn in Hl. rewrite Hh in Hl.
  destruct Hl as [[Vlo Blo] [Vhi Bhi]].
  destruct (zvalid_repr _ _ Hw Vlo) as [dlo Hlo]. destruct (zvalid_repr _ _ Hw Vhi) as [dhi Hhi].
  pose proof (zbelow_rank _ _ _ _ Hlo Blo) as R0. pose proof (zbelow_rank _ _ _ _ Hhi Bhi) as R1.
  destruct (zcreate_node_sem m h hd lo hi dlo dhi Hw Hh Hlo Hhi R0 R1) as (m' & r & dr & Heq & Hst & Hr & _ & Hs).
  exists m', r. split; [done|]. split; [by eapply repr_live|]. intros S.
  pose proof (zw_good _ Hw) as Gm.
  rewrite (mem_zmem m' dr _ _ (zw_good _ (proj1 Hst)) Hr), (mem_zmem m dlo _ _ Gm Hlo), (mem_zmem m dhi _ _ Gm Hhi).
  destruct (set_case (h_level hd) S) as [Hn|(S' & Hn & ->)].
  - unfold zmem. rewrite (zsplit_0 _ _ _ _ _ Hs) by done. naive_solver.
  - unfold zmem at 1. rewrite (zsplit_1 _ _ _ _ _ Hs) by done.
    replace (({[h_level hd]} ∪ S') ∖ {[h_level hd]}) with S' by set_solver. split.
    + intros H. right. split; [set_solver|done].
    + intros [H|[_ H]]; [|done]. unfold zmem in H.
      rewrite (zev_high _ _ (h_level hd)) in H; [done|by eapply zgood_ok|set_solver|done].
Qed.

(** ** Witnesses of the two defects *)
Lemma zrun_tree cs m n id d : zdd_run zdd_new cs = Some m → a_tree n (z_ar m) id = Some d →
  zgood (z_ar m) ∧ repr (z_ar m) d id.
Proof.
  intros H Ht. split; [|by eapply a_tree_repr]. apply zw_good, zreachable_wf. by exists cs.
Qed.

Lemma zintersect_wrong : ∃ m f g m' r S,
  zdd_reachable m ∧ zdd_valid m f ∧ zdd_valid m g ∧ zdd_det m f ∧ zdd_det m g ∧
  zdd_intersect m f g = Some (m', r) ∧
  zdd_mem m' r S ∧ ¬ zdd_mem m f S.
Proof.
  set (cs := [ZHeader 0 "x"%string; ZNode 0 0 1]).
  set (hx := Header 0 0 "x"%string 2).
  assert (H : (m ← zdd_run zdd_new cs; '(m', r) ← zdd_intersect m 1 3;
      Some (r, a_tree 9 (z_ar m) 1, a_tree 9 (z_ar m) 3, a_tree 9 (z_ar m') 3)) =
      Some (3, Some (Leaf TOne), Some (Br hx [Leaf TZero; Leaf TOne]), Some (Br hx [Leaf TZero; Leaf TOne])))
    by (vm_compute; reflexivity).
  destruct (zdd_run zdd_new cs) as [m|] eqn:E; [|done]. cbn [mbind option_bind] in H.
  destruct (zdd_intersect m 1 3) as [[m' r]|] eqn:E'; [|done]. cbn [mbind option_bind] in H.
  apply some4_inj in H as (-> & T1 & T3 & T3').
  destruct (zrun_tree _ _ _ _ _ E T1) as [G R1]. destruct (zrun_tree _ _ _ _ _ E T3) as [_ R3].
  apply a_tree_repr in T3'.
  destruct (zdd_intersect_ok m 1 3 _ _ (zreachable_wf m (ex_intro _ cs E)) R1 R3) as (m1 & r1 & dr & E1 & Hst & _).
  rewrite E' in E1. injection E1 as <- <-.
  exists m, 1, 3, m', 3, {[0]}. split; [by exists cs|].
  split; [by eapply repr_live|]. split; [by eapply repr_live|].
  rewrite (det_zdet _ _ _ G R1), (det_zdet _ _ _ G R3), (mem_zmem _ _ _ _ G R1),
    (mem_zmem _ _ _ _ (zw_good _ (proj1 Hst)) T3').
  sp; try done.
  - intros S. cbn. by destruct (decide _).
  - intros S. cbn. by destruct (decide _); destruct (decide _).
Qed.

Lemma zdivide_wrong : ∃ m f g m' r S,
  zdd_reachable m ∧ zdd_valid m f ∧ zdd_valid m g ∧ zdd_det m f ∧ zdd_det m g ∧ (∃ B, zdd_mem m g B) ∧
  zdd_divide m f g = Some (m', r) ∧
  quotient (zdd_mem m f) (zdd_mem m g) S ∧ ¬ zdd_mem m' r S.
Proof.
  set (cs := [ZHeader 0 "y"; ZHeader 1 "x"; ZNode 0 0 1; ZNode 1 0 3]%string).
  set (hy := Header 0 0 "y"%string 2). set (hx := Header 1 1 "x"%string 2).
  set (dy := Br hy [Leaf TZero; Leaf TOne]).
  assert (H : (m ← zdd_run zdd_new cs; '(m', r) ← zdd_divide m 4 3;
      Some (r, a_tree 9 (z_ar m) 4, a_tree 9 (z_ar m) 3, a_tree 9 (z_ar m') 0)) =
      Some (0, Some (Br hx [Leaf TZero; dy]), Some dy, Some (Leaf TZero)))
    by (vm_compute; reflexivity).
  destruct (zdd_run zdd_new cs) as [m|] eqn:E; [|done]. cbn [mbind option_bind] in H.
  destruct (zdd_divide m 4 3) as [[m' r]|] eqn:E'; [|done]. cbn [mbind option_bind] in H.
  apply some4_inj in H as (-> & T4 & T3 & T0).
  destruct (zrun_tree _ _ _ _ _ E T4) as [G R4]. destruct (zrun_tree _ _ _ _ _ E T3) as [_ R3].
  apply a_tree_repr in T0.
  destruct (zdd_divide_ok m 4 3 _ _ (zreachable_wf m (ex_intro _ cs E)) R4 R3) as (m1 & r1 & dr & E1 & Hst & _).
  rewrite E' in E1. injection E1 as <- <-.
  assert (My : ∀ S, zdd_mem m 3 S ↔ S = {[0]}).
  { intros S. rewrite (mem_zmem _ _ _ _ G R3). unfold zmem, dy. cbn.
    destruct (decide (0 ∈ S)); destruct (decide _) as [He|He]; split; try done; try set_solver.
    intros _. apply set_eq. intros y. rewrite elem_of_singleton. destruct (decide (y = 0)); [set_solver|].
    split; [|done]. intros Hy. assert (y ∈ S ∖ {[0]}) as Hy' by set_solver. rewrite He in Hy'. set_solver. }
  exists m, 4, 3, m', 0, {[1]}. split; [by exists cs|].
  split; [by eapply repr_live|]. split; [by eapply repr_live|].
  rewrite (det_zdet _ _ _ G R4), (det_zdet _ _ _ G R3),
    (mem_zmem _ _ _ _ (zw_good _ (proj1 Hst)) T0).
  sp; try done.
  - intros S. cbn. by repeat destruct (decide _).
  - intros S. cbn. by repeat destruct (decide _).
  - exists {[0]}. by apply My.
  - intros B ->%My. split; [set_solver|]. apply (mem_zmem _ _ _ _ G R4). vm_compute. done.
Qed.
