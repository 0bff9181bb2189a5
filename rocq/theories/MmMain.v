(** Statements about reachable combined managers, and handles held across any history. *)
From Verif Require Import Prelude ComputeCache ComputeCacheProofs Arena Trees ArenaProofs Bdd ArenaMore Mdd MtMdd MtMdd2.
From Verif Require Import SpecBdd SpecMdd NaryProofs MddProofs MtProofs MmProofs MddMain.

Section mm.
Context (I : vint).
Notation bar m := (d_ar (mm_b m)).
Notation var m := (t_ar (mm_v m)).

Lemma wb m : mmwf I m → awf Rn (bar m).
Proof. intros Hw. apply (mw_good _ (mmw_b _ _ Hw)). Qed.
Lemma wv m : mmwf I m → awf Rn (var m).
Proof. intros Hw. apply (tw_good _ _ (mmw_v _ _ Hw)). Qed.
Lemma vrange m rho : mmwf I m → mm_range m rho → in_range (var m) rho.
Proof. intros Hw Hr. unfold in_range. by rewrite (mmw_h _ _ Hw). Qed.

(** extending one or both forests keeps nodes and values *)
Definition mext (m m' : mm) : Prop := mmwf I m' ∧ ext (bar m) (bar m') ∧ ext (var m) (var m').
Lemma mmstep_mext m m' : mmstep I m m' → mext m m'.
Proof. intros (? & ? & ? & _). done. Qed.
Lemma mext_refl m : mmwf I m → mext m m.
Proof. intros. split; [done|]. split; apply ext_refl. Qed.
Lemma mext_valid m m' x : mext m m' → mm_valid m x → mm_valid m' x.
Proof. intros (_ & Hb & Hv). destruct x; cbn; by eapply ext_live. Qed.
Lemma mext_range m m' rho : mext m m' → mm_range m' rho → mm_range m rho.
Proof. intros (_ & Hb & _). by apply nrange_ext. Qed.
Lemma mext_bool m m' rho x t : mmwf I m → mext m m' → mm_valid m x → mm_bool m rho x t → mm_bool m' rho x t.
Proof.
  intros Hw (_ & Hb & _) Hv (f & -> & Hf). exists f. split; [done|]. eapply (nval_mono (bar m)); [exact Hb|by apply wb|exact Hv|exact Hf].
Qed.
Lemma mext_int m m' rho x t : mmwf I m → mext m m' → mm_valid m x → mm_int m rho x t → mm_int m' rho x t.
Proof.
  intros Hw (_ & _ & He) Hv (f & -> & Hf). exists f. split; [done|]. eapply (nval_mono (var m)); [exact He|by apply wv|exact Hv|exact Hf].
Qed.
Lemma mext_denotes m m' x F : mmwf I m → mext m m' → mm_denotes m x F → mm_denotes m' x F.
Proof.
  intros Hw He [Hv Hd]. split; [by eapply mext_valid|]. intros rho Hr. pose proof (Hd rho (mext_range _ _ _ He Hr)) as H.
  destruct F; [by eapply mext_bool|by eapply mext_int].
Qed.

(** ** Operations *)
Lemma mm_value_l m z : mmwf I m → ∃ m' r, mm_value m z = (m', r) ∧ mmstep I m m' ∧ mm_valid m' r ∧
  ∀ rho, mm_int m' rho r (VVal z).
Proof.
  intros Hw. unfold mm_value. destruct (mt_value_ok I (mm_v m) z (mmw_v _ _ Hw)) as (v & x & -> & Hst & Hr).
  eexists _, _. split; [done|]. split; [by apply with_v_step|]. cbn. split; [by eapply repr_live|].
  intros rho. exists x. split; [done|]. by apply (nval_eval _ _ _ _ _ Hr).
Qed.

Definition ctest (o : cop) (a b : vt) : bool :=
  match a, b with VVal x, VVal y => cop_test o x y | _, _ => false end.
Lemma cmp_val o m f g : mmwf I m → node_valid (var m) f → node_valid (var m) g →
  ∃ m' r, mm_cmp_f o (ar_fuel (var m)) m f g = Some (m', r) ∧ mmstep I m m' ∧ node_valid (bar m') r ∧
    (∀ rho a b, mm_range m rho → node_value (var m) rho f a → node_value (var m) rho g b →
      node_value (bar m') rho r (tvb (ctest o a b))).
Proof.
  intros Hw Vf Vg. destruct (nvalid_repr _ _ _ (wv _ Hw) Vf) as [df Hf]. destruct (nvalid_repr _ _ _ (wv _ Hw) Vg) as [dg Hg].
  destruct (mm_cmp_ok I o m f g df dg Hw Hf Hg) as (m' & r & dr & Heq & Hst & Hr & _ & Hp).
  exists m', r. sp; try done; [by eapply repr_live|]. intros rho a b Hrg Ha Hb.
  apply (nval_eval _ _ _ _ _ Hf) in Ha. apply (nval_eval _ _ _ _ _ Hg) in Hb. apply (nval_eval _ _ _ _ _ Hr).
  destruct (Hp rho Hrg) as (a' & b' & c & Ha' & Hb' & Hc & HR). simplify_eq. rewrite Hc, HR. unfold ctest.
  destruct a; [done|]. destruct b; [done|]. cbn. by destruct (cop_test _ _ _).
Qed.

Lemma mm_not_l m f : mmwf I m → mm_valid m f →
  ∃ m' r, mm_not m f = Some (m', r) ∧ mmstep I m m' ∧ mm_valid m' r ∧
    ∀ rho x, mm_range m rho → mm_bool m rho f (tvb x) → mm_bool m' rho r (tvb (negb x)).
Proof.
  intros Hw Hv. destruct f as [f|f]; cbn [mm_not].
  - exists m, (NBool mdd_undet). sp; try done.
    + eapply repr_live. apply (mw_good _ (mmw_b _ _ Hw)).
    + by intros rho x _ (? & ? & _).
  - destruct (mnot_l' (mm_b m) f (mmw_b _ _ Hw) Hv) as (b & r & -> & Hst & Hvr & Hval). cbn.
    eexists _, _. split; [done|]. split; [by apply with_b_step|]. split; [done|].
    intros rho x Hr (? & [= <-] & Hx). exists r. split; [done|]. by apply Hval.
Qed.
Lemma mm_gate_l o m f g : mmwf I m → mm_valid m f → mm_valid m g →
  ∃ m' r, mm_gate o m f g = Some (m', r) ∧ mmstep I m m' ∧ mm_valid m' r ∧
    ∀ rho x y, mm_range m rho → mm_bool m rho f (tvb x) → mm_bool m rho g (tvb y) →
      mm_bool m' rho r (tvb (gate_bool o x y)).
Proof.
  intros Hw Hf Hg.
  assert (Hc : ∃ c p, mm_gate o = mm_logic p ∧ conn_bool c = gate_bool o ∧
    mdd_conn c = λ m f g, mdd_bin_f p (ar_fuel (d_ar m)) m f g).
  { destruct o; [exists And, MAnd|exists Or, MOr|exists Xor, MXOr]; done. }
  destruct Hc as (c & p & -> & <- & Hc).
  assert (Hu : node_valid (bar m) mdd_undet) by (eapply repr_live; apply (mw_good _ (mmw_b _ _ Hw))).
  destruct f as [f|f]; [|destruct g as [g|g]]; cbn [mm_logic];
    try (exists m, (NBool mdd_undet); sp; try done; by intros rho x y _ (? & ? & _) (? & ? & _)).
  destruct (mconn_l' (mm_b m) c f g (mmw_b _ _ Hw) Hf Hg) as (b & r & Heq & Hst & Hvr & Hval).
  rewrite Hc in Heq. rewrite Heq. cbn.
  eexists _, _. split; [done|]. split; [by apply with_b_step|]. split; [done|].
  intros rho x y Hr (? & [= <-] & Hx) (? & [= <-] & Hy). exists r. split; [done|]. by apply Hval.
Qed.
Lemma mm_arith_l o m f g : mmwf I m → mm_valid m f → mm_valid m g →
  match mm_arith I o m f g with
  | Some (m', r) => mmstep I m m' ∧ mm_valid m' r ∧
    ∀ rho a b, mm_range m rho → mm_int m rho f a → mm_int m rho g b → no_overflow I o a b →
      mm_int m' rho r (arith_vt o a b)
  | None => ∃ rho a b, mm_range m rho ∧ mm_int m rho f a ∧ mm_int m rho g b ∧ ¬ no_overflow I o a b
  end.
Proof.
  intros Hw Hf Hg.
  assert (Hu : node_valid (var m) mt_undet) by (eapply repr_live; apply (tw_good _ _ (mmw_v _ _ Hw))).
  destruct f as [f|f]; [destruct g as [g|g]|]; cbn [mm_arith];
    try (sp; try done; by intros rho x y _ (? & ? & _) (? & ? & _)).
  pose proof (tbin_l' I (mm_v m) o f g (mmw_v _ _ Hw) Hf Hg) as Hb. unfold on_v.
  destruct (mt_bin I o (mm_v m) f g) as [[v r]|]; cbn [mbind option_bind].
  - destruct Hb as (Hst & Hvr & Hval). split; [by apply with_v_step|]. split; [done|].
    intros rho x y Hr (? & [= <-] & Hx) (? & [= <-] & Hy) Hno. exists r. split; [done|].
    apply Hval; try done. by apply vrange.
  - destruct Hb as (rho & a & b & Hr & Ha & Hb & Hn). exists rho, a, b. sp; try done.
    + unfold mm_range, in_range. by rewrite <- (mmw_h _ _ Hw).
    + by exists f.
    + by exists g.
Qed.

Lemma b_undet m : mmwf I m → node_valid (bar m) mdd_undet.
Proof. intros Hw. eapply repr_live. apply (mw_good _ (mmw_b _ _ Hw)). Qed.
Lemma as_bool_some m x : as_bool (Some (m, x)) = Some (m, NBool x).
Proof. done. Qed.

Lemma mm_cmp_l c m f g : c ≠ Lte → mmwf I m → mm_valid m f → mm_valid m g →
  ∃ m' r, mm_cmp c m f g = Some (m', r) ∧ mmstep I m m' ∧ mm_valid m' r ∧
    ∀ rho a b, mm_range m rho → mm_int m rho f a → mm_int m rho g b → mm_bool m' rho r (tvb (cmp_vt c a b)).
Proof.
  intros Hne Hw Hf Hg. pose proof (b_undet m Hw) as Hu.
  assert (Hmix : ∀ P : nat → nat → vt → vt → mm → mnode → Prop,
    (¬ ∃ f' g', f = NVal f' ∧ g = NVal g') → ∀ m' r rho a b, mm_int m rho f a → mm_int m rho g b → mm_bool m' rho r (tvb (cmp_vt c a b))).
  { intros _ Hn m' r rho a b (f' & -> & _) (g' & -> & _). destruct Hn. eauto. }
  destruct (decide ((∃ f', f = NVal f') ∧ (∃ g', g = NVal g'))) as [[[f' ->] [g' ->]]|Hn].
  2:{ assert (Hn' : ¬ ∃ f' g', f = NVal f' ∧ g = NVal g') by (intros (f' & g' & -> & ->); apply Hn; eauto).
      specialize (Hmix (λ _ _ _ _ _ _, True) Hn').
      assert (Hres : ∃ m' r, mm_cmp c m f g = Some (m', r) ∧ mmstep I m m' ∧ mm_valid m' r).
      { destruct f as [f|f], g as [g|g]; try (destruct Hn; eauto; fail);
          try (exists m, (NBool mdd_undet); destruct c; sp; done).
        cbn in Hf, Hg. destruct c; cbn [mm_cmp mm_eq mm_neq mm_lt mm_gt mm_gte];
          try (exists m, (NBool mdd_undet); sp; done); [|].
        - destruct (mconn_l' (mm_b m) Xnor f g (mmw_b _ _ Hw) Hf Hg) as (b & r & Heq & Hst & Hvr & _).
          cbn [mdd_conn] in Heq. unfold mdd_xnor in Heq. rewrite Heq. cbn. eexists _, _. split; [done|].
          split; [by apply with_b_step|done].
        - destruct (mconn_l' (mm_b m) Xor f g (mmw_b _ _ Hw) Hf Hg) as (b & r & Heq & Hst & Hvr & _).
          cbn [mdd_conn] in Heq. rewrite Heq. cbn. eexists _, _. split; [done|].
          split; [by apply with_b_step|done]. }
      destruct Hres as (m' & r & ? & ? & ?). exists m', r. sp; try done. intros rho a b _. apply Hmix. }
  clear Hmix. cbn in Hf, Hg. unfold mm_cmp, mm_eq, mm_neq, mm_lt, mm_gt, mm_gte.
  assert (Hneg : ∀ o f g m1 x, mmstep I m m1 → node_valid (bar m1) x →
    (∀ rho a b, mm_range m rho → node_value (var m) rho f a → node_value (var m) rho g b →
      node_value (bar m1) rho x (tvb (ctest o a b))) →
    ∃ m' r, on_b m1 (mdd_not (mm_b m1) x) = Some (m', r) ∧ mmstep I m m' ∧ mm_valid m' r ∧
    ∀ rho a b, mm_range m rho → node_value (var m) rho f a → node_value (var m) rho g b →
      mm_bool m' rho r (tvb (negb (ctest o a b)))).
  { intros o x y m1 e Hst1 Hve Hval. pose proof Hst1 as (Hw1 & _ & _ & Hh1).
    destruct (mnot_l' (mm_b m1) e (mmw_b _ _ Hw1) Hve) as (b & r & -> & Hst & Hvr & Hval2). cbn.
    eexists _, _. split; [done|]. split; [eapply mmstep_trans; [exact Hst1|by apply with_b_step]|]. split; [done|].
    intros rho a b' Hr Ha Hb. exists r. split; [done|]. apply Hval2; [|by apply Hval].
    unfold in_range. by rewrite Hh1. }
  destruct c; try done.
  - unfold mm_veq. destruct (cmp_val CEq m f' g' Hw Hf Hg) as (m' & r & -> & Hst & Hvr & Hval).
    rewrite as_bool_some. eexists _, _. split; [done|]. split; [done|]. split; [done|].
    intros rho a b Hr (? & [= <-] & Ha) (? & [= <-] & Hb). exists r. split; [done|].
    replace (cmp_vt Eq a b) with (ctest CEq a b); [by apply Hval|].
    destruct a, b; cbn; try done. destruct (Z.eqb_spec z z0); by case_bool_decide.
  - unfold mm_veq. destruct (cmp_val CEq m f' g' Hw Hf Hg) as (m1 & x & -> & Hst & Hvr & Hval). cbn [mbind option_bind].
    destruct (Hneg CEq f' g' m1 x Hst Hvr Hval) as (m' & r & -> & Hst' & Hvr' & Hval').
    exists m', r. sp; try done. intros rho a b Hr (? & [= <-] & Ha) (? & [= <-] & Hb).
    replace (cmp_vt Neq a b) with (negb (ctest CEq a b)); [by apply Hval'|].
    destruct a, b; cbn; try done. destruct (Z.eqb_spec z z0); by case_bool_decide.
  - unfold mm_vlt. destruct (cmp_val CLt m f' g' Hw Hf Hg) as (m' & r & -> & Hst & Hvr & Hval).
    rewrite as_bool_some. eexists _, _. split; [done|]. split; [done|]. split; [done|].
    intros rho a b Hr (? & [= <-] & Ha) (? & [= <-] & Hb). exists r. split; [done|].
    replace (cmp_vt Lt a b) with (ctest CLt a b); [by apply Hval|].
    destruct a, b; cbn; try done. destruct (Z.ltb_spec z z0); case_bool_decide; lia || done.
  - unfold mm_vlt. destruct (cmp_val CLt m g' f' Hw Hg Hf) as (m' & r & -> & Hst & Hvr & Hval).
    rewrite as_bool_some. eexists _, _. split; [done|]. split; [done|]. split; [done|].
    intros rho a b Hr (? & [= <-] & Ha) (? & [= <-] & Hb). exists r. split; [done|].
    replace (cmp_vt Gt a b) with (ctest CLt b a); [by apply Hval|].
    destruct a, b; cbn; try done. destruct (Z.ltb_spec z0 z); case_bool_decide; lia || done.
  - unfold mm_vlt. destruct (cmp_val CLt m f' g' Hw Hf Hg) as (m1 & x & -> & Hst & Hvr & Hval). cbn [mbind option_bind].
    destruct (Hneg CLt f' g' m1 x Hst Hvr Hval) as (m' & r & -> & Hst' & Hvr' & Hval').
    exists m', r. sp; try done. intros rho a b Hr (? & [= <-] & Ha) (? & [= <-] & Hb).
    replace (cmp_vt Gte a b) with (negb (ctest CLt a b)); [by apply Hval'|].
    destruct a, b; cbn; try done. destruct (Z.ltb_spec z z0); case_bool_decide; lia || done.
Qed.

(** eq / neq of two boolean diagrams *)
Lemma mm_beq_l m f g : mmwf I m → mm_valid m f → mm_valid m g →
  (∃ m' r, mm_eq m f g = Some (m', r) ∧ mmstep I m m' ∧ mm_valid m' r ∧ ∀ rho x y, mm_range m rho →
     mm_bool m rho f (tvb x) → mm_bool m rho g (tvb y) → mm_bool m' rho r (tvb (eqb x y))) ∧
  (∃ m' r, mm_neq m f g = Some (m', r) ∧ mmstep I m m' ∧ mm_valid m' r ∧ ∀ rho x y, mm_range m rho →
     mm_bool m rho f (tvb x) → mm_bool m rho g (tvb y) → mm_bool m' rho r (tvb (negb (eqb x y)))).
Proof.
  intros Hw Hf Hg. destruct f as [f|f]; [|destruct g as [g|g]].
  - destruct (mm_cmp_l Eq m (NVal f) g) as (m1 & r1 & ? & ? & ? & _); try done.
    destruct (mm_cmp_l Neq m (NVal f) g) as (m2 & r2 & ? & ? & ? & _); try done.
    split; [exists m1, r1|exists m2, r2]; sp; try done; by intros rho x y _ (? & ? & _).
  - split; exists m, (NBool mdd_undet); sp; try done; try (by apply b_undet); by intros rho x y _ _ (? & ? & _).
  - cbn in Hf, Hg. split.
    + destruct (mconn_l' (mm_b m) Xnor f g (mmw_b _ _ Hw) Hf Hg) as (b & r & Heq & Hst & Hvr & Hval).
      cbn [mdd_conn] in Heq. unfold mdd_xnor in Heq. cbn [mm_eq]. rewrite Heq. cbn. eexists _, _. split; [done|].
      split; [by apply with_b_step|]. split; [done|].
      intros rho x y Hr (? & [= <-] & Hx) (? & [= <-] & Hy). exists r. split; [done|].
      pose proof (Hval rho x y Hr Hx Hy) as Hv. by destruct x, y.
    + destruct (mconn_l' (mm_b m) Xor f g (mmw_b _ _ Hw) Hf Hg) as (b & r & Heq & Hst & Hvr & Hval).
      cbn [mdd_conn] in Heq. cbn [mm_neq]. rewrite Heq. cbn. eexists _, _. split; [done|].
      split; [by apply with_b_step|]. split; [done|].
      intros rho x y Hr (? & [= <-] & Hx) (? & [= <-] & Hy). exists r. split; [done|].
      pose proof (Hval rho x y Hr Hx Hy) as Hv. by destruct x, y.
Qed.

Lemma mm_lte_l m f g : mmwf I m → mm_valid m f → mm_valid m g →
  ∃ m' r, mm_lte m f g = Some (m', r) ∧ mmstep I m m' ∧ mm_valid m' r ∧
    ∀ rho x y, mm_range m rho → mm_int m rho f (VVal x) → mm_int m rho g (VVal y) →
      (x ≠ y → mm_bool m' rho r (tvb (cmp_z Lte x y))) ∧
      ((∀ rho' a b, mm_range m rho' → mm_int m rho' f a → mm_int m rho' g b → cmp_vt Eq a b = true) →
       levels_distinct (bar m) → mm_bool m' rho r TOne).
Proof.
  intros Hw Hf Hg.
  destruct f as [f|f]; [destruct g as [g|g]|];
    try (exists m, (NBool mdd_undet); sp; try done; [by apply b_undet|]; by intros rho x y _ (? & ? & _) (? & ? & _)).
  cbn in Hf, Hg. unfold mm_lte, mm_veq.
  destruct (cmp_val CEq m f g Hw Hf Hg) as (m1 & e & -> & Hst1 & Hve & Hvale). cbn [mbind option_bind].
  pose proof Hst1 as (Hw1 & Eb1 & Ev1 & Hh1).
  pose proof (mg_one _ (mw_good _ (mmw_b _ _ Hw1))) as H1.
  destruct (Nat.eqb_spec e mdd_one) as [->|Hne].
  - exists m1, (NBool mdd_one). sp; try done. intros rho x y Hr (? & [= <-] & Hx) (? & [= <-] & Hy).
    assert (Hone : mm_bool m1 rho (NBool mdd_one) TOne).
    { exists mdd_one. split; [done|]. by apply (nval_eval _ _ _ _ _ H1). }
    split; [|done]. intros Hxy. exfalso.
    pose proof (Hvale rho _ _ Hr Hx Hy) as Hv. apply (nval_eval _ _ _ _ _ H1) in Hv. cbn in Hv.
    destruct (Z.eqb_spec x y); [done|]. discriminate.
  - assert (Hff : node_valid (var m1) f) by by eapply ext_live.
    assert (Hgg : node_valid (var m1) g) by by eapply ext_live.
    unfold mm_vlt. destruct (cmp_val CLt m1 f g Hw1 Hff Hgg) as (m' & r & -> & Hst & Hvr & Hval).
    rewrite as_bool_some. eexists _, _. split; [done|]. split; [by eapply mmstep_trans|]. split; [done|].
    intros rho x y Hr (? & [= <-] & Hx) (? & [= <-] & Hy). split.
    + intros Hxy. exists r. split; [done|]. replace (cmp_z Lte x y) with (ctest CLt (VVal x) (VVal y)).
      * apply Hval; [unfold mm_range, in_range; by rewrite Hh1| |]; (eapply (nval_mono (var m)); [exact Ev1|by apply wv|done|done]).
      * cbn. destruct (Z.ltb_spec x y); case_bool_decide; lia || done.
    + intros Hall Hd. exfalso. apply Hne.
      apply (ncanon (bar m1)); try done; [by apply wb|by apply (mm_hc I)|unfold levels_distinct; by rewrite Hh1|by eapply repr_live|].
      intros rho' t Hr' Ht. apply (nval_eval _ _ _ _ _ H1). cbn.
      assert (Hr0 : mm_range m rho') by (unfold mm_range, in_range; by rewrite <- Hh1).
      destruct (nvalue_total (var m) rho' f) as [a Ha]; [by apply wv|rewrite (mmw_h _ _ Hw); by apply (mm_hc I)|by apply vrange|done|].
      destruct (nvalue_total (var m) rho' g) as [b Hb]; [by apply wv|rewrite (mmw_h _ _ Hw); by apply (mm_hc I)|by apply vrange|done|].
      pose proof (Hvale rho' a b Hr0 Ha Hb) as Hv.
      assert (Hab : cmp_vt Eq a b = true) by (eapply Hall; [exact Hr0|by exists f|by exists g]).
      assert (ctest CEq a b = true) as Hc.
      { destruct a, b; cbn in *; try done. apply bool_decide_eq_true in Hab as ->. by rewrite Z.eqb_refl. }
      rewrite Hc in Hv. f_equal. by eapply nval_fun.
Qed.

Lemma mm_vite_l m f g h : mmwf I m → mm_valid m (NBool f) → mm_valid m (NVal g) → mm_valid m (NVal h) →
  ∃ m' r, mm_ite m (NBool f) (NVal g) (NVal h) = Some (m', r) ∧ mmstep I m m' ∧ mm_valid m' r ∧
    ∀ rho x a b, mm_range m rho → mm_bool m rho (NBool f) (tvb x) → mm_int m rho (NVal g) a → mm_int m rho (NVal h) b →
      mm_int m' rho r (if x then a else b).
Proof.
  intros Hw Vf Vg Vh. cbn in Vf, Vg, Vh. destruct (nvalid_repr _ _ _ (wb _ Hw) Vf) as [df Hf].
  destruct (nvalid_repr _ _ _ (wv _ Hw) Vg) as [dg Hg]. destruct (nvalid_repr _ _ _ (wv _ Hw) Vh) as [dh Hh].
  cbn [mm_ite]. destruct (mm_vite_ok I m f g h df dg dh Hw Hf Hg Hh) as (m' & r & dr & -> & Hst & Hr & _ & Hp).
  exists m', (NVal r). cbn. sp; try done; [by eapply repr_live|].
  intros rho x a b Hrg (? & [= <-] & Hx) (? & [= <-] & Ha) (? & [= <-] & Hb). exists r. split; [done|].
  apply (nval_eval _ _ _ _ _ Hf) in Hx. apply (nval_eval _ _ _ _ _ Hg) in Ha. apply (nval_eval _ _ _ _ _ Hh) in Hb.
  apply (nval_eval _ _ _ _ _ Hr). destruct (Hp rho Hrg) as (x' & a' & b' & r' & Hx' & Ha' & Hb' & Hr' & HR).
  simplify_eq. rewrite Hr'. destruct x; cbn in HR; by subst.
Qed.
Lemma mm_bite_l m f g h : mmwf I m → mm_valid m (NBool f) → mm_valid m (NBool g) → mm_valid m (NBool h) →
  ∃ m' r, mm_ite m (NBool f) (NBool g) (NBool h) = Some (m', r) ∧ mmstep I m m' ∧ mm_valid m' r ∧
    ∀ rho x a b, mm_range m rho → mm_bool m rho (NBool f) (tvb x) → mm_bool m rho (NBool g) a → mm_bool m rho (NBool h) b →
      mm_bool m' rho r (if x then a else b).
Proof.
  intros Hw Vf Vg Vh. cbn [mm_ite].
  destruct (mite_l' (mm_b m) f g h (mmw_b _ _ Hw) Vf Vg Vh) as (b & r & -> & Hst & Hvr & Hval). cbn.
  eexists _, _. split; [done|]. split; [by apply with_b_step|]. split; [done|].
  intros rho x a c Hr (? & [= <-] & Hx) (? & [= <-] & Ha) (? & [= <-] & Hb). exists r. split; [done|]. by apply Hval.
Qed.
Lemma mm_ite_step m f g h : mmwf I m → mm_valid m f → mm_valid m g → mm_valid m h → same_kind g h →
  ∃ m' r, mm_ite m f g h = Some (m', r) ∧ mmstep I m m'.
Proof.
  intros Hw Vf Vg Vh Hk. destruct g as [g|g], h as [h|h]; try done; destruct f as [f|f].
  - exists m, (NVal mt_undet). sp; try done.
  - destruct (mm_vite_l m f g h) as (m' & r & ? & ? & _); try done. by exists m', r.
  - exists m, (NBool mdd_undet). sp; try done.
  - destruct (mm_bite_l m f g h) as (m' & r & ? & ? & _); try done. by exists m', r.
Qed.
Lemma mm_vif_l m f g : mmwf I m → node_valid (bar m) f → node_valid (var m) g →
  ∃ m' r, mm_vif m f g = Some (m', r) ∧ mmstep I m m' ∧ node_valid (var m') r ∧
    ∀ rho x a, mm_range m rho → node_value (bar m) rho f x → node_value (var m) rho g a →
      node_value (var m') rho r (if decide (x = TOne) then a else VUndet).
Proof.
  intros Hw Vf Vg. destruct (nvalid_repr _ _ _ (wb _ Hw) Vf) as [df Hf]. destruct (nvalid_repr _ _ _ (wv _ Hw) Vg) as [dg Hg].
  destruct (mm_vif_ok I m f g df dg Hw Hf Hg) as (m' & r & dr & Heq & Hst & Hr & _ & Hp).
  exists m', r. sp; try done; [by eapply repr_live|]. intros rho x a Hrg Hx Ha.
  apply (nval_eval _ _ _ _ _ Hf) in Hx. apply (nval_eval _ _ _ _ _ Hg) in Ha. apply (nval_eval _ _ _ _ _ Hr).
  destruct (Hp rho Hrg) as (x' & a' & c & Hx' & Ha' & Hc & HR). simplify_eq. rewrite Hc, HR. by destruct x.
Qed.

Lemma map_node_id_v xs : Forall (λ x, ∃ f, x = NVal f) xs → ∃ cs, xs = map NVal cs ∧ map node_id xs = cs.
Proof.
  induction 1 as [|x xs [f ->] _ (cs & -> & IH)]; [by exists []|]. exists (f :: cs). cbn. by rewrite IH.
Qed.
Lemma map_node_id_b xs : Forall (λ x, ∃ f, x = NBool f) xs → ∃ cs, xs = map NBool cs ∧ map node_id xs = cs.
Proof.
  induction 1 as [|x xs [f ->] _ (cs & -> & IH)]; [by exists []|]. exists (f :: cs). cbn. by rewrite IH.
Qed.
Lemma fits_nonempty {T} (a : arena T) h cs : hcons (ar_headers a) → node_fits a h cs → cs ≠ [].
Proof.
  intros [Hp _] Hf ->. unfold node_fits in Hf. destruct (ar_headers a !! h) as [hd|] eqn:Hh; [|done].
  destruct Hf as [Hf _]. pose proof (Hp hd (elem_of_list_lookup_2 _ _ _ Hh)). cbn in Hf. lia.
Qed.
Lemma mm_create_node_l m h xs : mmwf I m → mm_fits m h xs →
  ∃ hd m' r, ar_headers (bar m) !! h = Some hd ∧ mm_create_node m h xs = Some (m', r) ∧ mmstep I m m' ∧ mm_valid m' r ∧
    (∀ rho x, xs !! rho (h_level hd) = Some x →
       (∀ t, mm_bool m rho x t → mm_bool m' rho r t) ∧ (∀ t, mm_int m rho x t → mm_int m' rho r t)).
Proof.
  intros Hw [[Hk Hf]|[Hk Hf]].
  - destruct (map_node_id_v xs Hk) as (cs & -> & Hcs). rewrite Hcs in Hf.
    assert (Hne : cs ≠ []).
    { eapply fits_nonempty; [|done]. rewrite (mmw_h _ _ Hw). by apply (mm_hc I). }
    destruct (tcreate_ok I (mm_v m) h cs (mmw_v _ _ Hw) Hf) as (hd & v & r & Hh & Heq & Hst & Hv & Hval).
    exists hd, (mm_with_v m v), (NVal r). rewrite <- (mmw_h _ _ Hw). split; [done|].
    unfold mm_create_node. rewrite Hcs, Heq. destruct cs as [|c cs]; [done|]. cbn [map]. split; [done|].
    split; [by apply with_v_step|]. split; [done|]. change (NVal c :: map NVal cs) with (map NVal (c :: cs)).
    intros rho x Hx. rewrite list_lookup_fmap in Hx. apply fmap_Some in Hx as (y & Hy & ->). split.
    + by intros t (? & ? & _).
    + intros t (? & [= <-] & Ht). exists r. split; [done|]. by eapply Hval.
  - destruct (map_node_id_b xs Hk) as (cs & -> & Hcs). rewrite Hcs in Hf.
    assert (Hne : cs ≠ []).
    { eapply fits_nonempty; [|done]. by apply (mm_hc I). }
    destruct (mcreate_ok (mm_b m) h cs (mmw_b _ _ Hw) Hf) as (hd & v & r & Hh & Heq & Hst & Hv & Hval).
    exists hd, (mm_with_b m v), (NBool r). split; [done|].
    unfold mm_create_node. rewrite Hcs, Heq. destruct cs as [|c cs]; [done|]. cbn [map]. split; [done|].
    split; [by apply with_b_step|]. split; [done|]. change (NBool c :: map NBool cs) with (map NBool (c :: cs)).
    intros rho x Hx. rewrite list_lookup_fmap in Hx. apply fmap_Some in Hx as (y & Hy & ->). split.
    + intros t (? & [= <-] & Ht). exists r. split; [done|]. by eapply Hval.
    + by intros t (? & ? & _).
Qed.

Lemma in_vroots roots f : NVal f ∈ roots ↔ f ∈ vroots roots.
Proof.
  unfold vroots. rewrite elem_of_list_omap. split.
  - intros H. by exists (NVal f).
  - intros ([x|x] & Hin & Hx); [|done]. by injection Hx as <-.
Qed.
Lemma in_broots roots f : NBool f ∈ roots ↔ f ∈ broots roots.
Proof.
  unfold broots. rewrite elem_of_list_omap. split.
  - intros H. by exists (NBool f).
  - intros ([x|x] & Hin & Hx); [done|]. by injection Hx as <-.
Qed.

Lemma mm_gc_l m roots : mmwf I m → Forall (mm_valid m) roots →
  ∃ m' nv nb, mm_gc m roots = Some (m', (nv, nb)) ∧ mmwf I m' ∧ ar_headers (bar m') = ar_headers (bar m) ∧
    (∀ x, mm_valid m' x ↔ x ∈ [mm_zero; mm_one; NBool mdd_undet; mm_undet_value] ∨ mm_reaches m roots x) ∧
    (∀ x rho, mm_valid m' x → (∀ t, mm_bool m' rho x t ↔ mm_bool m rho x t) ∧ (∀ t, mm_int m' rho x t ↔ mm_int m rho x t)) ∧
    (∀ lv lb, NoDup lv → NoDup lb → (∀ f, f ∈ lv ↔ mm_valid m' (NVal f)) → (∀ f, f ∈ lb ↔ mm_valid m' (NBool f)) →
       mm_live_node_count m' = length lv + length lb ∧
       nv + length lv = length (ar_nodes (var m)) ∧ nb + length lb = length (ar_nodes (bar m))).
Proof.
  intros Hw Hroots. rewrite Forall_forall in Hroots.
  destruct (mm_gc_ok I m roots Hw) as (m' & nv & nb & Heq & Hw' & Hh & Nb & Nv & Lb & Lv & Sb & Sv & Fv & Fb).
  { intros f Hf. by apply (Hroots _ Hf). }
  { intros f Hf. by apply (Hroots _ Hf). }
  assert (Hhv : ar_headers (var m') = ar_headers (var m)).
  { by rewrite (mmw_h _ _ Hw), (mmw_h _ _ Hw'). }
  exists m', nv, nb. sp; try done.
  - intros [f|f]; cbn [mm_valid mm_reaches]; rewrite nreaches_reach.
    + rewrite (Lv f : node_valid _ f ↔ _). rewrite elem_of_list_singleton. split.
      * intros [->|?]; [left|by right]. set_solver.
      * intros [H|?]; [left|by right]. unfold mm_zero, mm_one, mm_undet_value in H. set_solver.
    + rewrite (Lb f : node_valid _ f ↔ _). split.
      * intros [H|?]; [left|by right]. unfold mm_zero, mm_one. set_solver.
      * intros [H|?]; [left|by right]. unfold mm_zero, mm_one, mm_undet_value in H. set_solver.
  - intros x rho Hx. split; intros t; unfold mm_bool, mm_int.
    + split; intros (f & -> & Hf); exists f; (split; [done|]);
        (eapply (gc_value (bar m) (bar m')); [exact Hh|exact Nb|by apply wb|exact Sb|exact Hx|exact Hf]).
    + split; intros (f & -> & Hf); exists f; (split; [done|]);
        (eapply (gc_value (var m) (var m')); [exact Hhv|exact Nv|by apply wv|exact Sv|exact Hx|exact Hf]).
  - intros lv lb Dv Db Hv Hb.
    unfold mm_live_node_count, mt_live_node_count, mdd_live_node_count, ar_live_count.
    pose proof (a_free_count Rn (var m') lv (wv _ Hw') Dv Hv) as C1.
    pose proof (a_free_count Rn (bar m') lb (wb _ Hw') Db Hb) as C2. rewrite Nv in *. rewrite Nb in *. lia.
Qed.

Lemma mm_header_l m l s e : mmwf I m → header_fits (bar m) l e →
  ∃ m' h, mm_create_header m l s e = Some (m', h) ∧ mext m m' ∧
    ar_headers (bar m') = ar_headers (bar m) ++ [Header h l s e] ∧ h = length (ar_headers (bar m)).
Proof.
  intros Hw Hf. destruct (mm_create_header_ok I m l s e Hw (hfits_new _ _ _ Hf)) as (m' & Heq & Hw' & Eb & Ev & Hh & _).
  eexists _, _. sp; try done.
Qed.

(** ** reachability *)
Lemma mm_exec_ok m c m' : mmwf I m → mm_legal m c → mm_exec I m c = Some m' → mmwf I m' ∧ ((∀ r, c ≠ XGc r) → mext m m').
Proof.
  intros Hw Hl Heq.
  assert (Hstep : ∀ m', mmstep I m m' → mmwf I m' ∧ ((∀ r, c ≠ XGc r) → mext m m')).
  { intros m1 Hst. split; [apply Hst|]. intros _. by apply mmstep_mext. }
  destruct c as [l s e|z|h xs|f|o f g|o f g|c f g|f g h|f g|roots|]; cbn [mm_exec mm_legal] in *.
  - destruct (mm_header_l m l s e Hw Hl) as (m1 & h & Hc & He & _). rewrite Hc in Heq. injection Heq as <-.
    split; [apply He|done].
  - destruct (mm_value_l m z Hw) as (m1 & r & Hc & Hst & _). rewrite Hc in Heq. injection Heq as <-. by apply Hstep.
  - destruct (mm_create_node_l m h xs Hw Hl) as (hd & m1 & r & _ & Hc & Hst & _). rewrite Hc in Heq. injection Heq as <-.
    by apply Hstep.
  - destruct (mm_not_l m f Hw Hl) as (m1 & r & Hc & Hst & _). rewrite Hc in Heq. injection Heq as <-. by apply Hstep.
  - destruct Hl. destruct (mm_gate_l o m f g) as (m1 & r & Hc & Hst & _); try done.
    rewrite Hc in Heq. injection Heq as <-. by apply Hstep.
  - destruct Hl as [Hf Hg]. pose proof (mm_arith_l o m f g Hw Hf Hg) as Ha. destruct (mm_arith I o m f g) as [[m1 r]|]; [|done].
    injection Heq as <-. apply Hstep, Ha.
  - destruct Hl as [Hf Hg]. assert (c = Lte ∨ c ≠ Lte) as [->|Hne] by (destruct c; auto).
    + destruct (mm_lte_l m f g Hw Hf Hg) as (m1 & r & Hc & Hst & _). cbn [mm_cmp] in Heq. rewrite Hc in Heq.
      injection Heq as <-. by apply Hstep.
    + destruct (mm_cmp_l c m f g Hne Hw Hf Hg) as (m1 & r & Hc & Hst & _). rewrite Hc in Heq. injection Heq as <-. by apply Hstep.
  - destruct Hl as (Hf & Hg & Hh & Hk). destruct (mm_ite_step m f g h Hw Hf Hg Hh Hk) as (m1 & r & Hc & Hst).
    rewrite Hc in Heq. injection Heq as <-. by apply Hstep.
  - destruct Hl as [Hf Hg]. destruct (mm_vif_l m f g Hw Hf Hg) as (m1 & r & Hc & Hst & _). rewrite Hc in Heq. injection Heq as <-. by apply Hstep.
  - destruct (mm_gc_l m roots Hw Hl) as (m1 & nv & nb & Hc & Hw1 & _). rewrite Hc in Heq. injection Heq as <-.
    split; [done|]. intros Hn. by destruct (Hn roots).
  - injection Heq as <-. split; [by apply mm_clear_cache_ok|]. intros _. split; [by apply mm_clear_cache_ok|].
    split; apply ext_refl.
Qed.
Lemma mm_run_ok m cs m' : mmwf I m → mm_run I m cs = Some m' → mmwf I m'.
Proof.
  revert m. induction cs as [|c cs IH]; intros m Hw; cbn [mm_run]; [by intros [= <-]|].
  destruct (decide (mm_legal m c)) as [Hl|]; [|done].
  destruct (mm_exec I m c) as [m1|] eqn:He; [|done]. cbn [mbind option_bind]. apply IH. exact (proj1 (mm_exec_ok m c m1 Hw Hl He)).
Qed.
Lemma mm_reachable_wf m : mm_reachable I m → mmwf I m.
Proof. intros [cs Hcs]. eapply mm_run_ok; [apply mm_new_ok|done]. Qed.
Lemma mm_run_app m cs c m1 m2 : mm_run I m cs = Some m1 → mm_legal m1 c → mm_exec I m1 c = Some m2 →
  mm_run I m (cs ++ [c]) = Some m2.
Proof.
  revert m. induction cs as [|c' cs IH]; intros m; cbn [app mm_run].
  - intros [= ->] Hl He. rewrite decide_True by done. by rewrite He.
  - destruct (decide (mm_legal m c')); [|done]. destruct (mm_exec I m c') as [m'|]; [|done].
    cbn [mbind option_bind]. apply IH.
Qed.
Lemma mm_reachable_step m c m' : mm_reachable I m → mm_legal m c → mm_exec I m c = Some m' → mm_reachable I m'.
Proof. intros [cs Hcs] Hl He. exists (cs ++ [c]). by eapply mm_run_app. Qed.

Lemma mm_frame_l m c m' : mm_reachable I m → mm_legal m c → (∀ r, c ≠ XGc r) → mm_exec I m c = Some m' →
  ∀ x, mm_valid m x → mm_valid m' x ∧
    ∀ rho, (∀ t, mm_bool m rho x t → mm_bool m' rho x t) ∧ (∀ t, mm_int m rho x t → mm_int m' rho x t).
Proof.
  intros Hre Hl Hng Heq x Hv. pose proof (mm_reachable_wf _ Hre) as Hw.
  destruct (mm_exec_ok m c m' Hw Hl Heq) as [_ He]. specialize (He Hng).
  split; [by eapply mext_valid|]. intros rho. split; intros t; [by eapply mext_bool|by eapply mext_int].
Qed.

(** ** held handles *)
Lemma mm_held_ok m H : mm_held I m H → mmwf I m ∧ ∀ x F, (x, F) ∈ H → mm_denotes m x F.
Proof.
  assert (Hext : ∀ m m' (H : list (mnode * mfun)), mmwf I m → mext m m' →
    (∀ x F, (x, F) ∈ H → mm_denotes m x F) → ∀ x F, (x, F) ∈ H → mm_denotes m' x F).
  { intros m1 m2 H1 Hw1 He Hold x F Hin. eapply mext_denotes; [exact Hw1|exact He|by apply Hold]. }
  assert (Hcons : ∀ m m' r F (H : list (mnode * mfun)), mmwf I m → mext m m' → mm_denotes m' r F →
    (∀ x F, (x, F) ∈ H → mm_denotes m x F) →
    mmwf I m' ∧ ∀ x F', (x, F') ∈ (r, F) :: H → mm_denotes m' x F').
  { intros m1 m2 r F H1 Hw He Hd Hold. split; [apply He|].
    intros x F' [[= -> ->]|Hin]%elem_of_cons; [done|]. by eapply Hext. }
  assert (Hb : ∀ m x F, mm_denotes m x (FB F) → ∀ rho, mm_range m rho → ∃ f, x = NBool f ∧ mm_bool m rho (NBool f) (tvb (F rho))).
  { intros m1 x F [_ Hd] rho Hr. destruct (Hd rho Hr) as (f & -> & Hf). exists f. split; [done|]. by exists f. }
  assert (Hk : ∀ m x F, mmwf I m → mm_denotes m x F →
    match F with FB _ => ∃ f, x = NBool f | FV _ => ∃ f, x = NVal f end).
  { intros m1 x F Hw [_ Hd]. specialize (Hd (λ _, 0)).
    assert (Hr : mm_range m1 (λ _, 0)) by (apply (vokh_zero _), (mm_hc I _ Hw)).
    specialize (Hd Hr). destruct F; destruct Hd as (f & -> & _); eauto. }
  induction 1 as [|m H _ [Hw IH]|m H _ [Hw IH]|m H _ [Hw IH]|m H z m' r _ [Hw IH] Heq
    |m H l s e m' h _ [Hw IH] Hf Heq
    |m H h hd xs Fs m' r _ [Hw IH] Hf HFs Hh Heq|m H h hd xs Fs m' r _ [Hw IH] Hf HFs Hh Heq
    |m H f F m' r _ [Hw IH] Hf Heq|o m H f g F G m' r _ [Hw IH] Hf Hg Heq
    |o m H f g F G m' r _ [Hw IH] Hf Hg Hno Heq|c m H f g F G m' r _ [Hw IH] Hf Hg Hne Heq
    |m H c m' _ [Hw IH] Hl Hng Heq
    |m H f g h F G K m' r _ [Hw IH] Hf Hg Hh Heq|m H f g h F G K m' r _ [Hw IH] Hf Hg Hh Heq
    |m H _ [Hw IH]|m H roots H' m' n _ [Hw IH] Hroots Heq Hsub].
  - split; [apply mm_new_ok|]. intros x F Hin. by apply elem_of_nil in Hin.
  - pose proof (mg_zero _ (mw_good _ (mmw_b _ _ Hw))) as Hz. eapply (Hcons m); [exact Hw|by apply mext_refl| |exact IH].
    split; [by eapply repr_live|]. intros rho _. exists mdd_zero. split; [done|]. by apply (nval_eval _ _ _ _ _ Hz).
  - pose proof (mg_one _ (mw_good _ (mmw_b _ _ Hw))) as Hz. eapply (Hcons m); [exact Hw|by apply mext_refl| |exact IH].
    split; [by eapply repr_live|]. intros rho _. exists mdd_one. split; [done|]. by apply (nval_eval _ _ _ _ _ Hz).
  - pose proof (tg_undet _ _ (tw_good _ _ (mmw_v _ _ Hw))) as Hz. eapply (Hcons m); [exact Hw|by apply mext_refl| |exact IH].
    split; [by eapply repr_live|]. intros rho _. exists mt_undet. split; [done|]. by apply (nval_eval _ _ _ _ _ Hz).
  - destruct (mm_value_l m z Hw) as (m1 & r1 & Hc & Hst & Hv & Hval). rewrite Heq in Hc. injection Hc as <- <-.
    eapply (Hcons m); [exact Hw|by apply mmstep_mext| |exact IH]. split; [done|]. intros rho _. apply Hval.
  - destruct (mm_header_l m l s e Hw Hf) as (m1 & h1 & Hc & He & _). rewrite Heq in Hc. injection Hc as <- <-.
    split; [apply He|]. by eapply Hext.
  - destruct (mm_create_node_l m h xs Hw Hf) as (hd1 & m1 & r1 & Hh1 & Hc & Hst & Hv & Hval).
    rewrite Heq in Hc. injection Hc as <- <-. rewrite Hh in Hh1. injection Hh1 as <-.
    eapply (Hcons m); [exact Hw|by apply mmstep_mext| |exact IH]. split; [done|]. intros rho Hr.
    assert (Hr0 : mm_range m rho) by (eapply mext_range; [by apply mmstep_mext|done]).
    assert (Hlen : length xs = h_edges hd).
    { destruct Hf as [[_ Hf]|[_ Hf]]; unfold node_fits in Hf; [rewrite (mmw_h _ _ Hw) in Hf|]; rewrite Hh, map_length in Hf; apply Hf. }
    destruct (lookup_lt_is_Some_2 xs (rho (h_level hd))) as [x Hx].
    { rewrite Hlen. apply Hr0. by eapply elem_of_list_lookup_2. }
    destruct (Forall2_lookup_l _ _ _ _ _ HFs Hx) as (F & HF & Hin). unfold mux. rewrite HF.
    apply (Hval rho x Hx). destruct (IH _ _ Hin) as [_ Hd]. by apply Hd.
  - destruct (mm_create_node_l m h xs Hw Hf) as (hd1 & m1 & r1 & Hh1 & Hc & Hst & Hv & Hval).
    rewrite Heq in Hc. injection Hc as <- <-. rewrite Hh in Hh1. injection Hh1 as <-.
    eapply (Hcons m); [exact Hw|by apply mmstep_mext| |exact IH]. split; [done|]. intros rho Hr.
    assert (Hr0 : mm_range m rho) by (eapply mext_range; [by apply mmstep_mext|done]).
    assert (Hlen : length xs = h_edges hd).
    { destruct Hf as [[_ Hf]|[_ Hf]]; unfold node_fits in Hf; [rewrite (mmw_h _ _ Hw) in Hf|]; rewrite Hh, map_length in Hf; apply Hf. }
    destruct (lookup_lt_is_Some_2 xs (rho (h_level hd))) as [x Hx].
    { rewrite Hlen. apply Hr0. by eapply elem_of_list_lookup_2. }
    destruct (Forall2_lookup_l _ _ _ _ _ HFs Hx) as (F & HF & Hin). unfold mux. rewrite HF.
    apply (Hval rho x Hx). destruct (IH _ _ Hin) as [_ Hd]. by apply Hd.
  - destruct (IH _ _ Hf) as [Vf Df]. destruct (mm_not_l m f Hw Vf) as (m1 & r1 & Hc & Hst & Hv & Hval).
    rewrite Heq in Hc. injection Hc as <- <-. pose proof (mmstep_mext _ _ Hst) as He.
    eapply (Hcons m); [exact Hw|exact He| |exact IH]. split; [done|]. intros rho Hr.
    pose proof (mext_range _ _ _ He Hr). apply Hval; [done|]. by apply Df.
  - destruct (IH _ _ Hf) as [Vf Df]. destruct (IH _ _ Hg) as [Vg Dg].
    destruct (mm_gate_l o m f g Hw Vf Vg) as (m1 & r1 & Hc & Hst & Hv & Hval).
    rewrite Heq in Hc. injection Hc as <- <-. pose proof (mmstep_mext _ _ Hst) as He.
    eapply (Hcons m); [exact Hw|exact He| |exact IH]. split; [done|]. intros rho Hr.
    pose proof (mext_range _ _ _ He Hr). apply Hval; [done|by apply Df|by apply Dg].
  - destruct (IH _ _ Hf) as [Vf Df]. destruct (IH _ _ Hg) as [Vg Dg].
    pose proof (mm_arith_l o m f g Hw Vf Vg) as Ha. rewrite Heq in Ha. destruct Ha as (Hst & Hv & Hval).
    pose proof (mmstep_mext _ _ Hst) as He. eapply (Hcons m); [exact Hw|exact He| |exact IH]. split; [done|]. intros rho Hr.
    pose proof (mext_range _ _ _ He Hr). apply Hval; [done|by apply Df|by apply Dg|by apply Hno].
  - destruct (IH _ _ Hf) as [Vf Df]. destruct (IH _ _ Hg) as [Vg Dg].
    destruct (mm_cmp_l c m f g Hne Hw Vf Vg) as (m1 & r1 & Hc & Hst & Hv & Hval).
    rewrite Heq in Hc. injection Hc as <- <-. pose proof (mmstep_mext _ _ Hst) as He.
    eapply (Hcons m); [exact Hw|exact He| |exact IH]. split; [done|]. intros rho Hr.
    pose proof (mext_range _ _ _ He Hr). apply Hval; [done|by apply Df|by apply Dg].
  - destruct (mm_exec_ok m c m' Hw Hl Heq) as [Hw' He]. specialize (He Hng). split; [done|].
    eapply Hext; [exact Hw|exact He|done].
  - destruct (Hk _ _ _ Hw (IH _ _ Hf)) as [f' ->]. destruct (Hk _ _ _ Hw (IH _ _ Hg)) as [g' ->].
    destruct (Hk _ _ _ Hw (IH _ _ Hh)) as [h' ->].
    destruct (IH _ _ Hf) as [Vf Df]. destruct (IH _ _ Hg) as [Vg Dg]. destruct (IH _ _ Hh) as [Vh Dh].
    destruct (mm_vite_l m f' g' h' Hw Vf Vg Vh) as (m1 & r1 & Hc & Hst & Hv & Hval).
    rewrite Heq in Hc. injection Hc as <- <-. pose proof (mmstep_mext _ _ Hst) as He.
    eapply (Hcons m); [exact Hw|exact He| |exact IH]. split; [done|]. intros rho Hr.
    pose proof (mext_range _ _ _ He Hr). apply Hval; [done|by apply Df|by apply Dg|by apply Dh].
  - destruct (Hk _ _ _ Hw (IH _ _ Hf)) as [f' ->]. destruct (Hk _ _ _ Hw (IH _ _ Hg)) as [g' ->].
    destruct (Hk _ _ _ Hw (IH _ _ Hh)) as [h' ->].
    destruct (IH _ _ Hf) as [Vf Df]. destruct (IH _ _ Hg) as [Vg Dg]. destruct (IH _ _ Hh) as [Vh Dh].
    destruct (mm_bite_l m f' g' h' Hw Vf Vg Vh) as (m1 & r1 & Hc & Hst & Hv & Hval).
    rewrite Heq in Hc. injection Hc as <- <-. pose proof (mmstep_mext _ _ Hst) as He.
    eapply (Hcons m); [exact Hw|exact He| |exact IH]. split; [done|]. intros rho Hr.
    pose proof (mext_range _ _ _ He Hr) as Hr0. pose proof (Hval rho (F rho) _ _ Hr0 (Df _ Hr0) (Dg _ Hr0) (Dh _ Hr0)).
    by destruct (F rho).
  - split; [by apply mm_clear_cache_ok|]. eapply Hext; [exact Hw| |done].
    split; [by apply mm_clear_cache_ok|]. split; apply ext_refl.
  - destruct (mm_gc_l m roots Hw Hroots) as (m1 & nv & nb & Hc & Hw1 & Hhd & Hv & Hval & _).
    rewrite Heq in Hc. injection Hc as <- ->. split; [done|]. intros x F Hin.
    destruct (Hsub _ Hin) as [Hin' Hrch]. cbn in Hrch. destruct (IH _ _ Hin') as [_ Hd].
    assert (Hvx : mm_valid m' x) by (apply Hv; by right). split; [done|]. intros rho Hr.
    assert (Hr0 : mm_range m rho) by (unfold mm_range, in_range; by rewrite <- Hhd).
    specialize (Hd rho Hr0). destruct F; by apply (Hval x rho Hvx).
Qed.
End mm.
