(** C25 - C31: the boolean MDD manager, the value MTMDD manager and the combined manager. *)
From Coq Require Import String.
From Verif Require Import Prelude ComputeCache Arena Trees ArenaProofs Bdd Mdd MtMdd MtMdd2.
From Verif Require Import SpecBdd SpecMdd NaryProofs MddProofs MtProofs MmProofs MddMain MmMain.

Lemma walk_value {T} (a : arena T) rho n id t : walk a rho n id = Some t → node_value a rho id t.
Proof.
  revert id. induction n as [|n IH]; intros id; cbn [walk]; [done|].
  destruct (ar_nodes a !! id) as [[s|h cs]|] eqn:Hn; [|destruct (ar_headers a !! h) as [hd|] eqn:Hh; [|done]|done].
  - intros [= <-]. by constructor.
  - cbn [mbind option_bind]. destruct (cs !! rho (h_level hd)) as [c|] eqn:Hc; [|done]. cbn [mbind option_bind].
    intros H. eapply nv_node; eauto.
Qed.

(** ** C25 *)
Theorem c25_connectives m c f g : mdd_reachable m → node_valid (d_ar m) f → node_valid (d_ar m) g →
  ∃ m' r, mdd_conn c m f g = Some (m', r) ∧ node_valid (d_ar m') r ∧
    ∀ rho x y, in_range (d_ar m) rho → node_value (d_ar m) rho f (tvb x) → node_value (d_ar m) rho g (tvb y) →
      node_value (d_ar m') rho r (tvb (conn_bool c x y)).
Proof. exact (mconn_l m c f g). Qed.
Print Assumptions c25_connectives.

Theorem c25_not m f : mdd_reachable m → node_valid (d_ar m) f →
  ∃ m' r, mdd_not m f = Some (m', r) ∧ node_valid (d_ar m') r ∧
    ∀ rho x, in_range (d_ar m) rho → node_value (d_ar m) rho f (tvb x) → node_value (d_ar m') rho r (tvb (negb x)).
Proof. exact (mnot_l m f). Qed.
Print Assumptions c25_not.

Theorem c25_ite m f g h :
  mdd_reachable m → node_valid (d_ar m) f → node_valid (d_ar m) g → node_valid (d_ar m) h →
  ∃ m' r, mdd_ite m f g h = Some (m', r) ∧ node_valid (d_ar m') r ∧
    ∀ rho x b c, in_range (d_ar m) rho → node_value (d_ar m) rho f (tvb x) →
      node_value (d_ar m) rho g b → node_value (d_ar m) rho h c →
      node_value (d_ar m') rho r (if x then b else c).
Proof. exact (mite_l m f g h). Qed.
Print Assumptions c25_ite.

Theorem c25_replace m f g : mdd_reachable m → node_valid (d_ar m) f → node_valid (d_ar m) g →
  ∃ m' r, mdd_replace m f g = Some (m', r) ∧ node_valid (d_ar m') r ∧
    ∀ rho a b, in_range (d_ar m) rho → node_value (d_ar m) rho f a → node_value (d_ar m) rho g b →
      node_value (d_ar m') rho r (if decide (a = TUndet) then b else a).
Proof. exact (mreplace_l m f g). Qed.
Print Assumptions c25_replace.

(** [x] with 3 states at level 0, [y] with 2 at level 1; node 3 is "x = 1", node 4 "y > 0", node 5 is
    undetermined at x = 0, false at x = 1, true at x = 2 *)
Definition ex_mdd : list mdd_call :=
  [DHeader 0 "x" 3; DHeader 1 "y" 2; DNode 0 [0; 1; 0]; DNode 1 [0; 1]; DNode 0 [2; 0; 1]].
Definition two (i j : nat) : nat → nat := λ l, if decide (l = 0) then i else j.
Definition table {T} (a : arena T) (id : nat) : list (list (option T)) :=
  map (λ i, map (λ j, walk a (two i j) 10 id) [0; 1]) [0; 1; 2].
Example c25_ex : (m ← mdd_run mdd_new ex_mdd; '(m1, r) ← mdd_conn Or m 3 4; '(m2, s) ← mdd_not m1 r;
    '(m3, t) ← mdd_ite m2 3 4 s; '(m4, u) ← mdd_replace m3 5 4;
    Some (table (d_ar m1) r, table (d_ar m2) s, table (d_ar m3) t, table (d_ar m4) u)) =
  Some ([[Some TZero; Some TOne]; [Some TOne; Some TOne]; [Some TZero; Some TOne]],
        [[Some TOne; Some TZero]; [Some TZero; Some TZero]; [Some TOne; Some TZero]],
        [[Some TOne; Some TZero]; [Some TZero; Some TOne]; [Some TOne; Some TZero]],
        [[Some TZero; Some TOne]; [Some TZero; Some TZero]; [Some TOne; Some TOne]]).
Proof. vm_compute. done. Qed.

(** ** C26 *)
Theorem c26_canonical_mdd m f g :
  mdd_reachable m → levels_distinct (d_ar m) → node_valid (d_ar m) f → node_valid (d_ar m) g →
  f = g ↔ (∀ rho t, in_range (d_ar m) rho → node_value (d_ar m) rho f t ↔ node_value (d_ar m) rho g t).
Proof. exact (mcanon_l m f g). Qed.
Print Assumptions c26_canonical_mdd.

Theorem c26_canonical_mtmdd I m f g :
  mt_reachable I m → levels_distinct (t_ar m) → node_valid (t_ar m) f → node_valid (t_ar m) g →
  f = g ↔ (∀ rho t, in_range (t_ar m) rho → node_value (t_ar m) rho f t ↔ node_value (t_ar m) rho g t).
Proof. exact (tcanon_l I m f g). Qed.
Print Assumptions c26_canonical_mtmdd.

(** Every live node has exactly one value at every assignment in range. *)
Theorem c26_value_mdd m rho f : mdd_reachable m → in_range (d_ar m) rho → node_valid (d_ar m) f →
  ∃ t, node_value (d_ar m) rho f t ∧ ∀ t', node_value (d_ar m) rho f t' → t' = t.
Proof.
  intros Hm Hr Hv. destruct (mtotal_l m rho f Hm Hr Hv) as [t Ht]. exists t. split; [done|].
  intros t' Ht'. by eapply nval_fun.
Qed.
Print Assumptions c26_value_mdd.
Theorem c26_value_mtmdd I m rho f : mt_reachable I m → in_range (t_ar m) rho → node_valid (t_ar m) f →
  ∃ t, node_value (t_ar m) rho f t ∧ ∀ t', node_value (t_ar m) rho f t' → t' = t.
Proof.
  intros Hm Hr Hv. destruct (ttotal_l I m rho f Hm Hr Hv) as [t Ht]. exists t. split; [done|].
  intros t' Ht'. by eapply nval_fun.
Qed.
Print Assumptions c26_value_mtmdd.

(** not (x or y) and (not x) and (not y) get the same id *)
Example c26_ex : (m ← mdd_run mdd_new ex_mdd; '(m, r) ← mdd_conn Or m 3 4; '(m, a) ← mdd_not m r;
    '(m, x) ← mdd_not m 3; '(m, y) ← mdd_not m 4; '(m, b) ← mdd_conn And m x y;
    Some (bool_decide (levels_distinct (d_ar m)), bool_decide (a = b), bool_decide (a = r))) =
  Some (true, true, false).
Proof. vm_compute. done. Qed.

(** ** C27 *)
Theorem c27_arithmetic I m o f g : mt_reachable I m → node_valid (t_ar m) f → node_valid (t_ar m) g →
  (∀ rho a b, in_range (t_ar m) rho → node_value (t_ar m) rho f a → node_value (t_ar m) rho g b →
     no_overflow I o a b) →
  ∃ m' r, mt_bin I o m f g = Some (m', r) ∧ node_valid (t_ar m') r ∧
    ∀ rho a b, in_range (t_ar m) rho → node_value (t_ar m) rho f a → node_value (t_ar m) rho g b →
      node_value (t_ar m') rho r (arith_vt o a b).
Proof. exact (tarith_l I m o f g). Qed.
Print Assumptions c27_arithmetic.

(** Overflow elsewhere does not spoil the assignments where nothing overflows, if the call returns at all. *)
Theorem c27_arithmetic_at I m o f g m' r :
  mt_reachable I m → node_valid (t_ar m) f → node_valid (t_ar m) g → mt_bin I o m f g = Some (m', r) →
  ∀ rho a b, in_range (t_ar m) rho → node_value (t_ar m) rho f a → node_value (t_ar m) rho g b →
    no_overflow I o a b → node_value (t_ar m') rho r (arith_vt o a b).
Proof. exact (tarith_at_l I m o f g m' r). Qed.
Print Assumptions c27_arithmetic_at.

(** 32-bit integers, with or without overflow checks *)
Lemma ovf_id I z : I = i32_checked ∨ I = i32_wrapping → in_i32 z → vi_ovf I z = Some z.
Proof.
  intros [->| ->] Hz; cbn [vi_ovf i32_checked i32_wrapping].
  - by rewrite decide_True.
  - f_equal. unfold in_i32, i32_min, i32_max in *. rewrite Z.mod_small; lia.
Qed.
Lemma fits_no_overflow I o a b : I = i32_checked ∨ I = i32_wrapping → fits_i32 o a b → no_overflow I o a b.
Proof.
  intros HI Hf. assert (Hmin : vi_min I = i32_min) by (by destruct HI as [->| ->]).
  unfold fits_i32 in Hf. destruct o, a as [|x], b as [|y]; cbn in *; try done; try (by apply ovf_id);
    intros [-> ->]; rewrite Hmin in *; vm_compute in Hf; destruct Hf as [_ Hf]; by apply Hf.
Qed.
Theorem c27_arithmetic_i32 I m o f g : I = i32_checked ∨ I = i32_wrapping →
  mt_reachable I m → node_valid (t_ar m) f → node_valid (t_ar m) g →
  (∀ rho a b, in_range (t_ar m) rho → node_value (t_ar m) rho f a → node_value (t_ar m) rho g b → fits_i32 o a b) →
  ∃ m' r, mt_bin I o m f g = Some (m', r) ∧ node_valid (t_ar m') r ∧
    ∀ rho a b, in_range (t_ar m) rho → node_value (t_ar m) rho f a → node_value (t_ar m) rho g b →
      node_value (t_ar m') rho r (arith_vt o a b).
Proof.
  intros HI Hm Vf Vg Hno. apply tarith_l; try done. intros rho a b Hr Ha Hb. apply fits_no_overflow; [done|]. by eapply Hno.
Qed.
Print Assumptions c27_arithmetic_i32.

(** [x] (3 states) takes the values 7, -2, undetermined; [y] (2 states) the values 0, 3 *)
Definition ex_mt : list mt_call :=
  [THeader 0 "x" 3; THeader 1 "y" 2; TValue 7; TValue (-2); TValue 0; TValue 3; TNode 0 [1; 2; 0]; TNode 1 [3; 4]].
Example c27_ex : (m ← mt_run i32_checked mt_new ex_mt;
    '(m1, r) ← mt_bin i32_checked VMul m 5 6; '(m2, s) ← mt_bin i32_checked VDiv m1 5 6; '(m3, t) ← mt_bin i32_checked VRem m2 5 6;
    Some (table (t_ar m1) r, table (t_ar m2) s, table (t_ar m3) t)) =
  Some ([[Some (VVal 0); Some (VVal 21)]; [Some (VVal 0); Some (VVal (-6))]; [Some VUndet; Some VUndet]],
        [[Some VUndet; Some (VVal 2)]; [Some VUndet; Some (VVal 0)]; [Some VUndet; Some VUndet]],
        [[Some VUndet; Some (VVal 1)]; [Some VUndet; Some (VVal (-2))]; [Some VUndet; Some VUndet]]).
Proof. vm_compute. done. Qed.
(** overflow panics or wraps: the hypothesis of the theorem is needed *)
Example c27_ex_overflow :
  (m ← mt_run i32_checked mt_new [TValue 2147483647; TValue 1]; mt_bin i32_checked VAdd m 1 2) = None ∧
  (m ← mt_run i32_wrapping mt_new [TValue 2147483647; TValue 1]; '(m, r) ← mt_bin i32_wrapping VAdd m 1 2;
     Some (walk (t_ar m) (two 0 0) 3 r)) = Some (Some (VVal (-2147483648))).
Proof. split; by vm_compute. Qed.

(** ** C28: every comparison except [lte] *)
Theorem c28_comparisons_partial I c m f g : c ≠ Lte → mm_reachable I m → mm_valid m f → mm_valid m g →
  ∃ m' r, mm_cmp c m f g = Some (m', r) ∧ mm_valid m' r ∧
    ∀ rho x y, mm_range m rho → mm_int m rho f (VVal x) → mm_int m rho g (VVal y) →
      mm_bool m' rho r (tvb (cmp_z c x y)).
Proof.
  intros Hne Hm Vf Vg. destruct (mm_cmp_l I c m f g Hne (mm_reachable_wf _ _ Hm) Vf Vg) as (m' & r & ? & _ & ? & H).
  exists m', r. split; [done|]. split; [done|]. intros rho x y Hr Hx Hy. exact (H rho _ _ Hr Hx Hy).
Qed.
Print Assumptions c28_comparisons_partial.

(** Where a side is undetermined: eq, lt, gt give false, neq and gte give true. *)
Theorem c28_comparisons_undetermined I c m f g m' r : c ≠ Lte → mm_reachable I m → mm_valid m f → mm_valid m g →
  mm_cmp c m f g = Some (m', r) →
  ∀ rho a b, mm_range m rho → mm_int m rho f a → mm_int m rho g b → a = VUndet ∨ b = VUndet →
    mm_bool m' rho r (match c with Neq | Gte => TOne | _ => TZero end).
Proof.
  intros Hne Hm Vf Vg Heq rho a b Hr Ha Hb Hu.
  destruct (mm_cmp_l I c m f g Hne (mm_reachable_wf _ _ Hm) Vf Vg) as (m1 & r1 & Heq' & _ & _ & H).
  rewrite Heq in Heq'. injection Heq' as <- <-. specialize (H rho a b Hr Ha Hb).
  destruct c; try done; destruct Hu as [-> | ->]; try done; destruct a; done.
Qed.
Print Assumptions c28_comparisons_undetermined.

(** eq and neq of two boolean diagrams *)
Theorem c28_boolean_eq I m f g : mm_reachable I m → mm_valid m f → mm_valid m g →
  (∃ m' r, mm_eq m f g = Some (m', r) ∧ mm_valid m' r ∧ ∀ rho x y, mm_range m rho →
     mm_bool m rho f (tvb x) → mm_bool m rho g (tvb y) → mm_bool m' rho r (tvb (eqb x y))) ∧
  (∃ m' r, mm_neq m f g = Some (m', r) ∧ mm_valid m' r ∧ ∀ rho x y, mm_range m rho →
     mm_bool m rho f (tvb x) → mm_bool m rho g (tvb y) → mm_bool m' rho r (tvb (negb (eqb x y)))).
Proof.
  intros Hm Vf Vg. destruct (mm_beq_l I m f g (mm_reachable_wf _ _ Hm) Vf Vg) as [(m1 & r1 & ? & _ & ?) (m2 & r2 & ? & _ & ?)].
  split; [by exists m1, r1|by exists m2, r2].
Qed.
Print Assumptions c28_boolean_eq.

(** [x] with states 0, 1; the constant 1 *)
Definition ex_mm : list mm_call :=
  [XHeader 0 "x" 2; XValue 0; XValue 1; XNode 0 [NVal 1; NVal 2]].
Definition mtable (m : mm) (x : mnode) : list (option tv) :=
  match x with NBool f => map (λ i, walk (d_ar (mm_b m)) (two i 0) 9 f) [0; 1] | NVal _ => [] end.
Example c28_ex : (m ← mm_run i32_checked mm_new ex_mm;
    '(m1, a) ← mm_cmp Eq m (NVal 3) (NVal 2); '(m2, b) ← mm_cmp Neq m1 (NVal 3) (NVal 2); '(m3, c) ← mm_cmp Lt m2 (NVal 3) (NVal 2);
    '(m4, d) ← mm_cmp Gt m3 (NVal 3) (NVal 1); '(m5, e) ← mm_cmp Gte m4 (NVal 3) (NVal 2); '(m6, l) ← mm_cmp Lte m5 (NVal 3) (NVal 2);
    Some (mtable m1 a, mtable m2 b, mtable m3 c, mtable m4 d, mtable m5 e, mtable m6 l)) =
  Some ([Some TZero; Some TOne], [Some TOne; Some TZero], [Some TOne; Some TZero],
        [Some TZero; Some TOne], [Some TZero; Some TOne], (* wrong: *) [Some TOne; Some TZero]).
Proof. vm_compute. done. Qed.

(** [lte] is wrong: with [x] ranging over 0, 1 and the constant 1, [lte(x, 1)] is false at [x = 1]. *)
Lemma some7_inj {A B C D E F G} (a a' : A) (b b' : B) (c c' : C) (d d' : D) (e e' : E) (f f' : F) (g g' : G) :
  Some (a, (b, c, d, e, f, g)) = Some (a', (b', c', d', e', f', g')) →
  a = a' ∧ b = b' ∧ c = c' ∧ d = d' ∧ e = e' ∧ f = f' ∧ g = g'.
Proof. by intros [= -> -> -> -> -> -> ->]. Qed.
Theorem c28_lte_refuted : ∃ m f g m' r rho x y,
  mm_reachable i32_checked m ∧ mm_valid m f ∧ mm_valid m g ∧ mm_cmp Lte m f g = Some (m', r) ∧
  mm_range m rho ∧ mm_int m rho f (VVal x) ∧ mm_int m rho g (VVal y) ∧
  cmp_z Lte x y = true ∧ mm_bool m' rho r TZero.
Proof.
  assert (H : (m ← mm_run i32_checked mm_new ex_mm; '(m', r) ← mm_cmp Lte m (NVal 3) (NVal 2);
    Some (r, (bool_decide (mm_valid m (NVal 3)), bool_decide (mm_valid m (NVal 2)),
          walk (t_ar (mm_v m)) (two 1 0) 9 3, walk (t_ar (mm_v m)) (two 1 0) 9 2,
          walk (d_ar (mm_b m')) (two 1 0) 9 (node_id r), map (λ hd, (h_level hd, h_edges hd)) (ar_headers (d_ar (mm_b m)))))) =
    Some (NBool 4, (true, true, Some (VVal 1), Some (VVal 1), Some TZero, [(0, 2)]))) by (vm_compute; reflexivity).
  destruct (mm_run i32_checked mm_new ex_mm) as [m|] eqn:Hrun; [|done]. cbn [mbind option_bind] in H.
  destruct (mm_cmp Lte m (NVal 3) (NVal 2)) as [[m' r]|] eqn:Hc; [|done]. cbn [mbind option_bind] in H.
  apply some7_inj in H as (-> & Hv3 & Hv2 & H1 & H2 & Hr & Hhd).
  exists m, (NVal 3), (NVal 2), m', (NBool 4), (two 1 0), 1%Z, 1%Z.
  apply bool_decide_eq_true in Hv3, Hv2. sp; try done.
  - by eexists.
  - intros hd Hin. assert (Hin' : (h_level hd, h_edges hd) ∈ map (λ hd, (h_level hd, h_edges hd)) (ar_headers (d_ar (mm_b m)))).
    { by apply (elem_of_list_fmap_1 (λ hd, (h_level hd, h_edges hd))). }
    rewrite Hhd in Hin'. apply elem_of_list_singleton in Hin'. injection Hin' as -> ->. unfold two. rewrite decide_True by done. lia.
  - exists 3. split; [done|]. eapply walk_value; eassumption.
  - exists 2. split; [done|]. eapply walk_value; eassumption.
  - exists 4. split; [done|]. eapply walk_value; eassumption.
Qed.
Print Assumptions c28_lte_refuted.

(** What holds of [lte]: it is right wherever the two values differ, and right everywhere if the two
    diagrams agree everywhere.  Missing: assignments where the values agree, when they do not agree everywhere
    (there it answers false, above). *)
Theorem c28_lte_partial I m f g : mm_reachable I m → mm_valid m f → mm_valid m g →
  ∃ m' r, mm_cmp Lte m f g = Some (m', r) ∧ mm_valid m' r ∧
    ∀ rho x y, mm_range m rho → mm_int m rho f (VVal x) → mm_int m rho g (VVal y) →
      (x ≠ y → mm_bool m' rho r (tvb (cmp_z Lte x y))) ∧
      ((∀ rho' a b, mm_range m rho' → mm_int m rho' f a → mm_int m rho' g b → cmp_vt Eq a b = true) →
       levels_distinct (d_ar (mm_b m)) → mm_bool m' rho r TOne).
Proof.
  intros Hm Vf Vg. destruct (mm_lte_l I m f g (mm_reachable_wf _ _ Hm) Vf Vg) as (m' & r & ? & _ & ? & ?).
  by exists m', r.
Qed.
Print Assumptions c28_lte_partial.

(** ** C29 *)
Theorem c29_value_ite I m f g h :
  mm_reachable I m → mm_valid m (NBool f) → mm_valid m (NVal g) → mm_valid m (NVal h) →
  ∃ m' r, mm_ite m (NBool f) (NVal g) (NVal h) = Some (m', r) ∧ mm_valid m' r ∧
    ∀ rho x a b, mm_range m rho → mm_bool m rho (NBool f) (tvb x) → mm_int m rho (NVal g) a → mm_int m rho (NVal h) b →
      mm_int m' rho r (if x then a else b).
Proof.
  intros Hm Vf Vg Vh. destruct (mm_vite_l I m f g h (mm_reachable_wf _ _ Hm) Vf Vg Vh) as (m' & r & ? & _ & ?).
  by exists m', r.
Qed.
Print Assumptions c29_value_ite.
Theorem c29_boolean_ite I m f g h :
  mm_reachable I m → mm_valid m (NBool f) → mm_valid m (NBool g) → mm_valid m (NBool h) →
  ∃ m' r, mm_ite m (NBool f) (NBool g) (NBool h) = Some (m', r) ∧ mm_valid m' r ∧
    ∀ rho x a b, mm_range m rho → mm_bool m rho (NBool f) (tvb x) → mm_bool m rho (NBool g) a → mm_bool m rho (NBool h) b →
      mm_bool m' rho r (if x then a else b).
Proof.
  intros Hm Vf Vg Vh. destruct (mm_bite_l I m f g h (mm_reachable_wf _ _ Hm) Vf Vg Vh) as (m' & r & ? & _ & ?).
  by exists m', r.
Qed.
Print Assumptions c29_boolean_ite.

(** if x = 1 then 5 else x + 7 *)
Example c29_ex : (m ← mm_run i32_checked mm_new (ex_mm ++ [XValue 7; XValue 5]); '(m1, c) ← mm_cmp Eq m (NVal 3) (NVal 2);
    '(m2, s) ← mm_arith i32_checked VAdd m1 (NVal 3) (NVal 4); '(m3, r) ← mm_ite m2 c (NVal 5) s;
    Some (map (λ i, walk (t_ar (mm_v m3)) (two i 0) 9 (node_id r)) [0; 1])) = Some [Some (VVal 7); Some (VVal 5)].
Proof. vm_compute. done. Qed.

(** ** C30 *)
Theorem c30_gc_mdd m roots : mdd_reachable m → Forall (node_valid (d_ar m)) roots →
  ∃ m' n, mdd_gc m roots = Some (m', n) ∧ mdd_reachable m' ∧
    (∀ id, node_valid (d_ar m') id ↔ id ∈ [mdd_zero; mdd_one; mdd_undet] ∨ node_reaches (d_ar m) roots id) ∧
    (∀ id rho t, node_valid (d_ar m') id → node_value (d_ar m') rho id t ↔ node_value (d_ar m) rho id t) ∧
    (∀ l, NoDup l → (∀ id, id ∈ l ↔ node_valid (d_ar m') id) →
       mdd_live_node_count m' = length l ∧ n + length l = length (ar_nodes (d_ar m))).
Proof.
  intros Hm Hr. destruct (mgc_l m roots Hm Hr) as (m' & n & Heq & H). exists m', n. split; [done|]. split; [|done].
  by eapply (mreachable_step m (DGc roots)).
Qed.
Print Assumptions c30_gc_mdd.

Theorem c30_gc_mtmdd I m roots : mt_reachable I m → Forall (node_valid (t_ar m)) roots →
  ∃ m' n, mt_gc m roots = Some (m', n) ∧ mt_reachable I m' ∧
    (∀ id, node_valid (t_ar m') id ↔ id = mt_undet ∨ node_reaches (t_ar m) roots id) ∧
    (∀ id rho t, node_valid (t_ar m') id → node_value (t_ar m') rho id t ↔ node_value (t_ar m) rho id t) ∧
    (∀ l, NoDup l → (∀ id, id ∈ l ↔ node_valid (t_ar m') id) →
       mt_live_node_count m' = length l ∧ n + length l = length (ar_nodes (t_ar m))).
Proof.
  intros Hm Hr. destruct (tgc_l I m roots Hm Hr) as (m' & n & Heq & H). exists m', n. split; [done|]. split; [|done].
  by eapply (treachable_step I m (TGc roots)).
Qed.
Print Assumptions c30_gc_mtmdd.

(** a value terminal can be (re-)created at any time *)
Theorem c30_value I m z : mt_reachable I m →
  ∃ m' r, mt_value m z = (m', r) ∧ node_valid (t_ar m') r ∧ ∀ rho, node_value (t_ar m') rho r (VVal z).
Proof. exact (tvalue_l I m z). Qed.
Print Assumptions c30_value.

Theorem c30_gc_combined I m roots : mm_reachable I m → Forall (mm_valid m) roots →
  ∃ m' nv nb, mm_gc m roots = Some (m', (nv, nb)) ∧ mm_reachable I m' ∧
    (∀ x, mm_valid m' x ↔ x ∈ [mm_zero; mm_one; NBool mdd_undet; mm_undet_value] ∨ mm_reaches m roots x) ∧
    (∀ x rho, mm_valid m' x → (∀ t, mm_bool m' rho x t ↔ mm_bool m rho x t) ∧ (∀ t, mm_int m' rho x t ↔ mm_int m rho x t)) ∧
    (∀ lv lb, NoDup lv → NoDup lb → (∀ f, f ∈ lv ↔ mm_valid m' (NVal f)) → (∀ f, f ∈ lb ↔ mm_valid m' (NBool f)) →
       mm_live_node_count m' = length lv + length lb ∧
       nv + length lv = length (ar_nodes (t_ar (mm_v m))) ∧ nb + length lb = length (ar_nodes (d_ar (mm_b m)))).
Proof.
  intros Hm Hr. destruct (mm_gc_l I m roots (mm_reachable_wf _ _ Hm) Hr) as (m' & nv & nb & Heq & _ & _ & H).
  exists m', nv, nb. split; [done|]. split; [|done]. eapply (mm_reachable_step I m (XGc roots)); try done.
  cbn [mm_exec]. by rewrite Heq.
Qed.
Print Assumptions c30_gc_combined.

(** Every call other than a collection leaves existing nodes and their values alone. *)
Theorem c30_no_disturbance I m c m' : mm_reachable I m → mm_legal m c → (∀ r, c ≠ XGc r) → mm_exec I m c = Some m' →
  ∀ x, mm_valid m x → mm_valid m' x ∧
    ∀ rho, (∀ t, mm_bool m rho x t → mm_bool m' rho x t) ∧ (∀ t, mm_int m rho x t → mm_int m' rho x t).
Proof. exact (mm_frame_l I m c m'). Qed.
Print Assumptions c30_no_disturbance.

(** Operations stay correct across any history of calls and collections: every node the user still
    holds denotes the function computed by truth tables and arithmetic from its operands. *)
Theorem c30_held I m H : mm_held I m H → ∀ x F, (x, F) ∈ H → mm_denotes m x F.
Proof. intros Hh. exact (proj2 (mm_held_ok I m H Hh)). Qed.
Print Assumptions c30_held.

(** collect with root x: the terminal 7 and the sum go, their slots are reused, 7 comes back *)
Example c30_ex : (m ← mm_run i32_checked mm_new (ex_mm ++ [XValue 7; XArith VAdd (NVal 3) (NVal 4)]);
    '(m1, n) ← mm_gc m [NVal 3]; let '(m2, r) := mm_value m1 7 in '(m3, s) ← mm_arith i32_checked VAdd m2 (NVal 3) r;
    Some (length (ar_nodes (t_ar (mm_v m))), n, bool_decide (mm_valid m1 (NVal 4)), bool_decide (mm_valid m1 (NVal 3)),
          length (ar_nodes (t_ar (mm_v m3))), map (λ i, walk (t_ar (mm_v m3)) (two i 0) 9 (node_id s)) [0; 1])) =
  Some (7, (3, 0), false, true, 7, [Some (VVal 7); Some (VVal 8)]).
Proof. vm_compute. done. Qed.

(** ** C31: [undet_boolean()] is not undetermined; it is false everywhere, in every manager. *)
Theorem c31_undet_boolean_is_false I m : mm_reachable I m →
  mm_undet_boolean = mm_zero ∧ ∀ rho, mm_bool m rho mm_undet_boolean TZero ∧ ¬ mm_bool m rho mm_undet_boolean TUndet.
Proof.
  intros Hm. pose proof (mm_reachable_wf _ _ Hm) as Hw.
  pose proof (mg_zero _ (mw_good _ (mmw_b _ _ Hw))) as Hz.
  split; [done|]. intros rho.
  assert (Hb : mm_bool m rho mm_undet_boolean TZero).
  { exists mdd_zero. split; [done|]. by apply (nval_eval _ _ _ _ _ Hz). }
  split; [done|]. intros (f & [= <-] & Hf). apply (nval_eval _ _ _ _ _ Hz) in Hf. discriminate.
Qed.
Print Assumptions c31_undet_boolean_is_false.
Theorem c31_undet_boolean_refuted : ∃ m rho, mm_reachable i32_checked m ∧ mm_range m rho ∧
  mm_bool m rho mm_undet_boolean TZero ∧ ¬ mm_bool m rho mm_undet_boolean TUndet.
Proof.
  exists mm_new, (λ _, 0). assert (Hm : mm_reachable i32_checked mm_new) by by exists [].
  split; [done|]. split; [intros hd Hin; by apply elem_of_nil in Hin|].
  by apply (c31_undet_boolean_is_false _ _ Hm).
Qed.
Print Assumptions c31_undet_boolean_refuted.
