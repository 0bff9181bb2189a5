(** Property C54: probabilities and importances evaluated in interval arithmetic enclose the exact ones. *)
From Coq Require Import ZArith Ring.
From stdpp Require Import strings.
From Verif Require Import Prelude ComputeCache Arena Bdd Mdd MtMdd MtMdd2 BssAlg BssMgr MssMgr MssAlg SpecBdd SpecMdd SpecBss SpecMss SpecMssAlg SpecEnclose
  Enclose EncloseMain PropsBdd PropsBss PropsMss PropsMssAlg.

(** [mem x b]: the number [x] lies in the interval [b]; [preserved … mem]: the interval operations are sound.  The call returns one
    interval; for every point table [pv] inside the box table the exact probability at [pv] lies in it. *)
Theorem c54_mdd_prob {R B} (rO rI : R) (radd rmul rsub : R → R → R) (ropp : R → R) (oB iB : B) (addB mulB subB : B → B → B) (mem : R → B → Prop)
  I w H x F ss box :
  ring_theory rO rI radd rmul rsub ropp eq → preserved rO rI radd rmul rsub oB iB addB mulB subB mem →
  mdd_held I w H → (x, Some F) ∈ H → table_for (declared w) box →
  ∃ b, g_prob oB iB addB mulB w x box ss = Some b ∧
  ∀ pv L, table_rel (Forall2 mem) pv box → sums_to_one rO rI radd (declared w) pv → solutions (declared w) (declared w) F ss L →
    mem (ring_sum rO radd (mweight rO rI rmul pv (declared w) <$> L)) b.
Proof.
  exact (λ Rth Hp Hm Hx Ht, enc_prob rO rI radd rmul rsub ropp Rth oB iB addB mulB subB mem Hp I w H x F ss Hm Hx box Ht).
Qed.
Print Assumptions c54_mdd_prob.

(** Importance: each entry encloses P(state k+1) - P(state k) at every point inside the boxes. *)
Theorem c54_mdd_bmeas {R B} (rO rI : R) (radd rmul rsub : R → R → R) (ropp : R → R) (oB iB : B) (addB mulB subB : B → B → B) (mem : R → B → Prop)
  I w H x F ss box :
  ring_theory rO rI radd rmul rsub ropp eq → preserved rO rI radd rmul rsub oB iB addB mulB subB mem →
  mdd_held I w H → (x, Some F) ∈ H → table_for (declared w) box →
  ∃ g, g_bmeas oB iB addB mulB subB w x box ss = Some g ∧ (∀ s, is_Some (g !! s) ↔ m_occurs w x s) ∧
  ∀ s n slot, g !! s = Some slot → (s, n) ∈ declared w → S (length slot) = n ∧
  ∀ k b pv L, slot !! k = Some b → table_rel (Forall2 mem) pv box → sums_to_one rO rI radd (declared w) pv →
    solutions (declared w) (declared w) F ss L →
    mem (rsub (ring_sum rO radd (mweight rO rI rmul (<[s := certain rO rI n (S k)]> pv) (declared w) <$> L))
              (ring_sum rO radd (mweight rO rI rmul (<[s := certain rO rI n k]> pv) (declared w) <$> L))) b.
Proof.
  exact (λ Rth Hp Hm Hx Ht, enc_bmeas rO rI radd rmul rsub ropp Rth oB iB addB mulB subB mem Hp I w H x F ss Hm Hx box Ht).
Qed.
Print Assumptions c54_mdd_bmeas.

(** Two-state diagrams *)
Theorem c54_bdd_prob {R B} (rO rI : R) (radd rmul rsub : R → R → R) (ropp : R → R) (oB iB : B) (addB mulB subB : B → B → B) (mem : R → B → Prop)
  m names f ss box S :
  ring_theory rO rI radd rmul rsub ropp eq → preserved rO rI radd rmul rsub oB iB addB mulB subB mem →
  bss_reachable m → bdd_valid m f → bdd_order m names → (∀ rho, ∃ b, bdd_value m rho f (tvb b)) →
  NoDup S → (∀ v, v ∈ S ↔ length v = length names ∧ ∃ b, b ∈ ss ∧ bdd_value m (vrho v) f (tvb b)) →
  ∃ b, bdd_prob oB iB addB mulB subB m box ss f = Some b ∧
  ∀ pv, table_rel mem pv box → mem (ring_sum rO radd (weight rO rI rmul rsub pv names <$> S)) b.
Proof.
  exact (λ Rth Hp Hm Hf Ho Hd, benc_prob rO rI radd rmul rsub ropp Rth oB iB addB mulB subB mem Hp m names f ss Hm Hf Ho Hd box S).
Qed.
Print Assumptions c54_bdd_prob.
Theorem c54_bdd_bmeas {R B} (rO rI : R) (radd rmul rsub : R → R → R) (ropp : R → R) (oB iB : B) (addB mulB subB : B → B → B) (mem : R → B → Prop)
  m names f ss box :
  ring_theory rO rI radd rmul rsub ropp eq → preserved rO rI radd rmul rsub oB iB addB mulB subB mem →
  bss_reachable m → bdd_valid m f → bdd_order m names → (∀ rho, ∃ b, bdd_value m rho f (tvb b)) → NoDup names →
  ∃ g, bdd_bmeas oB iB addB mulB subB m box ss f = Some g ∧ (∀ x, is_Some (g !! x) ↔ bdd_occurs m f x) ∧
  ∀ x b pv, g !! x = Some b → table_rel mem pv box → ∃ p1 p0,
    bdd_prob rO rI radd rmul rsub m (<[x := rI]> pv) ss f = Some p1 ∧
    bdd_prob rO rI radd rmul rsub m (<[x := rO]> pv) ss f = Some p0 ∧ mem (rsub p1 p0) b.
Proof.
  exact (λ Rth Hp Hm Hf Ho Hd, benc_bmeas rO rI radd rmul rsub ropp Rth oB iB addB mulB subB mem Hp m names f ss Hm Hf Ho Hd box).
Qed.
Print Assumptions c54_bdd_bmeas.

(** Degenerate boxes reproduce the point result: [pt] turns numbers into intervals and commutes with the operations. *)
Theorem c54_points {R B} (rO rI : R) (radd rmul rsub : R → R → R) (oB iB : B) (addB mulB subB : B → B → B) (pt : R → B) :
  preserved rO rI radd rmul rsub oB iB addB mulB subB (λ x b, b = pt x) →
  (∀ w x pv ss, g_prob oB iB addB mulB w x (pt_rows pt pv) ss = pt <$> g_prob rO rI radd rmul w x pv ss) ∧
  (∀ w x pv ss, g_bmeas oB iB addB mulB subB w x (pt_rows pt pv) ss = pt_rows pt <$> g_bmeas rO rI radd rmul rsub w x pv ss) ∧
  (∀ m f pv ss, bdd_prob oB iB addB mulB subB m (pt_table pt pv) ss f = pt <$> bdd_prob rO rI radd rmul rsub m pv ss f) ∧
  (∀ m f pv ss, bdd_bmeas oB iB addB mulB subB m (pt_table pt pv) ss f = pt_table pt <$> bdd_bmeas rO rI radd rmul rsub m pv ss f).
Proof.
  intros Hp.
  assert (Hl : ∀ ps bs, Forall2 (λ x b, b = pt x) ps bs ↔ bs = pt <$> ps).
  { induction ps as [|p ps IH]; intros bs; split.
    - by inversion 1.
    - intros ->. constructor.
    - intros HF. inversion HF as [|? b ? bs' -> HF']; subst. apply IH in HF' as ->. done.
    - intros ->. cbn. constructor; [done|]. by apply IH. }
  assert (Ht : ∀ pv : gmap string R, table_rel (λ x b, b = pt x) pv (pt_table pt pv)).
  { intros pv k. unfold pt_table. rewrite lookup_fmap. destruct (pv !! k); by constructor. }
  assert (Ht' : ∀ pv bv : gmap string _, table_rel (λ x b, b = pt x) pv bv → bv = pt_table pt pv).
  { intros pv bv Hb. unfold pt_table. apply map_eq. intros k. rewrite lookup_fmap. destruct (Hb k) as [x b ->|]; done. }
  assert (Hr : ∀ pv : gmap string (list R), table_rel (Forall2 (λ x b, b = pt x)) pv (pt_rows pt pv)).
  { intros pv k. unfold pt_rows. rewrite lookup_fmap. destruct (pv !! k); cbn; constructor. by apply Hl. }
  assert (Hr' : ∀ pv bv : gmap string (list _), table_rel (Forall2 (λ x b, b = pt x)) pv bv → bv = pt_rows pt pv).
  { intros pv bv Hb. unfold pt_rows. apply map_eq. intros k. rewrite lookup_fmap. destruct (Hb k) as [x b Hx|]; cbn; [|done]. f_equal. by apply Hl. }
  sp; intros.
  - by destruct (g_prob_rel _ _ _ _ _ _ _ _ _ _ _ Hp w x _ _ ss (Hr pv)) as [? ? ->|].
  - destruct (g_bmeas_rel _ _ _ _ _ _ _ _ _ _ _ Hp w x _ _ ss (Hr pv)) as [? ? ->%Hr'|]; done.
  - by destruct (bdd_prob_rel _ _ _ _ _ _ _ _ _ _ _ Hp m _ _ ss f (Ht pv)) as [? ? ->|].
  - destruct (bdd_bmeas_rel _ _ _ _ _ _ _ _ _ _ _ Hp m _ _ ss f (Ht pv)) as [? ? ->%Ht'|]; done.
Qed.
Print Assumptions c54_points.

(** ** Examples: integer intervals, which are sound, and whose degenerate intervals commute with the operations *)
Example c54_ivl : preserved 0%Z 1%Z Z.add Z.mul Z.sub (ivl_pt 0) (ivl_pt 1) ivl_add ivl_mul ivl_sub ivl_in.
Proof. exact ivl_preserved. Qed.
Example c54_ivl_pt : preserved 0%Z 1%Z Z.add Z.mul Z.sub (ivl_pt 0) (ivl_pt 1) ivl_add ivl_mul ivl_sub (λ x b, b = ivl_pt x).
Proof. exact ivl_point. Qed.
(** the diagram of C32 with the weights of [ex_pv] widened *)
Definition ex_box : gmap string (list ivl) := <["x"%string := [(1, 2); (-3, -2); (2, 3)]%Z]> (<["y"%string := [(-4, -4); (4, 5)]%Z]> ∅).
Example c54_ex_in : table_rel (Forall2 ivl_in) ex_pv ex_box.
Proof.
  intros k. unfold ex_pv, ex_box. destruct (decide (k = "x")%string) as [->|Hx].
  - rewrite !lookup_insert. constructor. repeat constructor; cbn; lia.
  - rewrite !(lookup_insert_ne _ "x"%string) by done. destruct (decide (k = "y")%string) as [->|Hy].
    + rewrite !lookup_insert. constructor. repeat constructor; cbn; lia.
    + rewrite !lookup_insert_ne by done. rewrite !lookup_empty. constructor.
Qed.
(** -23 and -13 at the point *)
Example c54_ex : ('(w, a, f) ← ex_a; p ← g_prob (ivl_pt 0) (ivl_pt 1) ivl_add ivl_mul w a ex_box [2%Z];
    q ← g_prob (ivl_pt 0) (ivl_pt 1) ivl_add ivl_mul w f ex_box [1%Z]; Some (p, q)) = Some ((-27, -16), (-17, -3))%Z.
Proof. vm_compute. done. Qed.
(** 5 and -9 at the point *)
Example c54_ex_bmeas : ('(w, a, f) ← ex_a; p ← g_bmeas (ivl_pt 0) (ivl_pt 1) ivl_add ivl_mul ivl_sub w a ex_box [2%Z]; Some (p !! "x"%string, p !! "y"%string))
  = Some (Some [(4, 5); (-9, -8)], Some [(-6, -4)])%Z.
Proof. vm_compute. done. Qed.
(** the weights 2, 3, 5 of C15 widened: -19 at the point *)
Example c54_ex_bdd : (m ← bdd_run bdd_new ex_calls;
    bdd_prob (ivl_pt 0) (ivl_pt 1) ivl_add ivl_mul ivl_sub m {[ "x0" := (2, 3); "x1" := (3, 3); "x2" := (4, 5) ]}%Z [true] 7) = Some (-32, -13)%Z.
Proof. vm_compute. done. Qed.
