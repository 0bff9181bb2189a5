(** Birnbaum importances computed in [f64]: proofs.  The run in [f64] and the run over the reals are followed side by side; the errors of the
    weights that are still to be passed on, summed over a level, grow by at most a constant per node. *)
From Coq Require Import Reals Lra RealField.
From Flocq Require Import Core.
From stdpp Require Import strings.
From Verif Require Import Prelude Arena Trees ArenaProofs Bdd BddProofs SpecBdd SpecBss BddMain BssAlg BssCount BssSize BssProb BssMeas SpecEnclose Float64 SpecFloat64 Float64Proofs FloatMain.
Local Open Scope R_scope.

(** ** single operations *)
Lemma err_abs2 x : Rabs x <= 2 → Rabs (rnd x - x) <= 2 * hu.
Proof.
  intros H%Rabs_le_inv. destruct (Rle_or_lt 0 x) as [H0|H0]; [apply err_le2; lra|].
  assert (rnd x = - rnd (- x)) as ->.
  { unfold rnd. rewrite round_NE_opp, Ropp_involutive. done. }
  replace (- rnd (- x) - x) with (- (rnd (- x) - - x)) by ring. rewrite Rabs_Ropp. apply err_le2. lra.
Qed.
Lemma add_err x y : f64_finite x → f64_finite y → Rabs (f64_real x + f64_real y) <= 2 →
  f64_finite (f64_add x y) ∧ Rabs (f64_real (f64_add x y) - (f64_real x + f64_real y)) <= 2 * hu.
Proof. intros Fx Fy H. destruct (add_ok x y Fx Fy) as [F E]; [lra|]. split; [done|]. rewrite E. by apply err_abs2. Qed.
Lemma sub_err x y : f64_finite x → f64_finite y → Rabs (f64_real x - f64_real y) <= 2 →
  f64_finite (f64_sub x y) ∧ Rabs (f64_real (f64_sub x y) - (f64_real x - f64_real y)) <= 2 * hu.
Proof. intros Fx Fy H. destruct (sub_ok x y Fx Fy) as [F E]; [lra|]. split; [done|]. rewrite E. by apply err_abs2. Qed.
Lemma mul_err x y : f64_finite x → f64_finite y → Rabs (f64_real x * f64_real y) <= 2 →
  f64_finite (f64_mul x y) ∧ Rabs (f64_real (f64_mul x y) - (f64_real x * f64_real y)) <= 2 * hu.
Proof. intros Fx Fy H. destruct (mul_ok x y Fx Fy) as [F E]; [lra|]. split; [done|]. rewrite E. by apply err_abs2. Qed.
Lemma rnd_pos x : 0 <= x → 0 <= rnd x.
Proof. intros H. apply rnd_ge_fmt; [apply fmt_0|done]. Qed.
Lemma abs_mul a b A B : Rabs a <= A → Rabs b <= B → Rabs (a * b) <= A * B.
Proof. intros. rewrite Rabs_mult. apply Rmult_le_compat; try done; apply Rabs_pos. Qed.

(** [w * q] where [w] and [q] are known approximately *)
Lemma mul_near w q W Q e eta : f64_finite w → f64_finite q → 0 <= f64_real w → 0 <= f64_real q <= 1 → 0 <= W <= 1 → 0 <= Q →
  Rabs (f64_real w - W) <= e → e <= 1 → Rabs (f64_real q - Q) <= eta →
  f64_finite (f64_mul w q) ∧ 0 <= f64_real (f64_mul w q) ∧ Rabs (f64_real (f64_mul w q) - W * Q) <= e * Q + 2 * eta + 2 * hu.
Proof.
  intros Fw Fq Hw Hq HW HQ Ew He Eq. pose proof hu_pos. apply Rabs_le_inv in Ew as Ew'.
  assert (Hp : 0 <= f64_real w * f64_real q <= 2).
  { split; [apply Rmult_le_pos; lra|]. replace 2 with (2 * 1) by lra. apply Rmult_le_compat; lra. }
  destruct (mul_err w q Fw Fq) as [F E]; [rewrite Rabs_pos_eq; lra|]. split; [done|].
  split. { destruct (mul_ok w q Fw Fq) as [_ ->]; [rewrite Rabs_pos_eq; lra|]. apply rnd_pos. lra. }
  assert (Rabs (f64_real w * (f64_real q - Q)) <= 2 * eta).
  { apply abs_mul; [rewrite Rabs_pos_eq; lra|done]. }
  assert (Rabs ((f64_real w - W) * Q) <= e * Q).
  { apply abs_mul; [done|rewrite Rabs_pos_eq; lra]. }
  apply Rabs_le_inv in E, H0, H1. apply Rabs_le.
  replace (W * Q) with (f64_real w * f64_real q - f64_real w * (f64_real q - Q) - (f64_real w - W) * Q) by ring. lra.
Qed.

(** ** sums over the unprocessed nodes *)
Definition fsum {T} (keep : dd T → bool) (phi : nat → R) (l : list (nat * dd T)) : R :=
  foldr (λ p acc, (if keep p.2 then phi p.1 else 0) + acc) 0 l.
Lemma fsum_cons {T} (keep : dd T → bool) phi y d l : fsum keep phi ((y, d) :: l) = (if keep d then phi y else 0) + fsum keep phi l.
Proof. done. Qed.
Lemma fsum_skip {T} (keep : dd T → bool) phi y d l : keep d = false → fsum keep phi ((y, d) :: l) = fsum keep phi l.
Proof. intros H. rewrite fsum_cons, H. ring. Qed.
Lemma fsum_take {T} (keep : dd T → bool) phi y d l : keep d = true → fsum keep phi ((y, d) :: l) = phi y + fsum keep phi l.
Proof. intros H. by rewrite fsum_cons, H. Qed.
Lemma fsum_ext {T} (keep : dd T → bool) phi psi l : (∀ i, i ∈ l.*1 → phi i = psi i) → fsum keep phi l = fsum keep psi l.
Proof.
  induction l as [|[y d] l IH]; intros H; [done|]. rewrite !fsum_cons, IH, (H y); [done|by left|]. intros i Hi. apply H. by right.
Qed.
Lemma fsum_upd {T} (keep : dd T → bool) phi psi c dc l : NoDup (l.*1) → (c, dc) ∈ l → (∀ i, i ≠ c → phi i = psi i) →
  fsum keep phi l = fsum keep psi l + (if keep dc then phi c - psi c else 0).
Proof.
  intros Hnd Hin He. induction l as [|[y d] l IH]; [by apply elem_of_nil in Hin|]. cbn in Hnd. apply NoDup_cons in Hnd as [Hni Hnd].
  rewrite !fsum_cons. apply elem_of_cons in Hin as [[= -> ->]|Hin].
  - rewrite (fsum_ext keep phi psi l).
    + destruct (keep d); ring.
    + intros i Hi. apply He. by intros ->.
  - rewrite IH by done. rewrite (He y); [destruct (keep d), (keep dc); ring|]. intros ->. apply Hni. apply elem_of_list_fmap. by exists (c, dc).
Qed.
Lemma fsum_pos {T} (keep : dd T → bool) phi l : (∀ i, 0 <= phi i) → 0 <= fsum keep phi l.
Proof. intros H. induction l as [|[y d] l IH]; [cbn; lra|]. rewrite fsum_cons. specialize (H y). destruct (keep d); lra. Qed.
Lemma fsum_member {T} (keep : dd T → bool) phi c dc l : (∀ i, 0 <= phi i) → (c, dc) ∈ l → keep dc = true → phi c <= fsum keep phi l.
Proof.
  intros H Hin Hk. induction l as [|[y d] l IH]; [by apply elem_of_nil in Hin|]. rewrite fsum_cons.
  apply elem_of_cons in Hin as [[= -> ->]|Hin].
  - rewrite Hk. pose proof (fsum_pos keep phi l H). lra.
  - specialize (IH Hin). specialize (H y). destruct (keep d); lra.
Qed.

(** the two tables of weights *)
Definition at64 (g : gmap nat f64) (i : nat) : f64 := default f64_zero (g !! i).
Definition er (g : gmap nat f64) (h : gmap nat R) (i : nat) : R := Rabs (f64_real (at64 g i) - gc_at 0 h i).
Definition gfine (g : gmap nat f64) (h : gmap nat R) : Prop :=
  ∀ i, f64_finite (at64 g i) ∧ 0 <= f64_real (at64 g i) ∧ 0 <= gc_at 0 h i.
Definition all_nodes {T} (_ : dd T) : bool := true.
Lemma er_pos g h i : 0 <= er g h i.
Proof. apply Rabs_pos. Qed.

(** passing the weight [v] (approximately the number [V]) to node [c] *)
Definition push64 (g : gmap nat f64) (c : nat) (v : f64) : gmap nat f64 :=
  <[c := match g !! c with Some val => f64_add val v | None => v end]> g.
Definition pushR (h : gmap nat R) (c : nat) (V : R) : gmap nat R :=
  <[c := match h !! c with Some val => val + V | None => V end]> h.
Lemma pushR_at h c V : gc_at 0 (pushR h c V) c = gc_at 0 h c + V.
Proof. unfold gc_at, pushR. rewrite lookup_insert. cbn. destruct (h !! c); cbn; ring. Qed.
Lemma pushR_other h c V i : i ≠ c → gc_at 0 (pushR h c V) i = gc_at 0 h i.
Proof. intros. unfold gc_at, pushR. by rewrite lookup_insert_ne. Qed.
Lemma push64_other g c v i : i ≠ c → at64 (push64 g c v) i = at64 g i.
Proof. intros. unfold at64, push64. by rewrite lookup_insert_ne. Qed.
Lemma push64_at g c v : at64 (push64 g c v) c = match g !! c with Some _ => f64_add (at64 g c) v | None => v end.
Proof. unfold at64, push64. rewrite lookup_insert. by destruct (g !! c). Qed.
Lemma push_fine g h c v V ev : gfine g h → f64_finite v → 0 <= f64_real v → 0 <= V → Rabs (f64_real v - V) <= ev →
  gc_at 0 h c + V <= 1 → er g h c + ev <= 1 →
  gfine (push64 g c v) (pushR h c V) ∧ er (push64 g c v) (pushR h c V) c <= er g h c + ev + 2 * hu ∧
  (∀ i, i ≠ c → er (push64 g c v) (pushR h c V) i = er g h i).
Proof.
  intros Hg Fv Hv HV Ev H1 H2. pose proof hu_pos. destruct (Hg c) as (Fc & Pc & Pc'). unfold er in H2.
  assert (Hc : f64_finite (at64 (push64 g c v) c) ∧ 0 <= f64_real (at64 (push64 g c v) c) ∧
    Rabs (f64_real (at64 (push64 g c v) c) - (gc_at 0 h c + V)) <= er g h c + ev + 2 * hu).
  { unfold er. set (w := at64 g c) in *. rewrite push64_at. fold w.
    assert (E0 : w = match g !! c with Some x => x | None => f64_zero end).
    { unfold w, at64. by destruct (g !! c). }
    destruct (g !! c) as [w'|].
    - clear E0 w'.
      pose proof (Rabs_triang (f64_real w - gc_at 0 h c) (f64_real v - V)) as Ht.
      assert (Hs : Rabs (f64_real w + f64_real v) <= 2).
      { rewrite Rabs_pos_eq by lra. set (X := f64_real w) in *. set (Y := f64_real v) in *. set (Z := gc_at 0 h c) in *.
        pose proof (Rle_abs (X - Z)). pose proof (Rle_abs (Y - V)). lra. }
      destruct (add_err w v Fc Fv Hs) as [F E]. split; [done|]. split.
      { destruct (add_ok w v Fc Fv) as [_ ->]; [lra|]. apply rnd_pos. lra. }
      replace (f64_real (f64_add w v) - (gc_at 0 h c + V)) with
        ((f64_real (f64_add w v) - (f64_real w + f64_real v)) + ((f64_real w - gc_at 0 h c) + (f64_real v - V))) by ring.
      eapply Rle_trans; [apply Rabs_triang|]. lra.
    - split; [done|]. split; [done|].
      replace (f64_real v - (gc_at 0 h c + V)) with ((f64_real w - gc_at 0 h c) + (f64_real v - V)) by (rewrite E0, zero_real; ring).
      eapply Rle_trans; [apply Rabs_triang|]. lra. }
  destruct Hc as (F & P & E). refine (conj _ (conj _ _)).
  - intros i. destruct (decide (i = c)) as [->|Hne].
    + split; [done|]. split; [done|]. rewrite pushR_at. lra.
    + rewrite push64_other, pushR_other by done. apply Hg.
  - unfold er at 1. rewrite pushR_at. done.
  - intros i Hne. unfold er. by rewrite push64_other, pushR_other.
Qed.

(** both children of a node receive their share *)
Section pass.
Context (delta : R) (Hdelta : 0 <= delta) (p : f64) (r : R) (Hp : approx delta r p).
Context (g : gmap nat f64) (h : gmap nat R) (y lo hi : nat) (dlo dhi : dd tv) (l : list (nat * dd tv)).
Context (Hg : gfine g h) (Hnd : NoDup (l.*1)) (Hlo : (lo, dlo) ∈ l) (Hhi : (hi, dhi) ∈ l).
Context (u : R) (Hu : u = f64_epsilon + delta) (K : R).
Context (HM : gc_at 0 h y + fsum all_nodes (gc_at 0 h) l <= 1) (HU : er g h y + fsum all_nodes (er g h) l <= K) (HK : K + 4 * u <= 1).
Local Notation w := (at64 g y).
Local Notation W := (gc_at 0 h y).
Local Notation e := (er g h y).
Local Notation g1 := (push64 g lo (f64_mul w (f64_sub f64_one p))).
Local Notation h1 := (pushR h lo (W * (1 - r))).
Local Notation g2 := (push64 g1 hi (f64_mul w p)).
Local Notation h2 := (pushR h1 hi (W * r)).

Lemma pass_ok : gfine g2 h2 ∧
  (∀ keep, fsum keep (gc_at 0 h2) l = fsum keep (gc_at 0 h) l + (if keep dlo then W * (1 - r) else 0) + (if keep dhi then W * r else 0)) ∧
  (∀ keep, fsum keep (er g2 h2) l <= fsum keep (er g h) l +
     (if keep dlo then e * (1 - r) + 6 * hu + 2 * delta else 0) + (if keep dhi then e * r + 4 * hu + 2 * delta else 0)).
Proof.
  pose proof hu_pos as Hh. pose proof eps_hu as He. destruct Hp as ([Fp Bp] & Br & Dp).
  destruct (Hg y) as (Fw & Pw & PW). pose proof (er_pos g h) as Ep. pose proof (Ep y) as Epy.
  assert (Hgp : ∀ i, 0 <= gc_at 0 h i) by (intros i; apply Hg).
  pose proof (fsum_pos all_nodes _ l Ep) as SU. pose proof (fsum_pos all_nodes _ l Hgp) as SM.
  assert (HW : 0 <= W <= 1) by lra. assert (Hwr : 0 <= W * r <= W) by (apply prod01; lra).
  assert (Her : 0 <= e * r <= e).
  { split; [apply Rmult_le_pos; lra|]. replace e with (e * 1) at 2 by lra. apply Rmult_le_compat_l; lra. }
  assert (Hq : unit64 (f64_sub f64_one p) ∧ Rabs (f64_real (f64_sub f64_one p) - (1 - r)) <= hu + delta).
  { destruct (sub_ok f64_one p one_finite Fp) as [Fq Eq]; [rewrite one_real; apply abs4; lra|]. rewrite one_real in Eq.
    split; [split; [done|]|]; rewrite Eq.
    - split; [apply rnd_pos; lra|]. apply rnd_le_fmt; [apply fmt_1|lra].
    - assert (Rabs (rnd (1 - f64_real p) - (1 - f64_real p)) <= hu) as H1 by (apply err_le1; lra).
      apply Rabs_le_inv in H1, Dp. apply Rabs_le. lra. }
  destruct Hq as ([Fq Bq] & Dq).
  destruct (mul_near w (f64_sub f64_one p) W (1 - r) e (hu + delta)) as (F0 & P0 & E0); try done; try lra; [apply Rle_refl|].
  destruct (mul_near w p W r e delta) as (F1 & P1 & E1); try done; try lra; [apply Rle_refl|].
  pose proof (fsum_member all_nodes _ lo dlo l Ep Hlo eq_refl) as Elo.
  pose proof (fsum_member all_nodes _ lo dlo l Hgp Hlo eq_refl) as Glo.
  assert (HW1 : 0 <= W * (1 - r)) by (apply Rmult_le_pos; lra).
  destruct (push_fine g h lo _ (W * (1 - r)) _ Hg F0 P0 HW1 E0) as (G1 & X1 & Y1); [lra|lra|].
  assert (M1 : ∀ keep, fsum keep (gc_at 0 h1) l = fsum keep (gc_at 0 h) l + (if keep dlo then W * (1 - r) else 0)).
  { intros keep. rewrite (fsum_upd keep (gc_at 0 h1) (gc_at 0 h) lo dlo l Hnd Hlo) by (intros; by apply pushR_other).
    rewrite pushR_at. destruct (keep dlo); ring. }
  assert (U1 : ∀ keep, fsum keep (er g1 h1) l <= fsum keep (er g h) l + (if keep dlo then e * (1 - r) + 6 * hu + 2 * delta else 0)).
  { intros keep. rewrite (fsum_upd keep (er g1 h1) (er g h) lo dlo l Hnd Hlo) by done. destruct (keep dlo); lra. }
  pose proof (er_pos g1 h1) as Ep1. assert (Hgp1 : ∀ i, 0 <= gc_at 0 h1 i) by (intros i; apply G1).
  pose proof (fsum_member all_nodes _ hi dhi l Ep1 Hhi eq_refl) as Ehi.
  pose proof (fsum_member all_nodes _ hi dhi l Hgp1 Hhi eq_refl) as Ghi.
  assert (MA : fsum all_nodes (gc_at 0 h1) l = fsum all_nodes (gc_at 0 h) l + W * (1 - r)) by exact (M1 all_nodes).
  assert (UA : fsum all_nodes (er g1 h1) l <= fsum all_nodes (er g h) l + (e * (1 - r) + 6 * hu + 2 * delta)) by exact (U1 all_nodes).
  destruct (push_fine g1 h1 hi _ (W * r) _ G1 F1 P1 (proj1 Hwr) E1) as (G2 & X2 & Y2); [lra|lra|].
  split; [done|]. split.
  - intros keep. rewrite (fsum_upd keep (gc_at 0 h2) (gc_at 0 h1) hi dhi l Hnd Hhi) by (intros; by apply pushR_other).
    rewrite pushR_at, M1. destruct (keep dhi); ring.
  - intros keep. rewrite (fsum_upd keep (er g2 h2) (er g1 h1) hi dhi l Hnd Hhi) by done.
    specialize (U1 keep). destruct (keep dhi); lra.
Qed.
End pass.

(** adding a term to a running sum of either sign *)
Lemma sum_fine (v : option f64) (V : option R) (t : f64) (T D ET : R) : f64_finite (default f64_zero v) → f64_finite t →
  (is_Some v ↔ is_Some V) →
  Rabs (f64_real (default f64_zero v) - default 0 V) <= D → Rabs (f64_real t - T) <= ET → Rabs (default 0 V + T) <= 1 → D + ET <= 1 →
  let v' := match v with Some x => f64_add x t | None => t end in
  let V' := match V with Some x => x + T | None => T end in
  f64_finite v' ∧ V' = default 0 V + T ∧ Rabs (f64_real v' - V') <= D + ET + 2 * hu.
Proof.
  intros Fv Ft Hiff Ev Et HV HD. pose proof hu_pos. destruct v as [v|], V as [V|]; cbn [default from_option] in *; unfold Datatypes.id in *.
  - cbn zeta. apply Rabs_le_inv in Ev, Et, HV.
    destruct (add_err v t Fv Ft) as [F E]; [apply Rabs_le; lra|]. split; [done|]. split; [done|]. apply Rabs_le_inv in E. apply Rabs_le. lra.
  - exfalso. destruct (proj1 Hiff) as [? ?]; [by eexists|done].
  - exfalso. destruct (proj2 Hiff) as [? ?]; [by eexists|done].
  - cbn zeta. split; [done|]. split; [ring|]. rewrite zero_real in Ev. apply Rabs_le_inv in Ev, Et. apply Rabs_le. lra.
Qed.
(** the term: weight times difference of the two probabilities *)
Lemma term_fine w p1 p0 W P1 P0 e eta : f64_finite w → 0 <= f64_real w → 0 <= W <= 1 → Rabs (f64_real w - W) <= e → e <= 1 →
  unit64 p1 → unit64 p0 → Rabs (f64_real p1 - P1) <= eta → Rabs (f64_real p0 - P0) <= eta →
  f64_finite (f64_mul w (f64_sub p1 p0)) ∧
  Rabs (f64_real (f64_mul w (f64_sub p1 p0)) - W * (P1 - P0)) <= e + W * (2 * eta + 2 * hu) + 2 * hu.
Proof.
  intros Fw Hw HW Ew He [F1 B1] [F0 B0] D1 D0. pose proof hu_pos. apply Rabs_le_inv in Ew as Ew'.
  destruct (sub_err p1 p0 F1 F0) as [Fd Ed]; [apply Rabs_le; lra|].
  assert (Hd : Rabs (f64_real (f64_sub p1 p0)) <= 1).
  { destruct (sub_ok p1 p0 F1 F0) as [_ ->]; [apply Rabs_le; lra|].
    apply abs_round_le_generic; [apply fexp_valid|apply valid_rnd_N|apply fmt_1|]. apply Rabs_le. lra. }
  set (d := f64_sub p1 p0) in *.
  assert (Hp : Rabs (f64_real w * f64_real d) <= 2).
  { replace 2 with (2 * 1) by lra. apply abs_mul; [rewrite Rabs_pos_eq; lra|done]. }
  destruct (mul_err w d Fw Fd Hp) as [F E]. split; [done|].
  assert (Rabs ((f64_real w - W) * f64_real d) <= e * 1) as X1 by by apply abs_mul.
  assert (Rabs (W * (f64_real d - (P1 - P0))) <= W * (2 * eta + 2 * hu)) as X2.
  { apply abs_mul; [rewrite Rabs_pos_eq; lra|]. apply Rabs_le_inv in Ed, D1, D0. apply Rabs_le. lra. }
  apply Rabs_le_inv in E, X1, X2. apply Rabs_le.
  replace (W * (P1 - P0)) with (f64_real w * f64_real d - (f64_real w - W) * f64_real d - W * (f64_real d - (P1 - P0))) by ring. lra.
Qed.
Lemma pr_unit rv ss d : (∀ x r, rv !! x = Some r → 0 <= r <= 1) → okdd E2 d → 0 <= pr 0 1 Rplus Rmult Rminus rv ss d <= 1.
Proof.
  intros Hrv. induction d as [t|hd cs IH] using dd_ind'; intros Ho.
  - cbn [pr]. destruct (hits ss t); lra.
  - apply okdd_br in Ho as [Hl Hcs]. unfold E2 in Hl. destruct cs as [|d0 [|d1 [|]]]; try done.
    rewrite !Forall_cons in IH, Hcs. destruct IH as (IH0 & IH1 & _), Hcs as ((R0 & O0) & (R1 & O1) & _).
    rewrite pr_br. specialize (IH0 O0). specialize (IH1 O1).
    assert (0 <= hp 0 rv hd <= 1). { unfold hp. destruct (rv !! h_label hd) as [r|] eqn:E; [by eapply Hrv|cbn; lra]. }
    set (q := hp 0 rv hd) in *. set (a := pr _ _ _ _ _ _ _ d0) in *. set (b := pr _ _ _ _ _ _ _ d1) in *.
    assert (0 <= (1 - q) * a <= 1 - q) by (apply prod01; lra). assert (0 <= q * b <= q) by (apply prod01; lra). lra.
Qed.

(** ** the loop *)
Definition above {T} (L : nat) (d : dd T) : bool := (L <? rank d)%nat.
Fixpoint inner (l : list (nat * dd tv)) : nat :=
  match l with [] => O | (_, Leaf _) :: l => inner l | (_, Br _ _) :: l => S (inner l) end.
Definition ev64 (ge : gmap string f64) (x : string) : f64 := default f64_zero (ge !! x).
Definition evR (ge : gmap string R) (x : string) : R := default 0 (ge !! x).
Local Notation bloop64 := (bmeas_loop f64_zero f64_one f64_add f64_mul f64_sub).
Local Notation bloopR := (bmeas_loop 0 1 Rplus Rmult Rminus).
Local Notation pc64 := (pcache f64_zero f64_one f64_add f64_mul f64_sub).
Local Notation pcR := (pcache 0 1 Rplus Rmult Rminus).
Local Notation pr64 := (pr f64_zero f64_one f64_add f64_mul f64_sub).
Local Notation prR := (pr 0 1 Rplus Rmult Rminus).

Section loop.
Context (a : arena tv) (names : list string) (delta : R) (rv : gmap string R) (pv : gmap string f64) (ss : list bool).
Context (Hga : good a) (Hnames : NoDup names) (Hord : ∀ h hd, ar_headers a !! h = Some hd → names !! h_level hd = Some (h_label hd)).
Context (Hdl : 0 <= delta) (Ht : table_rel (approx delta) rv pv).
Context (u : R) (Hu : u = f64_epsilon + delta) (eta : R) (Heta : eta = INR (length names) * u).
Local Notation kap := (2 * eta + 2 * hu).

Definition einv (k : nat) (g : gmap nat f64) (h : gmap nat R) (ge : gmap string f64) (gr : gmap string R) (l : list (nat * dd tv)) : Prop :=
  ∀ L x, names !! L = Some x → f64_finite (ev64 ge x) ∧
    Rabs (f64_real (ev64 ge x) - evR gr x) + fsum (above L) (er g h) l <= INR k * (4 * u) + (1 - fsum (above L) (gc_at 0 h) l) * kap ∧
    Rabs (evR gr x) <= 1 - fsum (above L) (gc_at 0 h) l.

Lemma rank_names d id : repr a d id → (rank d <= length names)%nat.
Proof.
  intros Hr. destruct d as [t|hd cs]; [cbn; lia|]. cbn [rank]. assert (allhd (λ hd, names !! h_level hd = Some (h_label hd)) (Br hd cs)) as [H _]%allhd_br by (eapply repr_allhd; [exact Hord|done]). apply lookup_lt_Some in H. lia.
Qed.
Lemma pr_close d id : repr a d id → Rabs (f64_real (pr64 pv ss d) - prR rv ss d) <= eta.
Proof.
  intros Hr. destruct (pr_f64 delta rv pv ss d Hdl Ht (good_ok _ _ _ Hga Hr)) as [_ E]. eapply Rle_trans; [exact E|].
  rewrite Heta, Hu. pose proof eps_pos. apply Rmult_le_compat_r; [lra|]. apply le_INR. by eapply rank_names.
Qed.

Lemma meas64_loop : ∀ l k g b ge h c gr, Forall (λ p, repr a p.2 p.1 ∧ det p.2) l → topo a (l.*1) →
  pc64 pv ss a b → pcR rv ss a c → gfine g h →
  fsum all_nodes (er g h) l <= INR k * (4 * u) → fsum all_nodes (gc_at 0 h) l <= 1 →
  (∀ x, is_Some (ge !! x) ↔ is_Some (gr !! x)) → einv k g h ge gr l →
  INR (k + inner l) * (4 * u) + kap <= 1 →
  ∃ g' b' ge' h' c' gr', bloop64 a ss pv (l.*1) (g, b, ge) = Some (g', b', ge') ∧ bloopR a ss rv (l.*1) (h, c, gr) = Some (h', c', gr') ∧
    (∀ x, is_Some (ge' !! x) ↔ is_Some (gr' !! x)) ∧
    (∀ x, x ∈ names → f64_finite (ev64 ge' x) ∧ Rabs (f64_real (ev64 ge' x) - evR gr' x) <= INR (k + inner l) * (4 * u) + kap).
Proof.
  pose proof hu_pos as Hh. pose proof eps_hu as Hep. pose proof eps_pos as Hep0.
  assert (Hup : 0 <= u) by lra.
  assert (Heta0 : 0 <= eta) by (rewrite Heta; apply Rmult_le_pos; [apply pos_INR|done]).
  assert (Hrv : ∀ x r, rv !! x = Some r → 0 <= r <= 1).
  { intros x r E. specialize (Ht x). rewrite E in Ht. inversion Ht as [? ? Ha|]. subst. apply Ha. }
  induction l as [|[y d] l IH]; intros k g b ge h c gr Hf Hto Hb Hc Hfine HU HM Hkeys HE HB.
  - cbn [inner] in *. rewrite Nat.add_0_r in *. exists g, b, ge, h, c, gr. split; [done|]. split; [done|]. split; [done|].
    intros x [L Hx]%elem_of_list_lookup. destruct (HE L x Hx) as (F & E & _). split; [done|].
    assert (Hz : ∀ phi, fsum (T := tv) (above L) phi [] = 0) by done. rewrite !Hz in E. lra.
  - apply Forall_cons in Hf as [[Hr Hdet] Hf]. cbn [fst snd] in Hr, Hdet.
    cbn [fmap list_fmap fst bmeas_loop]. cbn [fmap list_fmap fst] in Hto.
    destruct Hto as (Hch & Hny & Hto). fold (fmap (M := list) (@fst nat (dd tv)) l) in Hch, Hny, Hto.
    unfold bmeas_step. destruct d as [t|hd ds].
    + pose proof Hr as [_ Hnd]%repr_leaf. rewrite Hnd. cbn [mbind option_bind]. cbn [inner] in *.
      rewrite fsum_cons in HU, HM. cbn [all_nodes] in HU, HM. pose proof (er_pos g h y). pose proof (Hfine y).
      apply (IH k); try done; [lra|lra|].
      intros L x Hx. destruct (HE L x Hx) as (F & E & V).
      assert (above L (Leaf t) = false) as Hab by by apply Nat.ltb_ge, Nat.le_0_l.
      rewrite (fsum_skip _ (er g h)), (fsum_skip _ (gc_at 0 h)) in E by done. rewrite fsum_skip in V by done. exact (conj F (conj E V)).
    + destruct (repr_node2 _ _ _ _ Hga Hr) as (hh & lo & hi & dlo & dhi & -> & Hnd & Hhd & Hlo & Hhi & Rlo & Rhi).
      apply det_br in Hdet as [Det0 Det1].
      rewrite Hnd. cbn [mbind option_bind edges2]. rewrite Hhd. cbn [mbind option_bind].
      assert (Hnd' : NoDup (l.*1)) by by eapply topo_nodup.
      assert (Hin : ∀ e de, repr a de e → e ∈ [lo; hi] → (e, de) ∈ l).
      { intros e de He Hin. assert (e ∈ l.*1) as Hel by by eapply Hch.
        apply elem_of_list_fmap in Hel as ([e' de'] & -> & Hel). cbn [fst] in *.
        rewrite Forall_forall in Hf. destruct (Hf _ Hel) as [Hr' _]. cbn in Hr'. by rewrite (repr_fun _ _ _ _ He Hr'). }
      assert (Ilo : (lo, dlo) ∈ l) by (apply Hin; [done|by left]). assert (Ihi : (hi, dhi) ∈ l) by (apply Hin; [done|by right; left]).
      rewrite !fsum_cons in HU, HM. cbn [all_nodes] in HU, HM.
      cbn [inner] in *. rewrite Nat.add_succ_r in *.
      assert (Hk : INR k * (4 * u) + 4 * u <= INR (S (k + inner l)) * (4 * u)).
      { replace (INR k * (4 * u) + 4 * u) with (INR (S k) * (4 * u)) by (rewrite S_INR; ring).
        apply Rmult_le_compat_r; [lra|]. apply le_INR. lia. }
      pose proof (approx_hp _ _ _ hd Hdl Ht) as Hap.
      change (default f64_zero (pv !! h_label hd)) with (hp f64_zero pv hd). change (default 0 (rv !! h_label hd)) with (hp 0 rv hd).
      change (default f64_zero (g !! y)) with (at64 g y). change (default 0 (h !! y)) with (gc_at 0 h y).
      destruct (pass_ok delta Hdl (hp f64_zero pv hd) (hp 0 rv hd) Hap g h y lo hi dlo dhi l Hfine Hnd' Ilo Ihi u Hu (INR k * (4 * u)) HM HU)
        as (Hfine2 & HM2 & HU2); [lra|].
      set (w := at64 g y) in *. set (W := gc_at 0 h y) in *. set (e := er g h y) in *.
      set (p := hp f64_zero pv hd) in *. set (r := hp 0 rv hd) in *.
      set (g2 := push64 (push64 g lo (f64_mul w (f64_sub f64_one p))) hi (f64_mul w p)) in *.
      set (h2 := pushR (pushR h lo (W * (1 - r))) hi (W * r)) in *.
      destruct (prob_f_spec f64_zero f64_one f64_add f64_mul f64_sub pv ss (ar_fuel a) a Hga dlo lo b Hlo) as (b1 & -> & Hb1);
        [by eapply fuel_enough|done|done|]. cbn [mbind option_bind].
      destruct (prob_f_spec f64_zero f64_one f64_add f64_mul f64_sub pv ss (ar_fuel a) a Hga dhi hi b1 Hhi) as (b2 & -> & Hb2);
        [by eapply fuel_enough|done|done|]. cbn [mbind option_bind].
      destruct (prob_f_spec 0 1 Rplus Rmult Rminus rv ss (ar_fuel a) a Hga dlo lo c Hlo) as (c1 & -> & Hc1);
        [by eapply fuel_enough|done|done|]. cbn [mbind option_bind].
      destruct (prob_f_spec 0 1 Rplus Rmult Rminus rv ss (ar_fuel a) a Hga dhi hi c1 Hhi) as (c2 & -> & Hc2);
        [by eapply fuel_enough|done|done|]. cbn [mbind option_bind].
      pose proof (Hord _ _ Hhd) as Hx0. set (L0 := h_level hd) in *. set (x0 := h_label hd) in *.
      pose proof (good_ok _ _ _ Hga Hlo) as Ok0. pose proof (good_ok _ _ _ Hga Hhi) as Ok1.
      pose proof (pr_close _ _ Hlo) as C0. pose proof (pr_close _ _ Hhi) as C1.
      destruct (pr_f64 delta rv pv ss dlo Hdl Ht Ok0) as [Un0 _]. destruct (pr_f64 delta rv pv ss dhi Hdl Ht Ok1) as [Un1 _].
      pose proof (pr_unit rv ss dlo Hrv Ok0) as Q0. pose proof (pr_unit rv ss dhi Hrv Ok1) as Q1.
      destruct (Hfine y) as (Fw & Pw & PW). fold w in Fw, Pw. fold W in PW.
      pose proof (er_pos g h) as Ep. pose proof (Ep y) as Epy. fold e in Epy.
      assert (Hgp : ∀ i, 0 <= gc_at 0 h i) by (intros i; apply Hfine).
      assert (HUp : ∀ keep, 0 <= fsum keep (er g h) l) by (intros; by apply fsum_pos).
      assert (HMp : ∀ keep, 0 <= fsum keep (gc_at 0 h) l) by (intros; by apply fsum_pos).
      pose proof (HUp all_nodes). pose proof (HMp all_nodes).
      destruct (term_fine w (pr64 pv ss dhi) (pr64 pv ss dlo) W (prR rv ss dhi) (prR rv ss dlo) e eta) as [Ft Et]; try done; try lra; [apply Rle_refl|].
      set (t := f64_mul w (f64_sub (pr64 pv ss dhi) (pr64 pv ss dlo))) in *. set (T := W * (prR rv ss dhi - prR rv ss dlo)) in *.
      assert (HT : Rabs T <= W).
      { unfold T. rewrite <- (Rmult_1_r W) at 2. apply abs_mul; [rewrite Rabs_pos_eq; lra|apply Rabs_le; lra]. }
      assert (Hr0 : 0 <= r <= 1) by apply Hap.
      assert (HWr : 0 <= W * r <= W) by (apply prod01; lra).
      assert (Her : 0 <= e * r <= e).
      { split; [apply Rmult_le_pos; lra|]. replace e with (e * 1) at 2 by lra. apply Rmult_le_compat_l; lra. }
      destruct (HE L0 x0 Hx0) as (Fv & Ev & Vv). 
      assert (above L0 (Br hd [dlo; dhi]) = true) as Hab by (unfold above; cbn [rank]; apply Nat.ltb_lt; lia).
      rewrite (fsum_take _ (er g h)), (fsum_take _ (gc_at 0 h)) in Ev by done. rewrite fsum_take in Vv by done. fold e W in Ev. fold W in Vv.
      assert (HMW : 0 <= W + fsum (above L0) (gc_at 0 h) l) by (pose proof (HMp (above L0)); lra).
      assert (Hkap : 0 <= kap) by lra.
      assert (HV1 : 0 <= 1 - (W + fsum (above L0) (gc_at 0 h) l)) by (pose proof (Rabs_pos (evR gr x0)); lra).
      assert (HMk : 0 <= fsum (above L0) (gc_at 0 h) l * kap) by (apply Rmult_le_pos; [apply HMp|done]).
      destruct (sum_fine (ge !! x0) (gr !! x0) t T (Rabs (f64_real (ev64 ge x0) - evR gr x0)) (e + W * kap + 2 * hu)) as (Fv' & EV' & Ev'); try done.
      { apply Rle_refl. }
      { eapply Rle_trans; [apply Rabs_triang|]. change (default 0 (gr !! x0)) with (evR gr x0). pose proof (HMp (above L0)). lra. }
      { pose proof (HUp (above L0)).
        assert ((1 - (W + fsum (above L0) (gc_at 0 h) l)) * kap = kap - W * kap - fsum (above L0) (gc_at 0 h) l * kap) as Hx by ring.
        rewrite Hx in Ev. lra. }
      set (v' := match ge !! x0 with Some x => f64_add x t | None => t end) in *.
      set (V' := match gr !! x0 with Some x => x + T | None => T end) in *.
      change (default 0 (gr !! x0)) with (evR gr x0) in EV'.
      assert (Hbr : ∀ L, above L (Br hd [dlo; dhi]) = false → above L dlo = false ∧ above L dhi = false).
      { intros L. unfold above. cbn [rank]. rewrite !Nat.ltb_ge. fold L0. lia. }
      refine (IH (S k) g2 b2 (<[x0 := v']> ge) h2 c2 (<[x0 := V']> gr) Hf Hto Hb2 Hc2 Hfine2 _ _ _ _ _).
      * specialize (HU2 all_nodes). cbn [all_nodes] in HU2. rewrite S_INR. lra.
      * rewrite (HM2 all_nodes). cbn [all_nodes]. lra.
      * intros x. rewrite !lookup_insert_is_Some, Hkeys. done.
      * intros L x Hx. destruct (decide (x = x0)) as [->|Hne].
        -- assert (L = L0) as -> by exact (NoDup_lookup _ _ _ _ Hnames Hx Hx0).
           unfold ev64, evR. rewrite !lookup_insert. cbn [default from_option]. unfold Datatypes.id.
           assert (above L0 dlo = false ∧ above L0 dhi = false) as [A0 A1] by (unfold above; rewrite !Nat.ltb_ge; done).
           specialize (HU2 (above L0)). rewrite (HM2 (above L0)). rewrite A0, A1, !Rplus_0_r in *. split; [done|].
           assert ((1 - (W + fsum (above L0) (gc_at 0 h) l)) * kap = (1 - fsum (above L0) (gc_at 0 h) l) * kap - W * kap) as Hx1 by ring.
           rewrite Hx1 in Ev. rewrite S_INR. split; [lra|]. rewrite EV'. eapply Rle_trans; [apply Rabs_triang|]. lra.
        -- assert (ev64 (<[x0 := v']> ge) x = ev64 ge x) as -> by (unfold ev64; by rewrite lookup_insert_ne).
           assert (evR (<[x0 := V']> gr) x = evR gr x) as -> by (unfold evR; by rewrite lookup_insert_ne).
           destruct (HE L x Hx) as (F & E & V). split; [done|].
           specialize (HU2 (above L)). rewrite (HM2 (above L)). rewrite S_INR.
           destruct (above L (Br hd [dlo; dhi])) eqn:Eab.
           ++ rewrite (fsum_take _ (er g h)), (fsum_take _ (gc_at 0 h)) in E by done. rewrite fsum_take in V by done.
              fold e W in E. fold W in V. set (m0 := if above L dlo then W * (1 - r) else 0) in *. set (m1 := if above L dhi then W * r else 0) in *.
              assert (m0 <= W * (1 - r)) by (unfold m0; destruct (above L dlo); lra).
              assert (m1 <= W * r) by (unfold m1; destruct (above L dhi); lra).
              set (n0 := if above L dlo then e * (1 - r) + 6 * hu + 2 * delta else 0) in *.
              set (n1 := if above L dhi then e * r + 4 * hu + 2 * delta else 0) in *.
              assert (n0 <= e * (1 - r) + 6 * hu + 2 * delta) by (unfold n0; destruct (above L dlo); lra).
              assert (n1 <= e * r + 4 * hu + 2 * delta) by (unfold n1; destruct (above L dhi); lra).
              split; [|lra].
              assert ((1 - (W + fsum (above L) (gc_at 0 h) l)) * kap <= (1 - (fsum (above L) (gc_at 0 h) l + m0 + m1)) * kap).
              { apply Rmult_le_compat_r; [done|]. lra. }
              lra.
           ++ rewrite (fsum_skip _ (er g h)), (fsum_skip _ (gc_at 0 h)) in E by done. rewrite fsum_skip in V by done.
              destruct (Hbr L Eab) as [A0 A1]. rewrite A0, A1, !Rplus_0_r in *. split; [lra|done].
      * rewrite Nat.add_succ_l. done.
Qed.
End loop.

Lemma fsum_zero {T} (keep : dd T → bool) phi l : (∀ i, phi i = 0) → fsum keep phi l = 0.
Proof. intros H. induction l as [|[y d] l IH]; [done|]. rewrite fsum_cons, IH, H. destruct (keep d); ring. Qed.
Definition is_br {T} (p : nat * dd T) : bool := match p.2 with Br _ _ => true | Leaf _ => false end.
Lemma inner_filter l : inner l = length (filter is_br l).
Proof. induction l as [|[y [t|hd cs]] l IH]; cbn [inner]; [done|by rewrite filter_cons_False by auto|]. rewrite filter_cons_True by done. cbn. by rewrite IH. Qed.

Lemma bmeas_f64_l delta m names rv pv ss f S sz nt ne : bwf m → bdd_valid m f → bdd_order m names → NoDup names →
  (∀ rho, ∃ b, bdd_value m rho f (tvb b)) → 0 <= delta → table_rel (approx delta) rv pv →
  NoDup S → (∀ v, v ∈ S ↔ length v = length names ∧ ∃ b, b ∈ ss ∧ bdd_value m (vrho v) f (tvb b)) →
  bdd_node_size m f = Some (sz, nt, ne) →
  let B := INR (4 * N.to_nat sz + 2 * length names + 1) * (f64_epsilon + delta) in B <= 1 →
  ∃ g, f64_bmeas m pv ss f = Some g ∧ (∀ x, is_Some (g !! x) ↔ bdd_occurs m f x) ∧
    (∀ x v, g !! x = Some v → f64_finite v ∧
       Rabs (f64_real v - (rsumR (weight 0 1 Rmult Rminus (<[x := 1]> rv) names <$> S) -
                           rsumR (weight 0 1 Rmult Rminus (<[x := 0]> rv) names <$> S))) <= B).
Proof.
  intros Hw Vf Hord Hnn Hdet Hdl Ht HndS HS Hsz B HB. pose proof (bw_good _ Hw) as Hg.
  pose proof hu_pos as Hh. pose proof eps_hu as Hep.
  destruct (valid_repr _ _ Hw Vf) as [d Hd]. pose proof (det_value _ _ _ Hw Hd Hdet) as Hdt.
  destruct (bmeas_l 0 1 Rplus Rmult Rminus Ropp RTheory m names rv ss f Hw Vf Hord Hnn Hdet) as (gR & HgR & HkR & HvR).
  unfold f64_bmeas, bdd_bmeas in *. destruct (topo_sort_spec (b_ar m) d f Hg Hd) as (l & Hl & Htopo & Hfl & Hlr).
  rewrite Hl in *. cbn [mbind option_bind] in *.
  assert (Hlp : ∃ lp, lp.*1 = l ∧ Forall (λ p, repr (b_ar m) p.2 p.1 ∧ det p.2) lp).
  { clear Htopo Hfl Hl HgR. induction l as [|y l IH]; [by exists []|].
    destruct IH as (lp & <- & Hlp); [intros z Hz; apply Hlr; by right|].
    assert (Hry : reach (b_ar m) [f] y) by (apply Hlr; by left).
    assert (Hly : live (b_ar m) y).
    { eapply reach_live; [apply Hg| |exact Hry]. intros r Hin%elem_of_list_singleton. subst. by eapply repr_live. }
    destruct (repr_exists _ _ _ (gd_wf _ Hg) Hly) as [dy Hdy]. exists ((y, dy) :: lp). split; [done|].
    constructor; [|done]. split; [done|]. exact (det_reach _ _ _ _ _ Hg Hd Hdt Hry Hdy). }
  destruct Hlp as (lp & <- & Hlp).
  assert (Hfd : (f, d) ∈ lp).
  { apply elem_of_list_fmap in Hfl as ([f' d'] & -> & Hin). rewrite Forall_forall in Hlp.
    destruct (Hlp _ Hin) as [Hr' _]. cbn in *. by rewrite (repr_fun _ _ _ _ Hd Hr'). }
  pose proof (topo_nodup _ _ Htopo) as Hnd.
  assert (Hin : (N.to_nat sz = inner lp)%nat).
  { assert (Hmem : ∀ y dy, (y, dy) ∈ lp → repr (b_ar m) dy y) by (intros y dy H; rewrite Forall_forall in Hlp; by apply Hlp in H as [H _]).
    assert (Hall : ∀ y, bdd_reaches m [f] y → ∃ dy, (y, dy) ∈ lp).
    { intros y Hy%reaches_reach. assert (y ∈ lp.*1) as ([y' dy] & -> & ?)%elem_of_list_fmap by by eapply topo_closed. by exists dy. }
    assert (Hsub : ∀ (P : nat * dd tv → Prop) (DP : ∀ x, Decision (P x)), NoDup ((filter P lp).*1)).
    { intros P DP. clear - Hnd. induction lp as [|[y dy] lp IH]; [constructor|]. cbn in Hnd. apply NoDup_cons in Hnd as [H1 H2].
      rewrite filter_cons. destruct (decide (P (y, dy))); [|by apply IH]. cbn. apply NoDup_cons. split; [|by apply IH].
      intros (q & E & Hp)%elem_of_list_fmap. apply H1. apply elem_of_list_fmap. exists q. split; [done|]. by apply elem_of_list_filter in Hp as [_ ?]. }
    pose proof (size_l m f ((filter is_br lp).*1) ((filter (λ p, ¬ is_br p) lp).*1) Hw Vf (Hsub _ _)) as Hs.
    rewrite Hsz in Hs. assert (Hc : Some (sz, nt, ne) = Some (N.of_nat (length (filter is_br lp).*1), N.of_nat (length (filter (λ p, ¬ is_br p) lp).*1),
      (2 * N.of_nat (length (filter is_br lp).*1))%N)); [apply Hs|].
    - intros id. rewrite elem_of_list_fmap. split.
      + intros ([y dy] & -> & [Hb Hin]%elem_of_list_filter). cbn. split.
        * apply reaches_reach, Hlr. apply elem_of_list_fmap. by exists (y, dy).
        * destruct dy as [t|hd ds]; [done|]. destruct (repr_node2 _ _ _ _ Hg (Hmem _ _ Hin)) as (h & lo & hi & ? & ? & _ & Hn & _). eauto.
      + intros [Hre (h & cs & Hn)]. destruct (Hall _ Hre) as [dy Hdy]. exists (id, dy). split; [done|]. apply elem_of_list_filter. split; [|done].
        destruct dy as [t|hd ds]; [|done]. pose proof (Hmem _ _ Hdy) as [_ ?]%repr_leaf. congruence.
    - by apply Hsub.
    - intros id. rewrite elem_of_list_fmap. split.
      + intros ([y dy] & -> & [Hb Hin]%elem_of_list_filter). cbn. split.
        * apply reaches_reach, Hlr. apply elem_of_list_fmap. by exists (y, dy).
        * destruct dy as [t|hd ds]; [|by destruct Hb]. exists t. by pose proof (Hmem _ _ Hin) as [_ ?]%repr_leaf.
      + intros [Hre (t & Hn)]. destruct (Hall _ Hre) as [dy Hdy]. exists (id, dy). split; [done|]. apply elem_of_list_filter. split; [|done].
        destruct dy as [t'|hd ds]; [by intros ?|]. destruct (repr_node2 _ _ _ _ Hg (Hmem _ _ Hdy)) as (h & lo & hi & ? & ? & _ & Hn' & _). congruence.
    - injection Hc as -> _ _. by rewrite Nat2N.id, fmap_length, inner_filter. }
  assert (Hz : ∀ i, er {[f := f64_one]} {[f := 1]} i = 0).
  { intros i. unfold er, at64, gc_at. destruct (decide (i = f)) as [->|Hne].
    - rewrite !lookup_singleton. cbn [from_option]. unfold Datatypes.id. rewrite one_real. rewrite Rminus_diag_eq by done. apply Rabs_R0.
    - rewrite !lookup_singleton_ne by done. cbn [from_option]. rewrite zero_real, Rminus_diag_eq by done. apply Rabs_R0. }
  assert (HM1 : ∀ keep, fsum keep (gc_at 0 {[f := 1]}) lp <= 1).
  { intros keep. rewrite (fsum_upd keep (gc_at 0 {[f := 1]}) (gc_at 0 ∅) f d lp Hnd Hfd).
    - rewrite fsum_zero by done. unfold gc_at. rewrite lookup_singleton, lookup_empty. cbn [from_option]. unfold Datatypes.id. destruct (keep d); lra.
    - intros i Hi. unfold gc_at. by rewrite lookup_singleton_ne. }
  set (u := f64_epsilon + delta) in *.
  set (eta := INR (length names) * u) in *.
  assert (Hu0 : 0 <= eta) by (apply Rmult_le_pos; [apply pos_INR|unfold u; lra]).
  assert (HBe : INR (inner lp) * (4 * u) + (2 * eta + 2 * hu) <= B).
  { unfold B, eta. rewrite !plus_INR, !mult_INR, Hin. cbn [INR]. fold u. assert (2 * hu <= u) by (unfold u; lra). lra. }
  destruct (meas64_loop (b_ar m) names delta rv pv ss Hg Hnn (proj2 (proj2 Hord)) Hdl Ht u eq_refl eta eq_refl lp 0 {[f := f64_one]} ∅ ∅ {[f := 1]} ∅ ∅
    Hlp Htopo) as (g' & b' & ge & h' & c' & gr & E64 & ER & Hkeys & Hval).
  - by intros ? ? ?.
  - by intros ? ? ?.
  - intros i. unfold at64, gc_at. destruct (decide (i = f)) as [->|Hne].
    + rewrite !lookup_singleton. cbn [from_option]. unfold Datatypes.id. rewrite one_real. split; [apply one_finite|lra].
    + rewrite !lookup_singleton_ne by done. cbn [from_option]. rewrite zero_real. split; [done|lra].
  - rewrite fsum_zero by done. cbn [INR]. lra.
  - apply HM1.
  - intros x. rewrite !lookup_empty. split; by intros [? ?].
  - intros L x _. unfold ev64, evR. rewrite !lookup_empty. cbn [default from_option]. rewrite zero_real, Rminus_diag_eq, Rabs_R0 by done.
    split; [done|]. rewrite fsum_zero by done. specialize (HM1 (above L)).
    assert (0 <= (1 - fsum (above L) (gc_at 0 {[f := 1]}) lp) * (2 * eta + 2 * hu)) by (apply Rmult_le_pos; lra). cbn [INR]. split; lra.
  - cbn [Nat.add]. lra.
  - rewrite E64. rewrite ER in HgR. cbn [mbind option_bind] in *. injection HgR as <-. exists ge. split; [done|]. split.
    { intros x. rewrite Hkeys. apply HkR. }
    intros x v Hx. assert (is_Some (gr !! x)) as [r Hr] by (apply Hkeys; by eexists).
    assert (x ∈ names) as Hxn.
    { destruct (proj1 (HkR x)) as (id & h & cs & hd & _ & _ & Hhd & <-); [by eexists|]. eapply elem_of_list_lookup_2. exact (proj2 (proj2 Hord) _ _ Hhd). }
    destruct (Hval x Hxn) as [Fv Ev]. unfold ev64, evR in Fv, Ev. rewrite Hx in Fv. rewrite Hx, Hr in Ev. cbn [default from_option] in Fv, Ev.
    unfold Datatypes.id in Fv, Ev. split; [done|]. cbn [Nat.add] in Ev.
    destruct (HvR x r Hr) as (p1 & p0 & P1 & P0 & ->).
    pose proof (prob_l 0 1 Rplus Rmult Rminus Ropp RTheory m names (<[x := 1]> rv) ss f S Hw Vf Hord Hdet HndS HS) as Q1.
    pose proof (prob_l 0 1 Rplus Rmult Rminus Ropp RTheory m names (<[x := 0]> rv) ss f S Hw Vf Hord Hdet HndS HS) as Q0.
    rewrite P1 in Q1. rewrite P0 in Q0. injection Q1 as <-. injection Q0 as <-. eapply Rle_trans; [exact Ev|]. exact HBe.
Qed.
