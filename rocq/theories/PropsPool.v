(** C101: minpath and mincut of one BssMgr on nodes of any number of BDD managers. *)
From stdpp Require Import strings.
From Verif Require Import Prelude ComputeCache Arena Bdd SpecBdd BssAlg BssMgr SpecBssMgr Zdd SpecZdd ZddAlg ZddMgr SpecZddMgr SpecPool PoolProofs.

(** Every handle keeps its meaning: a node of each BDD manager its function, a family of the forest its sets of names, whichever
    manager it was computed from and whatever order that manager gives its variables. *)
Theorem c101_handles P y HZ : pool_held P y HZ →
  (∀ i w HB f F, P !! i = Some (w, HB) → (f, F) ∈ HB → bdd_valid (w_bdd w) f ∧ ∀ e, bss_value (w_bdd w) e f (tvb (F e))) ∧
  (∀ z i F, (z, Some (i, F)) ∈ HZ → stands_for (y_zdd y) z F).
Proof. exact (pool_handles P y HZ). Qed.
Print Assumptions c101_handles.

(** [minpath] on a node of any of the managers: no panic, [None] exactly if the function is not increasing, else the minimal paths. *)
Theorem c101_minpath P y HZ i w HB f F : pool_held P y HZ → P !! i = Some (w, HB) → (f, F) ∈ HB →
  ∃ s r, s_minpath (BssM w y) f = Some (s, r) ∧ (r = None ↔ ¬ increasing F) ∧
    ∀ z, r = Some z → stands_for (y_zdd (s_zdd s)) z (min_paths F).
Proof. exact (pool_minpath P y HZ i w HB f F). Qed.
Print Assumptions c101_minpath.

Theorem c101_mincut P y HZ i w HB f F : pool_held P y HZ → P !! i = Some (w, HB) → (f, F) ∈ HB →
  ∃ s r, s_mincut (BssM w y) f = Some (s, r) ∧ (r = None ↔ ¬ increasing F) ∧
    ∀ z, r = Some z → stands_for (y_zdd (s_zdd s)) z (min_cuts F).
Proof. exact (pool_mincut P y HZ i w HB f F). Qed.
Print Assumptions c101_mincut.

(** A set operation on two families of one manager gives what it should (C52), whatever else is in the forest. *)
Theorem c101_same_manager o P y HZ i f F g G R : pool_held P y HZ → (f, Some (i, F)) ∈ HZ → (g, Some (i, G)) ∈ HZ →
  zop_gives o (Some F) (Some G) (Some R) → ∃ y' r, y_op o y f g = Some (y', r) ∧ stands_for (y_zdd y') r R.
Proof. exact (pool_same o P y HZ i f F g G R). Qed.
Print Assumptions c101_same_manager.

(** A set operation on any two families held returns a usable node and disturbs no family held. *)
Theorem c101_op_harmless o P y HZ f X g Y : pool_held P y HZ → (f, X) ∈ HZ → (g, Y) ∈ HZ → ∃ y' r, y_op o y f g = Some (y', r) ∧
  zdd_valid (y_zdd y') r ∧ ∀ z i F, (z, Some (i, F)) ∈ HZ → stands_for (y_zdd y') z F.
Proof. exact (pool_op o P y HZ f X g Y). Qed.
Print Assumptions c101_op_harmless.

(** But its result can be wrong when the two belong to different managers: the operations go by level, and the same level carries
    another name in another manager.  The union of the families {{"a"}} and {{"b"}}, each over the first variable of its own
    manager, is {{"a"}}. *)
Theorem c101_union_refuted : ∃ P y HZ z1 z2 i1 i2 F1 F2 y' r, pool_held P y HZ ∧ (z1, Some (i1, F1)) ∈ HZ ∧ (z2, Some (i2, F2)) ∈ HZ ∧
  y_op ZUnion y z1 z2 = Some (y', r) ∧ ¬ stands_for (y_zdd y') r (λ S, F1 S ∨ F2 S).
Proof. exact pool_union_wrong. Qed.
Print Assumptions c101_union_refuted.

(** Example: managers with the orders a < b and b < c < a; their functions [a ∧ b], [b ∨ (c ∧ a)]; the families in one forest that
    collects at every wrapped result, and the union of the two of the second manager. *)
Definition ex_pool : option (pool * zmgr * option nat * option nat * option nat * nat) :=
  let y := y_set_threshold y_new 1 in
  let '(w0, a0) := w_defvar w_new "a" in
  let '(w0, b0) := w_defvar w0 "b" in
  '(w0, f0) ← w_and w0 a0 b0;
  let '(w1, b1) := w_defvar w_new "b" in
  let '(w1, c1) := w_defvar w1 "c" in
  let '(w1, a1) := w_defvar w1 "a" in
  '(w1, g1) ← w_and w1 c1 a1;
  '(w1, f1) ← w_or w1 b1 g1;
  '(s, p0) ← s_minpath (BssM w0 y) f0; let w0 := s_bdd s in
  '(s, p1) ← s_minpath (BssM w1 (s_zdd s)) f1; let w1 := s_bdd s in
  '(s, k1) ← s_mincut (BssM w1 (s_zdd s)) f1; let w1 := s_bdd s in
  z1 ← p1; z2 ← k1; '(y, u) ← y_op ZUnion (s_zdd s) z1 z2;
  Some ([(w0, [(f0, λ e : env, e "a" && e "b"); (b0, λ e : env, e "b"); (a0, λ e : env, e "a")]);
         (w1, [(f1, λ e : env, e "b" || (e "c" && e "a")); (g1, λ e : env, e "c" && e "a"); (a1, λ e : env, e "a"); (c1, λ e : env, e "c"); (b1, λ e : env, e "b")])],
        y, p0, p1, k1, u)%string.
Example c101_ex_run : (λ x : pool * zmgr * option nat * option nat * option nat * nat, let '(_, y, p0, p1, k1, u) := x in
    (p0 ≫= y_extract 100 y [true], p1 ≫= y_extract 100 y [true], k1 ≫= y_extract 100 y [true], y_extract 100 y [true] u)) <$> ex_pool
  = Some (Some [["a"; "b"]], Some [["b"]; ["c"; "a"]], Some [["b"; "c"]; ["b"; "a"]],
      Some [["b"]; ["b"; "c"]; ["b"; "a"]; ["c"; "a"]])%string.
Proof. vm_compute. reflexivity. Qed.
Example c101_ex_held P y z0 z1 k1 u : ex_pool = Some (P, y, Some z0, Some z1, Some k1, u) →
  let F := λ e : env, (e "b" || (e "c" && e "a"))%string in pool_held P y
  [(u, Some (1, λ S, min_paths F S ∨ min_cuts F S)); (k1, Some (1, min_cuts F)); (z1, Some (1, min_paths F));
   (z0, Some (0, min_paths (λ e : env, e "a" && e "b")))]%string.
Proof.
  unfold ex_pool. pose proof (ph_tidy _ _ _ _ _ (ph_new 2) (td_threshold _ _ _ 1)) as H0. cbn [replicate] in H0. revert H0.
  generalize (y_set_threshold y_new 1). intros y0 H0.
  destruct (w_defvar w_new "a") as [wa a0] eqn:E.
  pose proof (ph_bdd _ 0 _ _ _ _ _ _ H0 eq_refl (st_defvar _ _ _ _ _ E)) as H1. cbn [list_insert insert] in H1.
  destruct (w_defvar wa "b") as [wb b0] eqn:E1.
  pose proof (ph_bdd _ 0 _ _ _ _ _ _ H1 eq_refl (st_defvar _ _ _ _ _ E1)) as H2. cbn [list_insert insert] in H2.
  destruct (w_and wb a0 b0) as [[wc f0]|] eqn:E2; [|done]. cbn [mbind option_bind].
  pose proof (ph_bdd _ 0 _ _ _ _ _ _ H2 eq_refl (st_bin BAnd _ _ _ _ _ _ _ _ ltac:(right; left) ltac:(left) E2)) as H3. cbn [list_insert insert bop2_fun] in H3.
  destruct (w_defvar w_new "b") as [v1 b1] eqn:E3.
  pose proof (ph_bdd _ 1 _ _ _ _ _ _ H3 eq_refl (st_defvar _ _ _ _ _ E3)) as H4. cbn [list_insert insert] in H4.
  destruct (w_defvar v1 "c") as [v2 c1] eqn:E4.
  pose proof (ph_bdd _ 1 _ _ _ _ _ _ H4 eq_refl (st_defvar _ _ _ _ _ E4)) as H5. cbn [list_insert insert] in H5.
  destruct (w_defvar v2 "a") as [v3 a1] eqn:E5.
  pose proof (ph_bdd _ 1 _ _ _ _ _ _ H5 eq_refl (st_defvar _ _ _ _ _ E5)) as H6. cbn [list_insert insert] in H6.
  destruct (w_and v3 c1 a1) as [[v4 g1]|] eqn:E6; [|done]. cbn [mbind option_bind].
  pose proof (ph_bdd _ 1 _ _ _ _ _ _ H6 eq_refl (st_bin BAnd _ _ _ _ _ _ _ _ ltac:(right; left) ltac:(left) E6)) as H7. cbn [list_insert insert bop2_fun] in H7.
  destruct (w_or v4 b1 g1) as [[v5 f1]|] eqn:E7; [|done]. cbn [mbind option_bind].
  pose proof (ph_bdd _ 1 _ _ _ _ _ _ H7 eq_refl (st_bin BOr _ _ _ _ _ _ _ _ ltac:(do 3 right; left) ltac:(left) E7)) as H8. cbn [list_insert insert bop2_fun] in H8.
  destruct (s_minpath (BssM wc y0) f0) as [[s1 p0]|] eqn:E8; [|done]. cbn [mbind option_bind].
  pose proof (ph_minpath _ 0 _ _ _ _ _ _ _ _ H8 eq_refl ltac:(left) E8) as H9. cbn [list_insert insert] in H9.
  destruct (s_minpath (BssM v5 (s_zdd s1)) f1) as [[s2 p1]|] eqn:E9; [|done]. cbn [mbind option_bind].
  pose proof (ph_minpath _ 1 _ _ _ _ _ _ _ _ H9 eq_refl ltac:(left) E9) as H10. cbn [list_insert insert] in H10.
  destruct (s_mincut (BssM (s_bdd s2) (s_zdd s2)) f1) as [[s3 p2]|] eqn:E10; [|done]. cbn [mbind option_bind].
  pose proof (ph_mincut _ 1 _ _ _ _ _ _ _ _ H10 eq_refl ltac:(left) E10) as H11. cbn [list_insert insert] in H11.
  destruct p1 as [q1|]; [|done]. destruct p2 as [q2|]; [|done]. cbn [mbind option_bind].
  destruct (y_op ZUnion (s_zdd s3) q1 q2) as [[y4 u4]|] eqn:E11; [|done]. cbn [mbind option_bind]. intros [= <- <- -> -> -> ->].
  exact (ph_tidy _ _ _ _ _ H11 (td_same _ ZUnion 1 _ _ _ _ _ _ _ _ _ ltac:(right; left) ltac:(left) (zg_union _ _) E11)).
Qed.
