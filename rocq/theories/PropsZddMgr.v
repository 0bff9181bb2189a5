(** Properties C52, C53: the handle-counting wrapper ZddMgr and the joint manager BssMgr. *)
From stdpp Require Import strings.
From Verif Require Import Prelude ComputeCache Arena Bdd BssAlg BssMgr SpecBdd SpecBssMgr BssMgrProofs BssMgrMain
  Zdd ZddAlg SpecZdd ZddMgr SpecZddMgr ZddMgrProofs BssJoint ZddMgrMain.

(** ** C52: families behind handles *)
(** After every history of calls, at every threshold, every handle still held stands for the family it
    was created to stand for: its paths to One spell exactly the members, none leads to Undet. *)
Theorem c52_handles w H f F : zdd_in_use w H → (f, Some F) ∈ H → stands_for (y_zdd w) f F.
Proof. exact (in_use_stands w H f F). Qed.
Print Assumptions c52_handles.

(** In a ZddMgr of its own, two handles are equal exactly when their families are. *)
Theorem c52_equal w H f F g G : zdd_held w H → (f, Some F) ∈ H → (g, Some G) ∈ H → f = g ↔ ∀ S, F S ↔ G S.
Proof. exact (held_zeq w H f F g G). Qed.
Print Assumptions c52_equal.

(** No call on held handles panics. *)
Theorem c52_no_panic w H : zdd_in_use w H →
  is_Some (y_empty w) ∧ is_Some (y_base w) ∧
  (∀ o f g, f ∈ H.*1 → g ∈ H.*1 → is_Some (y_op o w f g)) ∧
  (∀ f, f ∈ H.*1 → is_Some (y_children w f) ∧ ∀ ss, is_Some (y_count w ss f)).
Proof. exact (in_use_progress w H). Qed.
Print Assumptions c52_no_panic.
Theorem c52_no_panic_new w H : zdd_held w H → (∀ x, is_Some (y_singleton w x)) ∧ ∀ sets, is_Some (y_from_sets w sets).
Proof. exact (held_makes w H). Qed.
Print Assumptions c52_no_panic_new.

(** [count(&[true])] is the number of members. *)
Theorem c52_count w H f F L : zdd_in_use w H → (f, Some F) ∈ H → NoDup L → (∀ S, S ∈ L ↔ F S) →
  y_count w [true] f = Some (N.of_nat (length L)).
Proof. exact (in_use_count w H f F L). Qed.
Print Assumptions c52_count.

(** [extract(&[true])] lists each member once, and in each member each element once. *)
Theorem c52_extract w H f F : zdd_in_use w H → (f, Some F) ∈ H →
  ∃ L k0, (∀ fuel, k0 ≤ fuel → y_extract fuel w [true] f = Some L) ∧
    Forall NoDup L ∧ NoDup (list_to_set <$> L : list (gset string)) ∧
    ∀ S, S ∈ (list_to_set <$> L : list (gset string)) ↔ F S.
Proof. exact (in_use_extract w H f F). Qed.
Print Assumptions c52_extract.

(** [is_zero] tells the empty family, [is_one] the family of the empty set. *)
Theorem c52_terminal_tests t w H f F : zdd_in_use w H → (f, Some F) ∈ H → (t = TZero ∨ t = TOne) →
  ∃ b, y_is t w f = Some b ∧ (b = true ↔ ∀ S, F S ↔ t = TOne ∧ S = ∅).
Proof. exact (in_use_is t w H f F). Qed.
Print Assumptions c52_terminal_tests.

(** Example: [{{x,y},{z}} ∪ {{x}}] at threshold 1, the first operand dropped before the product *)
Definition ex_y : option (zmgr * nat * nat) :=
  '(w, f) ← y_from_sets (y_set_threshold y_new 1) [["x"; "y"]; ["z"]]%string;
  '(w, g) ← y_singleton w "x"%string;
  '(w, u) ← y_op ZUnion w f g;
  let w := y_drop w f in
  '(w, p) ← y_op ZProduct w u g;
  Some (w, u, p).
Example c52_ex_held w u p : ex_y = Some (w, u, p) → ∃ g, zdd_held w
  [(p, Some (λ S, ∃ A B : gset string, S = A ∪ B ∧
       ((∃ s, s ∈ [["x"; "y"]; ["z"]] ∧ A = list_to_set s) ∨ A = {["x"]}) ∧ B = {["x"]}));
   (u, Some (λ S : gset string, (∃ s, s ∈ [["x"; "y"]; ["z"]] ∧ S = list_to_set s) ∨ S = {["x"]}));
   (g, Some (λ S : gset string, S = {["x"]}))]%string.
Proof.
  unfold ex_y. pose proof (zm_step _ _ _ _ zm_new (ys_threshold _ _ 1)) as H0. revert H0. generalize (y_set_threshold y_new 1). intros w0 H0.
  destruct (y_from_sets w0 _) as [[w1 f]|] eqn:E1; [|done]. cbn [mbind option_bind]. apply (zm_from_sets _ _ _ _ _ H0) in E1.
  destruct (y_singleton w1 "x") as [[w2 g]|] eqn:E2; [|done]. cbn [mbind option_bind]. apply (zm_singleton _ _ _ _ _ E1) in E2.
  destruct (y_op ZUnion w2 f g) as [[w3 u']|] eqn:E3; [|done]. cbn [mbind option_bind].
  eapply ys_op in E3; [|by right; left|by left|apply zg_union]. eapply zm_step in E3; [|exact E2].
  eapply zm_step in E3; [|eapply (ys_drop _ _ f)].
  2:{ etrans; [apply Permutation_skip, perm_swap|apply perm_swap]. }
  destruct (y_op ZProduct (y_drop w3 f) u' g) as [[w4 p']|] eqn:E4; [|done]. cbn [mbind option_bind].
  eapply ys_op in E4; [|by left|by right; left|apply zg_product]. eapply zm_step in E4; [|exact E3].
  intros [= <- <- <-]. exists g. exact E4.
Qed.
Example c52_ex_run : (λ x : zmgr * nat * nat, let '(w, u, p) := x in
    (y_count w [true] u, y_count w [true] p, y_extract 100 w [true] u, y_extract 100 w [true] p)) <$> ex_y
  = Some (Some 3%N, Some 3%N, Some [["x"]; ["x"; "y"]; ["z"]], Some [["x"]; ["x"; "y"]; ["x"; "z"]])%string.
Proof. vm_compute. reflexivity. Qed.

(** ** C53: minimal paths and cuts through the joint manager *)
Theorem c53_handles s HB HZ : bssm_held s HB HZ →
  (∀ f F, (f, F) ∈ HB → bdd_valid (w_bdd (s_bdd s)) f ∧ ∀ e, bss_value (w_bdd (s_bdd s)) e f (tvb (F e))) ∧
  (∀ z F, (z, Some F) ∈ HZ → stands_for (y_zdd (s_zdd s)) z F).
Proof.
  exact (λ Hj, conj (λ f F, wk_held _ _ (proj1 (bssm_held_ok s HB HZ Hj)) f F) (λ z F, zk_held _ _ (proj1 (proj2 (bssm_held_ok s HB HZ Hj))) z F)).
Qed.
Print Assumptions c53_handles.

(** [minpath] never panics; it answers [None] exactly for a function that is not increasing; otherwise
    the handle stands for the minimal sets of components whose functioning makes the system function. *)
Theorem c53_minpath s HB HZ f F : bssm_held s HB HZ → (f, F) ∈ HB →
  ∃ s' r, s_minpath s f = Some (s', r) ∧ (r = None ↔ ¬ increasing F) ∧
    ∀ z, r = Some z → stands_for (y_zdd (s_zdd s')) z (min_paths F).
Proof. exact (minpath_named s HB HZ f F). Qed.
Print Assumptions c53_minpath.

(** [mincut]: the minimal sets of components whose failure makes the system fail. *)
Theorem c53_mincut s HB HZ f F : bssm_held s HB HZ → (f, F) ∈ HB →
  ∃ s' r, s_mincut s f = Some (s', r) ∧ (r = None ↔ ¬ increasing F) ∧
    ∀ z, r = Some z → stands_for (y_zdd (s_zdd s')) z (min_cuts F).
Proof. exact (mincut_named s HB HZ f F). Qed.
Print Assumptions c53_mincut.

(** Handles of one BssMgr may differ although their families are equal: [minpath x] twice. *)
Theorem c53_equal_refuted : ∃ s HB HZ z1 z2 F, bssm_held s HB HZ ∧ (z1, Some F) ∈ HZ ∧ (z2, Some F) ∈ HZ ∧ z1 ≠ z2.
Proof. exact joint_equal_wrong. Qed.
Print Assumptions c53_equal_refuted.

(** Example: [(x ∧ y) ∨ z] with both collectors running at every wrapped result *)
Definition ex_s : option (bssmgr * option nat * option nat * option nat) :=
  let w := w_set_threshold w_new 1 in
  let y := y_set_threshold y_new 1 in
  let '(w, x) := w_defvar w "x" in
  let '(w, y') := w_defvar w "y" in
  let '(w, z) := w_defvar w "z" in
  '(w, a) ← w_and w x y';
  '(w, f) ← w_or w a z;
  '(w, g) ← w_xor w f x;
  '(s, p) ← s_minpath (BssM w y) f;
  '(s, c) ← s_mincut s f;
  '(s, q) ← s_minpath s g;
  Some (s, p, c, q).
Example c53_ex_run : (λ x : bssmgr * option nat * option nat * option nat, let '(s, p, c, q) := x in
    (p ≫= y_extract 100 (s_zdd s) [true], c ≫= y_extract 100 (s_zdd s) [true], q)) <$> ex_s
  = Some (Some [["x"; "y"]; ["z"]], Some [["x"; "z"]; ["y"; "z"]], None)%string.
Proof. vm_compute. reflexivity. Qed.
Example c53_ex_held s p c : ex_s = Some (s, Some p, Some c, None) → ∃ HB, bssm_held s HB
  [(c, Some (min_cuts (λ e : env, (e "x" && e "y") || e "z"))); (p, Some (min_paths (λ e : env, (e "x" && e "y") || e "z")))]%string.
Proof.
  unfold ex_s. pose proof (jm_bdd _ _ _ _ _ jm_new (st_threshold _ _ 1)) as H0. cbn [s_new s_bdd s_zdd] in H0.
  pose proof (jm_zdd _ _ _ _ _ H0 (ys_threshold _ _ 1)) as H1. clear H0. cbn [s_bdd s_zdd] in H1. revert H1.
  generalize (w_set_threshold w_new 1) (y_set_threshold y_new 1). intros w0 y0 H0.
  destruct (w_defvar w0 "x") as [w1 x] eqn:E1. apply (st_defvar _ _), (jm_bdd _ _ _ _ _ H0) in E1. cbn [s_zdd] in E1.
  destruct (w_defvar w1 "y") as [w2 y] eqn:E2. apply (st_defvar _ _), (jm_bdd _ _ _ _ _ E1) in E2. cbn [s_zdd] in E2.
  destruct (w_defvar w2 "z") as [w3 z] eqn:E3. apply (st_defvar _ _), (jm_bdd _ _ _ _ _ E2) in E3. cbn [s_zdd] in E3.
  destruct (w_and w3 x y) as [[w4 a]|] eqn:E4; [|done]. cbn [mbind option_bind].
  eapply (st_bin BAnd _ _ x (λ e, e "x"%string) y (λ e, e "y"%string)), (jm_bdd _ _ _ _ _ E3) in E4; [|by repeat constructor..]. cbn [s_zdd] in E4.
  destruct (w_or w4 a z) as [[w5 b]|] eqn:E5; [|done]. cbn [mbind option_bind].
  eapply (st_bin BOr _ _ a (λ e, e "x" && e "y")%string z (λ e, e "z"%string)), (jm_bdd _ _ _ _ _ E4) in E5; [|by repeat constructor..]. cbn [s_zdd] in E5.
  destruct (w_xor w5 b x) as [[w6 g]|] eqn:E6; [|done]. cbn [mbind option_bind].
  eapply (st_bin BXor _ _ b (λ e, (e "x" && e "y") || e "z")%string x (λ e, e "x"%string)), (jm_bdd _ _ _ _ _ E5) in E6; [|by repeat constructor..]. cbn [s_zdd] in E6.
  destruct (s_minpath (BssM w6 y0) b) as [[s1 p']|] eqn:E7; [|done]. cbn [mbind option_bind].
  eapply (jm_minpath _ _ _ b (λ e, (e "x" && e "y") || e "z")%string _ _ E6) in E7; [|by right; left].
  destruct (s_mincut s1 b) as [[s2 c']|] eqn:E8; [|done]. cbn [mbind option_bind].
  eapply (jm_mincut _ _ _ b (λ e, (e "x" && e "y") || e "z")%string _ _ E7) in E8; [|by right; left].
  destruct (s_minpath s2 g) as [[s3 q]|] eqn:E9; [|done]. cbn [mbind option_bind].
  eapply (jm_minpath _ _ _ g _ _ _ E8) in E9; [|by left].
  intros [= <- -> -> ->]. eexists. exact E9.
Qed.
