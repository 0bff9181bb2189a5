(** Property C57: iterators keep their promise while the manager goes on working. *)
From stdpp Require Import strings.
From Verif Require Import Prelude ComputeCache Arena Bdd BssAlg BssMgr SpecBdd SpecBss SpecBssMgr BssMgrProofs BssMgrMain
  Zdd ZddAlg SpecZdd ZddMgr SpecZddMgr ZddMgrProofs BssJoint ZddMgrMain Iter SpecIter IterProofs IterBss IterZdd.

(** ** BddPath *)
(** At every moment of every history there is a list [L] of value vectors, without repetition and all of
    one length, that covers exactly the assignments whose value is asked for; what the iterator has yielded
    is a prefix of the rendering of [L], [next] gives the following entry ([None] at the end), and [len]
    is the length of [L]. *)
Theorem c57_bdd w H its r : bss_iter w H its → r ∈ its →
  let names := w_names w in
  ∃ L n, NoDup L ∧ n ≤ length names ∧ (∀ v, v ∈ L → length v = n) ∧
    (∀ e, br_fun r e ∈ bi_ss (br_it r) ↔ ∃ v, v ∈ L ∧ agrees names v e) ∧
    br_out r `prefix_of` (render names <$> L) ∧
    (∃ k0, ∀ k, k0 ≤ k → ∃ it', biter_next k w (br_it r) = Some (it', (render names <$> L) !! length (br_out r))) ∧
    biter_len w (br_it r) = Some (N.of_nat (length L)).
Proof. exact (λ Hi, iters_exact w H its r (iter_ok w H its Hi)). Qed.
Print Assumptions c57_bdd.

(** Starting an iterator on a held handle never panics, and iterators do not disturb the handles. *)
Theorem c57_bdd_start w H its f F ss : bss_iter w H its → (f, F) ∈ H → is_Some (biter_start w f ss).
Proof. exact (iter_start w H its f F ss). Qed.
Print Assumptions c57_bdd_start.
Theorem c57_bdd_handles w H its f F : bss_iter w H its → (f, F) ∈ H →
  bdd_valid (w_bdd w) f ∧ ∀ e, bss_value (w_bdd w) e f (tvb (F e)).
Proof. exact (iter_handles w H its f F). Qed.
Print Assumptions c57_bdd_handles.

(** ** ZddPath *)
Theorem c57_zdd w H its r F : zdd_iter w H its → r ∈ its → zr_fam r = Some F → zi_ss (zr_it r) = [true] →
  ∃ L, Forall NoDup L ∧ NoDup (list_to_set <$> L : list (gset string)) ∧
    (∀ S, S ∈ (list_to_set <$> L : list (gset string)) ↔ F S) ∧
    zr_out r `prefix_of` L ∧
    (∃ k0, ∀ k, k0 ≤ k → ∃ it', ziter_next k w (zr_it r) = Some (it', L !! length (zr_out r))) ∧
    ziter_len w (zr_it r) = Some (N.of_nat (length L)).
Proof. exact (λ Hi, ziters_exact w H its r F (proj1 (ziter_ok w H its Hi))). Qed.
Print Assumptions c57_zdd.
Theorem c57_zdd_handles w H its f F : zdd_iter w H its → (f, Some F) ∈ H → stands_for (y_zdd w) f F.
Proof. exact (ziter_handles w H its f F). Qed.
Print Assumptions c57_zdd_handles.

(** ** both in a BssMgr *)
Theorem c57_joint_bdd s HB HZ IB IZ r : bssm_iter s HB HZ IB IZ → r ∈ IB →
  let w := s_bdd s in
  let names := w_names w in
  ∃ L n, NoDup L ∧ n ≤ length names ∧ (∀ v, v ∈ L → length v = n) ∧
    (∀ e, br_fun r e ∈ bi_ss (br_it r) ↔ ∃ v, v ∈ L ∧ agrees names v e) ∧
    br_out r `prefix_of` (render names <$> L) ∧
    (∃ k0, ∀ k, k0 ≤ k → ∃ it', biter_next k w (br_it r) = Some (it', (render names <$> L) !! length (br_out r))) ∧
    biter_len w (br_it r) = Some (N.of_nat (length L)).
Proof. exact (λ Hi, iters_exact (s_bdd s) HB IB r (proj1 (jiter_ok s HB HZ IB IZ Hi))). Qed.
Print Assumptions c57_joint_bdd.
Theorem c57_joint_zdd s HB HZ IB IZ r F : bssm_iter s HB HZ IB IZ → r ∈ IZ → zr_fam r = Some F → zi_ss (zr_it r) = [true] →
  let w := s_zdd s in
  ∃ L, Forall NoDup L ∧ NoDup (list_to_set <$> L : list (gset string)) ∧
    (∀ S, S ∈ (list_to_set <$> L : list (gset string)) ↔ F S) ∧
    zr_out r `prefix_of` L ∧
    (∃ k0, ∀ k, k0 ≤ k → ∃ it', ziter_next k w (zr_it r) = Some (it', L !! length (zr_out r))) ∧
    ziter_len w (zr_it r) = Some (N.of_nat (length L)).
Proof. exact (λ Hi, ziters_exact (s_zdd s) HZ IZ r F (proj1 (proj2 (jiter_ok s HB HZ IB IZ Hi)))). Qed.
Print Assumptions c57_joint_zdd.

(** ** Examples *)
(** [x·y ∨ z] at threshold 1: an iterator over its false points is started, the handle is dropped, and
    between the calls of [next] the manager collects, builds other diagrams and gets another variable. *)
Definition ex_it1 : option (bmgr * nat * biter) :=
  let w := w_set_threshold w_new 1 in
  let '(w, x) := w_defvar w "x" in
  let '(w, y) := w_defvar w "y" in
  let '(w, z) := w_defvar w "z" in
  '(w, a) ← w_and w x y;
  '(w, f) ← w_or w a z;
  let w := w_drop w a in
  '(w, it) ← biter_start w f [false];
  Some (w_drop w f, x, it).
Definition ex_it2 : option (bmgr * biter * list (list string)) :=
  '(w, x, it) ← ex_it1;
  '(it, o1) ← biter_next 100 w it;
  '(w, n) ← w_not w x;
  '(it, o2) ← biter_next 100 w it;
  let '(w, u) := w_defvar w "u" in
  '(w, g) ← w_xor w n u;
  '(w, c) ← w_gc w [];
  '(it, o3) ← biter_next 100 w it;
  '(w, h) ← w_or w g x;
  Some (w, it, yield (yield (yield [] o1) o2) o3).
Example c57_ex_run : match ex_it2 with
  | Some (w, it, out) => Some (out, biter_len w it, snd <$> biter_next 100 w it)
  | None => None end
  = Some ([["~x"; "~y"; "~z"]; ["x"; "~y"; "~z"]; ["~x"; "y"; "~z"]], Some 3%N, Some None)%string.
Proof. vm_compute. reflexivity. Qed.
Example c57_ex_history w x it : ex_it1 = Some (w, x, it) →
  ∃ H f F, bss_iter w H [BRun it F []] ∧ (x, λ e : env, e "x"%string) ∈ H ∧ f = bi_node it ∧ bi_ss it = [false] ∧
    F = (λ e : env, (e "x"%string && e "y"%string) || e "z"%string).
Proof.
  unfold ex_it1. pose proof (bi_call _ _ _ _ _ bi_new (st_threshold _ _ 1)) as H0. revert H0. generalize (w_set_threshold w_new 1). intros w0 H0.
  destruct (w_defvar w0 "x") as [w1 x1] eqn:E1. apply (st_defvar _ []) in E1. eapply bi_call in E1; [|exact H0].
  destruct (w_defvar w1 "y") as [w2 y1] eqn:E2. eapply st_defvar in E2. eapply bi_call in E2; [|exact E1].
  destruct (w_defvar w2 "z") as [w3 z1] eqn:E3. eapply st_defvar in E3. eapply bi_call in E3; [|exact E2].
  destruct (w_and w3 x1 y1) as [[w4 a]|] eqn:E4; [|done]. cbn [mbind option_bind].
  eapply (st_bin BAnd) in E4; [|by right; right; left|by right; left]. eapply bi_call in E4; [|exact E3].
  destruct (w_or w4 a z1) as [[w5 f]|] eqn:E5; [|done]. cbn [mbind option_bind].
  eapply (st_bin BOr) in E5; [|by left|by right; left]. eapply bi_call in E5; [|exact E4].
  eapply bi_call in E5; [|eapply (st_drop _ _ a); apply perm_swap].
  destruct (biter_start (w_drop w5 a) f [false]) as [[w6 it']|] eqn:E6; [|done]. cbn [mbind option_bind].
  assert (Hit : bi_node it' = f ∧ bi_ss it' = [false]).
  { clear -E6. unfold biter_start in E6. destruct (path_labels _); [|done]. cbn in E6. destruct (bpath_new _ _); [|done]. cbn in E6. by injection E6 as <- <-. }
  eapply bi_start in E6; [|exact E5|by left].
  eapply bi_call in E6; [|eapply (st_drop _ _ f); reflexivity].
  intros [= <- <- <-]. eexists _, f, _. split; [exact E6|]. split; [by right; right; left|]. by destruct Hit.
Qed.

(** families: an iterator over [{{x,y},{z}}] survives the drop of its handle and a collection *)
Definition ex_itz : option (zmgr * ziter * list (list string)) :=
  '(w, f) ← y_from_sets (y_set_threshold y_new 1) [["x"; "y"]; ["z"]]%string;
  let '(w, it) := ziter_start w f [true] in
  let w := y_drop w f in
  '(it, o1) ← ziter_next 100 w it;
  '(w, g) ← y_singleton w "u"%string;
  '(w, h) ← y_op ZUnion w g g;
  '(it, o2) ← ziter_next 100 w it;
  Some (w, it, yield (yield [] o1) o2).
Example c57_ex_zdd_run : match ex_itz with
  | Some (w, it, out) => Some (out, ziter_len w it, snd <$> ziter_next 100 w it)
  | None => None end
  = Some ([["x"; "y"]; ["z"]], Some 2%N, Some None)%string.
Proof. vm_compute. reflexivity. Qed.
Example c57_ex_zdd_history w f it : y_from_sets (y_set_threshold y_new 1) [["x"; "y"]; ["z"]]%string = Some (w, f) →
  ziter_start w f [true] = (y_clone w f, it) →
  zdd_iter (y_drop (y_clone w f) f) [] [ZRun it (Some (λ S : gset string, ∃ s, s ∈ [["x"; "y"]; ["z"]]%string ∧ S = list_to_set s)) []].
Proof.
  intros E1 E2. eapply zi_from_sets in E1; [|exact (zi_call _ _ _ _ _ zi_new (ys_threshold _ _ 1))].
  eapply zi_start in E2; [|exact E1|by left]. eapply zi_call; [exact E2|]. by eapply (ys_drop _ _ f).
Qed.
