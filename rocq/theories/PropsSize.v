(** Properties C71, C72: how large the diagrams of held functions are, in vertices as BddNode::size reports them. *)
From stdpp Require Import strings.
From Verif Require Import Prelude ComputeCache Arena Bdd BssAlg BssMgr BssLook SpecBdd SpecBss SpecBssMgr BssMgrProofs BssMgrMain
  SpecSize Subdd SizeBound SizeKofn SizeMain PropsBssMgr.

(** ** C71 *)
(** A function that is a pointwise combination of held functions has at most the product of their numbers of vertices. *)
Theorem c71_combination w H (L : list (nat * nfun)) r R (op : list bool → bool) s ss :
  bss_held w H → (∀ x, x ∈ L → x ∈ H) → (r, R) ∈ H → (∀ e, R e = op ((λ x, x.2 e) <$> L)) →
  w_size w r = Some s → Forall2 (λ x s, w_size w x.1 = Some s) L ss →
  (vertices s ≤ foldr (λ s n, vertices s * n) 1 ss)%N.
Proof. exact (held_comb w H L r R op s ss). Qed.
Print Assumptions c71_combination.

(** and, or, xor: the result is at most the product of the operands. *)
Theorem c71_gate o w H f F g G w' r : bss_held w H → (f, F) ∈ H → (g, G) ∈ H → w_bin o w f g = Some (w', r) →
  ∃ s sf sg, w_size w' r = Some s ∧ w_size w' f = Some sf ∧ w_size w' g = Some sg ∧ (vertices s ≤ vertices sf * vertices sg)%N.
Proof. exact (held_gate o w H f F g G w' r). Qed.
Print Assumptions c71_gate.

Theorem c71_ite w H f F g G h K w' r : bss_held w H → (f, F) ∈ H → (g, G) ∈ H → (h, K) ∈ H → w_ite w f g h = Some (w', r) →
  ∃ s sf sg sh, w_size w' r = Some s ∧ w_size w' f = Some sf ∧ w_size w' g = Some sg ∧ w_size w' h = Some sh ∧
    (vertices s ≤ vertices sf * (vertices sg * vertices sh))%N.
Proof. exact (held_ite_size w H f F g G h K w' r). Qed.
Print Assumptions c71_ite.

(** not and dual: the result has exactly as many vertices as the operand. *)
Theorem c71_not w H f F w' r : bss_held w H → (f, F) ∈ H → w_not w f = Some (w', r) →
  ∃ s sf, w_size w' r = Some s ∧ w_size w' f = Some sf ∧ vertices s = vertices sf.
Proof. exact (held_not_size w H f F w' r). Qed.
Print Assumptions c71_not.

Theorem c71_dual w H f F w' r : bss_held w H → (f, F) ∈ H → w_dual w f = Some (w', r) →
  ∃ s sf, w_size w' r = Some s ∧ w_size w' f = Some sf ∧ vertices s = vertices sf.
Proof. exact (held_dual_size w H f F w' r). Qed.
Print Assumptions c71_dual.

(** kofn over distinct variables: at most k·(n-k+1) tests and two answers, in whatever order the variables were declared or listed. *)
Theorem c71_kofn w H k (L : list (nat * string)) w' r :
  bss_held w H → (∀ x, x ∈ L → (x.1, λ e : env, e x.2) ∈ H) → NoDup L.*2 →
  w_kofn w k L.*1 = Some (w', r) →
  ∃ s, w_size w' r = Some s ∧ (vertices s ≤ N.of_nat (k * (length L + 1 - k) + 2))%N.
Proof. exact (held_kofn_call w H k L w' r). Qed.
Print Assumptions c71_kofn.

(** f = (x & y) | z has 5 vertices, g = f xor x has 6, within 5·3 *)
Example c71_ex : (r ← ex_w; let '(w, f, g) := r in
    sf ← w_size w f; sx ← w_size w 3; sg ← w_size w g; '(w, n) ← w_not w g; sn ← w_size w n; '(w, d) ← w_dual w g; sd ← w_size w d;
    Some (vertices <$> [sf; sx; sg; sn; sd], bool_decide (d = g))) = Some ([5; 3; 6; 6; 6]%N, false).
Proof. vm_compute. done. Qed.
(** three out of five reaches the bound 3·3 + 2 *)
Example c71_kofn_ex :
  (let '(w, a) := w_defvar w_new "a" in let '(w, b) := w_defvar w "b" in let '(w, c) := w_defvar w "c" in
   let '(w, d) := w_defvar w "d" in let '(w, e) := w_defvar w "e" in
   '(w, r) ← w_kofn w 3 [c; e; a; d; b]; w_size w r) = Some (9, 2, 18)%N.
Proof. vm_compute. done. Qed.

(** ** C72 *)
(** No decision graph of the function that tests the variables in the order of the manager has fewer vertices. *)
Theorem c72_minimal w H f F names g i s : bss_held w H → (f, F) ∈ H → w_varorder w = Some names →
  graph_ordered names g → (∀ e, answer_of g e i (F e)) → w_size w f = Some s → (vertices s ≤ N.of_nat (length g))%N.
Proof. exact (held_minimal w H f F names g i s). Qed.
Print Assumptions c72_minimal.

(** a drawing of (x & y) | z with the test of x done twice *)
Definition ex_graph : list vertex :=
  [Answer false; Answer true; Test "x" 0 1; Test "x" 0 0; Test "y" 3 2; Test "z" 4 1]%string.
Example c72_ex_ordered : graph_ordered ["x"; "y"; "z"]%string ex_graph.
Proof.
  intros i x lo hi. destruct i as [|[|[|[|[|[|[|]]]]]]]; intros [= <- <- <-].
  - exists 0. repeat split.
  - exists 0. repeat split.
  - exists 1. repeat split; exists 0; (split; [lia|done]).
  - exists 2. repeat split; exists 1; (split; [lia|done]).
Qed.
Example c72_ex_answers e : answer_of ex_graph e 5 ((e "x" && e "y") || e "z")%string.
Proof.
  eapply ao_test; [done|]. destruct (e "z")%string; [rewrite orb_true_r; by apply ao_answer|]. rewrite orb_false_r.
  eapply ao_test; [done|]. destruct (e "y")%string; eapply ao_test; try done; destruct (e "x")%string; by apply ao_answer.
Qed.
Example c72_ex : (r ← ex_w; let '(w, f, g) := r in s ← w_size w f; Some (vertices s, length ex_graph)) = Some (5%N, 6).
Proof. vm_compute. done. Qed.
