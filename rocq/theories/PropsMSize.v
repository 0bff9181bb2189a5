(** Property C73: the sizes of multi-state diagrams, in vertices as MddNode::size reports them. *)
From stdpp Require Import strings.
From Verif Require Import Prelude ComputeCache Arena Bdd Mdd MtMdd MtMdd2 Zmdd ZmddAlg BssMgr MddMinsol MssConv MssMgr MssAlg
  SpecBdd SpecMdd SpecZmdd SpecZmddAlg SpecBss SpecBssMgr SpecMss SpecMssAlg SpecSize SpecMSize MSize PropsMss.

(** A function that is a pointwise combination of held functions, integer or boolean, has at most the product of their
    numbers of vertices. *)
Theorem c73_combination I w H (L : list (mnode * mfn)) r R (op : list mval → mval) s ss : mdd_held I w H →
  (∀ x F, (x, F) ∈ L → (x, Some F) ∈ H) → (r, Some R) ∈ H → (∀ e, mrange (g_mm w) e → R e = op ((λ x, x.2 e) <$> L)) →
  g_size w r = Some s → Forall2 (λ x s, g_size w x.1 = Some s) L ss → (vertices s ≤ foldr (λ s n, vertices s * n) 1 ss)%N.
Proof. exact (m_held_comb I w H L r R op s ss). Qed.
Print Assumptions c73_combination.

(** Arithmetic, comparisons and gates: the result is at most the product of the operands. *)
Theorem c73_binary I o w H f F g G w' r R : mdd_held I w H → (f, Some F) ∈ H → (g, Some G) ∈ H →
  g_bin (mm_bin I o) w f g = Some (w', r) → o ≠ OCmp Lte → (∀ e, mrange (g_mm w) e → val2 I o (F e) (G e) = Some (R e)) →
  ∃ s sf sg, g_size w' r = Some s ∧ g_size w' f = Some sf ∧ g_size w' g = Some sg ∧ (vertices s ≤ vertices sf * vertices sg)%N.
Proof. exact (m_held_binary I o w H f F g G w' r R). Qed.
Print Assumptions c73_binary.

(** No decision graph of the function that tests the variables in the order they were declared has fewer vertices. *)
Theorem c73_minimal I w H x F g i s : mdd_held I w H → (x, Some F) ∈ H → m_graph_ordered (declared w) g →
  (∀ e, mrange (g_mm w) e → m_answer_of g e i (F e)) → g_size w x = Some s → (vertices s ≤ N.of_nat (length g))%N.
Proof. exact (m_held_minimal I w H x F g i s). Qed.
Print Assumptions c73_minimal.

(** x + y over x : 3, y : 2 has 7 vertices, x 4 and y 3 *)
Example c73_ex : ('(w, x) ← g_defvar g_new "x" 3; '(w, y) ← g_defvar w "y" 2; '(w, a) ← g_bin (mm_bin i32_checked (OArith VAdd)) w x y;
    sx ← g_size w x; sy ← g_size w y; sa ← g_size w a; Some (declared w, vertices <$> [sx; sy; sa])) =
  Some ([("x", 3); ("y", 2)]%string, [4; 3; 7]%N).
Proof. vm_compute. done. Qed.
(** a drawing of x + y with 9 vertices *)
Definition ex_mgraph : list mvertex :=
  [MTest "y" [1; 2]; MTest "x" [3; 4; 5]; MTest "x" [6; 7; 8]; MAnswer (VI (VVal 0)); MAnswer (VI (VVal 1)); MAnswer (VI (VVal 2));
   MAnswer (VI (VVal 1)); MAnswer (VI (VVal 2)); MAnswer (VI (VVal 3))]%string.
Example c73_ex_ordered : m_graph_ordered [("x", 3); ("y", 2)]%string ex_mgraph.
Proof.
  intros i x next. destruct i as [|[|[|i]]]; intros Hi; [injection Hi as <- <-..|].
  - exists 1, 2. repeat split. intros j Hj. rewrite !elem_of_cons, elem_of_nil in Hj. destruct Hj as [->|[->|[]]]; exists 0, 3; (split; [lia|done]).
  - exists 0, 3. repeat split. intros j Hj. rewrite !elem_of_cons, elem_of_nil in Hj. by destruct Hj as [->|[->|[->|[]]]].
  - exists 0, 3. repeat split. intros j Hj. rewrite !elem_of_cons, elem_of_nil in Hj. by destruct Hj as [->|[->|[->|[]]]].
  - exfalso. do 6 (destruct i as [|i]; [done|]). done.
Qed.
Example c73_ex_answers e : e "x"%string < 3 → e "y"%string < 2 → m_answer_of ex_mgraph e 0 (VI (VVal (ex_add e))).
Proof.
  intros Hx Hy. unfold ex_add. destruct (e "y"%string) as [|[|]] eqn:Ey; [| |lia]; destruct (e "x"%string) as [|[|[|]]] eqn:Ex; try lia.
  all: eapply mao_test; [done|by rewrite Ey|]; (eapply mao_test; [done|by rewrite Ex|]); by apply mao_answer.
Qed.
