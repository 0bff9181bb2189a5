(** C78: results depend on the operands' functions alone, undetermined values included (MDD and combined managers). *)
From Coq Require Import String.
From Verif Require Import Prelude ComputeCache Arena Bdd Mdd MtMdd MtMdd2 SpecBdd SpecMdd MddMain MmMain SpecExactM MddExactMain MmExactMain.

(** ** MDD manager: not, the connectives, replace, if-then-else *)
Theorem c78_mdd m1 m2 c1 c2 : mdd_reachable m1 → mdd_reachable m2 → states_agree (d_ar m1) (d_ar m2) →
  levels_distinct (d_ar m1) → levels_distinct (d_ar m2) → mdd_legal m1 c1 → mdd_legal m2 c2 →
  same_mdd_call m1 c1 m2 c2 →
  ∃ m1' r1 m2' r2, mdd_exec m1 c1 = Some (m1', r1) ∧ mdd_exec m2 c2 = Some (m2', r2) ∧
    same_node (d_ar m1') r1 (d_ar m2') r2.
Proof.
  intros R1 R2 Ag D1 D2 L1 L2 Hs.
  destruct (exec_same m1 m2 c1 c2 R1 R2 Ag D1 D2 L1 L2 Hs) as (m1' & r1 & m2' & r2 & H1 & H2 & _ & _ & _ & _ & Hr).
  by exists m1', r1, m2', r2.
Qed.
Print Assumptions c78_mdd.
Theorem c78_mdd_again m c m1 r m2 c2 r2 : mdd_reachable m → levels_distinct (d_ar m) → mdd_legal m c →
  mdd_exec m c = Some (m1, r) →
  mdd_reachable m2 → levels_distinct (d_ar m2) → states_agree (d_ar m) (d_ar m2) → mdd_legal m2 c2 → node_valid (d_ar m2) r2 →
  same_mdd_call m c m2 c2 → same_node (d_ar m1) r (d_ar m2) r2 →
  ∃ m3, mdd_exec m2 c2 = Some (m3, r2).
Proof. exact (exec_again m c m1 r m2 c2 r2). Qed.
Print Assumptions c78_mdd_again.

(** The first manager has x (3 states, level 0) and y (2 states, level 1).  The second declared y first, then an unused z, then x under
    other labels, ran other operations, cleared its caches and collected garbage.  f is undetermined where y = 0 and true where y = 1;
    g is "x = 2".  In both, "f and g" is undetermined wherever y = 0, also where x < 2. *)
Definition ex_first : list mdd_call := [DHeader 0 "x" 3; DHeader 1 "y" 2; DNode 0 [0; 0; 1]; DNode 1 [2; 1]].
Definition ex_second : list mdd_call :=
  [DHeader 1 "b" 2; DHeader 7 "z" 4; DHeader 0 "a" 3; DNode 1 [0; 0; 1; 1]; DNode 0 [2; 1]; DNode 2 [0; 0; 1]; DConn Or 3 4; DConn Xor 6 5;
   DConn And 5 4; DClear; DGc [4; 5]].
(** values for (x, y) = (0, 0), (2, 0), (0, 1), (2, 1) *)
Definition table {T} (a : arena T) (id : nat) : list (option T) :=
  map (λ rho, walk a rho 9 id) [λ _, 0; λ l, if l =? 0 then 2 else 0; λ l, if l =? 0 then 0 else 1; λ l, if l =? 0 then 2 else 1].
Example c78_mdd_ex :
  (m1 ← mdd_run mdd_new ex_first; m2 ← mdd_run mdd_new ex_second;
   '(n1, r1) ← mdd_exec m1 (DConn And 4 3); '(n2, r2) ← mdd_exec m2 (DConn And 4 5);
   '(_, i1) ← mdd_exec m1 (DIte 3 4 0); '(_, i2) ← mdd_exec m2 (DIte 5 4 0);
   Some (bool_decide (levels_distinct (d_ar m1) ∧ levels_distinct (d_ar m2) ∧ mdd_legal m1 (DConn And 4 3) ∧ mdd_legal m2 (DConn And 4 5)),
         (table (d_ar m1) 4, table (d_ar m2) 4), (table (d_ar m1) 3, table (d_ar m2) 5), (r1, r2), (table (d_ar n1) r1, table (d_ar n2) r2)))
  = Some (true,
      ([Some TUndet; Some TUndet; Some TOne; Some TOne], [Some TUndet; Some TUndet; Some TOne; Some TOne]),
      ([Some TZero; Some TOne; Some TZero; Some TOne], [Some TZero; Some TOne; Some TZero; Some TOne]),
      (5, 10),
      ([Some TUndet; Some TUndet; Some TZero; Some TOne], [Some TUndet; Some TUndet; Some TZero; Some TOne])).
Proof. vm_compute. done. Qed.
Example c78_mdd_again_ex :
  (m1 ← mdd_run mdd_new ex_first; '(n1, r1) ← mdd_exec m1 (DConn And 4 3); '(n2, q1) ← mdd_exec n1 (DIte 3 4 0);
   n3 ← mdd_run n2 [DConn Xor 3 4; DClear; DGc [3; 4; r1; q1]];
   '(n4, r2) ← mdd_exec n3 (DConn And 4 3); '(n5, q2) ← mdd_exec n4 (DIte 3 4 0); Some (r1, r2, q1, q2)) = Some (5, 5, 7, 7).
Proof. vm_compute. done. Qed.

(** ** Constants, exactly.  Unlike in the BDD manager (C77), the undetermined constant wins over zero and one. *)
Theorem c78_undetermined_wins o m g : o = MAnd ∨ o = MOr ∨ o = MXOr → mdd_reachable m → node_valid (d_ar m) g →
  (∃ m', mdd_bin_f o (ar_fuel (d_ar m)) m mdd_undet g = Some (m', mdd_undet)) ∧
  (∃ m', mdd_bin_f o (ar_fuel (d_ar m)) m g mdd_undet = Some (m', mdd_undet)).
Proof. intros [->|[->| ->]]; by apply undet_wins. Qed.
Print Assumptions c78_undetermined_wins.
Theorem c78_constants m g : mdd_reachable m → node_valid (d_ar m) g →
  (∃ m', mdd_and m mdd_one g = Some (m', g)) ∧ (∃ m', mdd_and m g mdd_one = Some (m', g)) ∧
  (∃ m', mdd_or m mdd_zero g = Some (m', g)) ∧ (∃ m', mdd_or m g mdd_zero = Some (m', g)) ∧
  (∃ m', mdd_xor m mdd_zero g = Some (m', g)) ∧ (∃ m', mdd_xor m g mdd_zero = Some (m', g)) ∧
  (∃ m', mdd_and m mdd_zero g = Some (m', if decide (g = mdd_undet) then mdd_undet else mdd_zero)) ∧
  (∃ m', mdd_and m g mdd_zero = Some (m', if decide (g = mdd_undet) then mdd_undet else mdd_zero)) ∧
  (∃ m', mdd_or m mdd_one g = Some (m', if decide (g = mdd_undet) then mdd_undet else mdd_one)) ∧
  (∃ m', mdd_or m g mdd_one = Some (m', if decide (g = mdd_undet) then mdd_undet else mdd_one)).
Proof. exact (const_laws m g). Qed.
Print Assumptions c78_constants.
Example c78_constants_ex :
  (m ← mdd_run mdd_new ex_first;
   l ← mapM (λ p : nat * nat, '(_, a) ← mdd_and m p.1 p.2; '(_, o) ← mdd_or m p.1 p.2; '(_, x) ← mdd_xor m p.1 p.2; Some (a, o, x))
       [(2, 3); (3, 2); (2, 0); (1, 2); (2, 2); (0, 3); (3, 1)];
   Some (bool_decide (node_valid (d_ar m) 3), l)) = Some (true, [(2, 2, 2); (2, 2, 2); (2, 2, 2); (2, 2, 2); (2, 2, 2); (0, 3, 3); (3, 1, 5)]).
Proof. vm_compute. done. Qed.

(** ** Combined manager: not, and/or/xor, arithmetic that does not overflow, comparisons (also <=), both if-then-elses, value-if *)
Theorem c78_combined I m1 m2 c1 c2 : mm_reachable I m1 → mm_reachable I m2 → states_agree (d_ar (mm_b m1)) (d_ar (mm_b m2)) →
  levels_distinct (d_ar (mm_b m1)) → levels_distinct (d_ar (mm_b m2)) →
  mm_legal m1 c1 → mm_legal m2 c2 → mm_safe I m1 c1 → mm_safe I m2 c2 →
  same_mm_call m1 c1 m2 c2 →
  ∃ m1' r1 m2' r2, mm_ask I m1 c1 = Some (m1', r1) ∧ mm_ask I m2 c2 = Some (m2', r2) ∧ same_mnode m1' r1 m2' r2.
Proof.
  intros R1 R2 Ag D1 D2 L1 L2 Sa1 Sa2 Hs.
  destruct (ask_same I m1 m2 c1 c2 R1 R2 Ag D1 D2 L1 L2 Sa1 Sa2 Hs) as (m1' & r1 & m2' & r2 & H1 & H2 & _ & _ & Hr).
  by exists m1', r1, m2', r2.
Qed.
Print Assumptions c78_combined.
Theorem c78_combined_again I m c m1 r m2 c2 r2 : mm_reachable I m → levels_distinct (d_ar (mm_b m)) →
  mm_legal m c → mm_safe I m c → mm_ask I m c = Some (m1, r) →
  mm_reachable I m2 → levels_distinct (d_ar (mm_b m2)) → states_agree (d_ar (mm_b m)) (d_ar (mm_b m2)) →
  mm_legal m2 c2 → mm_safe I m2 c2 → mm_valid m2 r2 →
  same_mm_call m c m2 c2 → same_mnode m1 r m2 r2 →
  ∃ m3, mm_ask I m2 c2 = Some (m3, r2).
Proof. exact (ask_again I m c m1 r m2 c2 r2). Qed.
Print Assumptions c78_combined_again.

(** The condition f is as above (undetermined where y = 0); "if f then v else 5" with v = x.  The second manager has another history and
    different ids.  In both the result is undetermined where y = 0. *)
Definition ex_mm1 : list mm_call :=
  [XHeader 0 "x" 3; XHeader 1 "y" 2; XValue 0; XValue 1; XValue 2; XValue 5; XNode 0 [NVal 1; NVal 2; NVal 3]; XNode 1 [NBool 2; NBool 1]].
Definition ex_mm2 : list mm_call :=
  [XHeader 1 "b" 2; XHeader 7 "z" 4; XHeader 0 "a" 3; XValue 5; XValue 2; XValue 1; XValue 0; XNode 2 [NVal 4; NVal 3; NVal 2];
   XNode 2 [NBool 0; NBool 1; NBool 1]; XNode 0 [NBool 2; NBool 1]; XGate GAnd (NBool 3) (NBool 4); XIte (NBool 3) (NVal 5) (NVal 1);
   XCmp Lt (NVal 5) (NVal 1); XClear; XGc [NVal 5; NVal 1; NBool 4]].
Example c78_combined_ex :
  (m1 ← mm_run i32_checked mm_new ex_mm1; m2 ← mm_run i32_checked mm_new ex_mm2;
   '(n1, r1) ← mm_ask i32_checked m1 (XIte (NBool 3) (NVal 5) (NVal 4)); '(n2, r2) ← mm_ask i32_checked m2 (XIte (NBool 4) (NVal 5) (NVal 1));
   Some (bool_decide (mm_legal m1 (XIte (NBool 3) (NVal 5) (NVal 4)) ∧ mm_legal m2 (XIte (NBool 4) (NVal 5) (NVal 1))),
         bool_decide (levels_distinct (d_ar (mm_b m1)) ∧ levels_distinct (d_ar (mm_b m2))),
         (table (d_ar (mm_b m1)) 3, table (d_ar (mm_b m2)) 4), (table (t_ar (mm_v m1)) 5, table (t_ar (mm_v m2)) 5),
         (r1, r2), (table (t_ar (mm_v n1)) (node_id r1), table (t_ar (mm_v n2)) (node_id r2)))) 
  = Some (true, true,
     ([Some TUndet; Some TUndet; Some TOne; Some TOne], [Some TUndet; Some TUndet; Some TOne; Some TOne]),
     ([Some (VVal 0); Some (VVal 2); Some (VVal 0); Some (VVal 2)], [Some (VVal 0); Some (VVal 2); Some (VVal 0); Some (VVal 2)]),
     (NVal 6, NVal 6),
     ([Some VUndet; Some VUndet; Some (VVal 0); Some (VVal 2)], [Some VUndet; Some VUndet; Some (VVal 0); Some (VVal 2)])).
Proof. vm_compute. done. Qed.
(** the same if-then-else, a comparison (v <= 1) and a difference, asked again after other work, a cleared cache and a collection *)
Example c78_combined_again_ex :
  (m1 ← mm_run i32_checked mm_new ex_mm1;
   '(n1, r1) ← mm_ask i32_checked m1 (XIte (NBool 3) (NVal 5) (NVal 4));
   '(n2, q1) ← mm_ask i32_checked n1 (XCmp Lte (NVal 5) (NVal 2));
   '(n3, s1) ← mm_ask i32_checked n2 (XArith VSub (NVal 5) (NVal 2));
   n4 ← mm_run i32_checked n3 [XIte q1 (NVal 2) s1; XClear; XGc [NVal 5; NVal 4; NVal 2; NBool 3; r1; q1; s1]];
   '(n5, r2) ← mm_ask i32_checked n4 (XIte (NBool 3) (NVal 5) (NVal 4));
   '(n6, q2) ← mm_ask i32_checked n5 (XCmp Lte (NVal 5) (NVal 2));
   '(n7, s2) ← mm_ask i32_checked n6 (XArith VSub (NVal 5) (NVal 2));
   Some ((r1, q1, s1), (r2, q2, s2))) = Some ((NVal 6, NBool 5, NVal 8), (NVal 6, NBool 5, NVal 8)).
Proof. vm_compute. done. Qed.
