(** C77: results depend on the operands' functions alone, undetermined values included (BDD manager). *)
From Coq Require Import String.
From Verif Require Import Prelude ComputeCache Arena Bdd SpecBdd BddMain SpecExact BddExactMain.

(** ** Two managers, whatever their histories: operands that denote the same functions give results that denote the same function *)
Theorem c77_connective c m1 m2 f1 g1 f2 g2 : bdd_reachable m1 → bdd_reachable m2 →
  bdd_levels_distinct m1 → bdd_levels_distinct m2 →
  bdd_valid m1 f1 → bdd_valid m1 g1 → bdd_valid m2 f2 → bdd_valid m2 g2 →
  same_fun m1 f1 m2 f2 → same_fun m1 g1 m2 g2 →
  ∃ m1' r1 m2' r2, bdd_conn c m1 f1 g1 = Some (m1', r1) ∧ bdd_conn c m2 f2 g2 = Some (m2', r2) ∧
    same_fun m1' r1 m2' r2.
Proof. exact (conn_same c m1 m2 f1 g1 f2 g2). Qed.
Print Assumptions c77_connective.

Theorem c77_ite m1 m2 f1 g1 h1 f2 g2 h2 : bdd_reachable m1 → bdd_reachable m2 →
  bdd_levels_distinct m1 → bdd_levels_distinct m2 →
  bdd_valid m1 f1 → bdd_valid m1 g1 → bdd_valid m1 h1 → bdd_valid m2 f2 → bdd_valid m2 g2 → bdd_valid m2 h2 →
  same_fun m1 f1 m2 f2 → same_fun m1 g1 m2 g2 → same_fun m1 h1 m2 h2 →
  ∃ m1' r1 m2' r2, bdd_ite m1 f1 g1 h1 = Some (m1', r1) ∧ bdd_ite m2 f2 g2 h2 = Some (m2', r2) ∧
    same_fun m1' r1 m2' r2.
Proof. exact (ite_same m1 m2 f1 g1 h1 f2 g2 h2). Qed.
Print Assumptions c77_ite.

(** The first manager has x and y only (levels 0 and 1).  The second declared them in the other order, with an unused z between, under
    other labels, ran other operations, cleared its caches and collected garbage.  f is "undetermined where y is false, true where y
    is true" and g is x.  In both, "f and g" is undetermined wherever y is false, also where x is false. *)
Definition ex_first : list bdd_call := [CHeader 0 "x"; CHeader 1 "y"; CNode 0 0 1; CNode 1 2 1].
Definition ex_second : list bdd_call :=
  [CHeader 1 "b"; CHeader 7 "z"; CHeader 0 "a"; CNode 1 0 1; CNode 0 2 1; CNode 2 0 1; CConn Or 3 4; CConn Xor 6 5; CConn And 5 4;
   CClear; CGc [4; 5]].
Definition show_bdd (m : bdd) (rho : nat → bool) : nat → nat → option tv :=
  fix go n id := match n with
    | O => None
    | S n => nd ← ar_nodes (b_ar m) !! id;
             match nd with
             | Term t => Some t
             | NT h cs => hd ← ar_headers (b_ar m) !! h; c ← cs !! (if rho (h_level hd) then 1 else 0); go n c
             end
    end.
(** values for (x, y) = (0, 0), (1, 0), (0, 1), (1, 1) *)
Definition table (m : bdd) (id : nat) : list (option tv) :=
  map (λ rho, show_bdd m rho 9 id) [λ _, false; λ l, l =? 0; λ l, l =? 1; λ _, true].
Example c77_connective_ex :
  (m1 ← bdd_run bdd_new ex_first; m2 ← bdd_run bdd_new ex_second;
   '(n1, r1) ← bdd_and m1 4 3; '(n2, r2) ← bdd_and m2 4 5;
   Some (bool_decide (bdd_levels_distinct m1 ∧ bdd_levels_distinct m2 ∧ bdd_valid m1 4 ∧ bdd_valid m1 3 ∧ bdd_valid m2 4 ∧ bdd_valid m2 5),
         (table m1 4, table m2 4), (table m1 3, table m2 5), (r1, r2), (table n1 r1, table n2 r2)))
  = Some (true,
      ([Some TUndet; Some TUndet; Some TOne; Some TOne], [Some TUndet; Some TUndet; Some TOne; Some TOne]),
      ([Some TZero; Some TOne; Some TZero; Some TOne], [Some TZero; Some TOne; Some TZero; Some TOne]),
      (5, 10),
      ([Some TUndet; Some TUndet; Some TZero; Some TOne], [Some TUndet; Some TUndet; Some TZero; Some TOne])).
Proof. vm_compute. done. Qed.
(** "if g then f else false" in both; now the value is undetermined only where f is and x is true *)
Example c77_ite_ex :
  (m1 ← bdd_run bdd_new ex_first; m2 ← bdd_run bdd_new ex_second;
   '(n1, r1) ← bdd_ite m1 3 4 0; '(n2, r2) ← bdd_ite m2 5 4 0; Some (table n1 r1, table n2 r2)) = Some ([Some TZero; Some TUndet; Some TZero; Some TOne], [Some TZero; Some TUndet; Some TZero; Some TOne]).
Proof. vm_compute. done. Qed.

(** ** Asked again: where the operands and the first result are still there (under whatever ids), the same call returns that very node *)
Theorem c77_again c m f g m1 r m2 f2 g2 r2 : bdd_reachable m → bdd_levels_distinct m → bdd_valid m f → bdd_valid m g →
  bdd_conn c m f g = Some (m1, r) →
  bdd_reachable m2 → bdd_levels_distinct m2 → bdd_valid m2 f2 → bdd_valid m2 g2 → bdd_valid m2 r2 →
  same_fun m f m2 f2 → same_fun m g m2 g2 → same_fun m1 r m2 r2 →
  ∃ m3, bdd_conn c m2 f2 g2 = Some (m3, r2).
Proof. exact (conn_again c m f g m1 r m2 f2 g2 r2). Qed.
Print Assumptions c77_again.

Theorem c77_ite_again m f g h m1 r m2 f2 g2 h2 r2 : bdd_reachable m → bdd_levels_distinct m →
  bdd_valid m f → bdd_valid m g → bdd_valid m h →
  bdd_ite m f g h = Some (m1, r) →
  bdd_reachable m2 → bdd_levels_distinct m2 → bdd_valid m2 f2 → bdd_valid m2 g2 → bdd_valid m2 h2 → bdd_valid m2 r2 →
  same_fun m f m2 f2 → same_fun m g m2 g2 → same_fun m h m2 h2 → same_fun m1 r m2 r2 →
  ∃ m3, bdd_ite m2 f2 g2 h2 = Some (m3, r2).
Proof. exact (ite_again m f g h m1 r m2 f2 g2 h2 r2). Qed.
Print Assumptions c77_ite_again.

(** "f and g" again after clearing the caches and collecting everything but the operands and the result; likewise the if-then-else *)
Example c77_again_ex :
  (m1 ← bdd_run bdd_new ex_first; '(n1, r1) ← bdd_and m1 4 3; '(n2, q1) ← bdd_ite n1 3 4 0;
   n3 ← bdd_run n2 [CConn Xor 3 4; CClear; CGc [3; 4; r1; q1]];
   '(n4, r2) ← bdd_and n3 4 3; '(n5, q2) ← bdd_ite n4 3 4 0; Some (r1, r2, q1, q2)) = Some (5, 5, 7, 7).
Proof. vm_compute. done. Qed.

(** ** Constants, exactly: which constant wins against which operand *)
Theorem c77_and_constants m g : bdd_reachable m → bdd_valid m g →
  (∃ m', bdd_and m bdd_zero g = Some (m', bdd_zero)) ∧ (∃ m', bdd_and m g bdd_zero = Some (m', bdd_zero)) ∧
  (∃ m', bdd_and m bdd_one g = Some (m', g)) ∧ (∃ m', bdd_and m g bdd_one = Some (m', g)) ∧
  (g ≠ bdd_zero → g ≠ bdd_one →
   (∃ m', bdd_and m bdd_undet g = Some (m', bdd_undet)) ∧ (∃ m', bdd_and m g bdd_undet = Some (m', bdd_undet))).
Proof. exact (and_consts m g). Qed.
Print Assumptions c77_and_constants.

Theorem c77_or_constants m g : bdd_reachable m → bdd_valid m g →
  (∃ m', bdd_or m bdd_one g = Some (m', bdd_one)) ∧ (∃ m', bdd_or m g bdd_one = Some (m', bdd_one)) ∧
  (∃ m', bdd_or m bdd_zero g = Some (m', g)) ∧ (∃ m', bdd_or m g bdd_zero = Some (m', g)) ∧
  (g ≠ bdd_zero → g ≠ bdd_one →
   (∃ m', bdd_or m bdd_undet g = Some (m', bdd_undet)) ∧ (∃ m', bdd_or m g bdd_undet = Some (m', bdd_undet))).
Proof. exact (or_consts m g). Qed.
Print Assumptions c77_or_constants.

Theorem c77_xor_constants m g : bdd_reachable m → bdd_valid m g →
  (∃ m', bdd_xor m bdd_zero g = Some (m', g)) ∧ (∃ m', bdd_xor m g bdd_zero = Some (m', g)) ∧
  (∃ m', bdd_xor m bdd_undet g = Some (m', bdd_undet)) ∧ (∃ m', bdd_xor m g bdd_undet = Some (m', bdd_undet)).
Proof. exact (xor_consts m g). Qed.
Print Assumptions c77_xor_constants.

(** with the variable x (node 3) and with constants *)
Example c77_constants_ex :
  (m ← bdd_run bdd_new ex_first;
   l ← mapM (λ p : nat * nat, '(_, a) ← bdd_and m p.1 p.2; '(_, o) ← bdd_or m p.1 p.2; '(_, x) ← bdd_xor m p.1 p.2; Some (a, o, x))
       [(2, 3); (3, 2); (2, 0); (1, 2); (2, 2)];
   Some l) = Some [(2, 2, 2); (2, 2, 2); (0, 2, 2); (2, 1, 2); (2, 2, 2)].
Proof. vm_compute. done. Qed.
