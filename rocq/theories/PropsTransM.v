(** C95: no client of MddMgr can tell from its answers when, or how often, garbage was collected.
    mss/src/mdd.rs:143-150: "Live-node count at which automatic gc fires (for tuning / tests)." *)
From stdpp Require Import strings.
From Verif Require Import Prelude Arena Bdd Mdd MtMdd MtMdd2 SpecMdd BssMgr MssMgr MssAlg SpecMss SpecTransM TransM.

Global Set Default Goal Selector "!".

(** Two programs that make the same calls in the same order, apart from [gc], [set_gc_threshold] and [clear_cache], get the same answers:
    the same handles are equal, and constants, counts, sizes, paths (in the same order), variable orders, rpn errors and panics (overflow and
    division included) are the same.  Probabilities and importance measures are the same whatever the numbers and their operations are: no law
    of arithmetic is used, so with [f64] they agree to the last bit.  Holds for integers with overflow checks and without. *)
Theorem c95_housekeeping (I : vint) {R : Type} (rO rI : R) (radd rmul rsub : R → R → R) (p q : list (mcmd R)) :
  no_mhouse p = no_mhouse q → manswers I rO rI radd rmul rsub p = manswers I rO rI radd rmul rsub q.
Proof. intros E. rewrite (manswers_l I _ _ _ _ _ p), (manswers_l I _ _ _ _ _ q). by rewrite E. Qed.
Print Assumptions c95_housekeeping.

(** In particular at every point of a run: the answers so far are those of the run without housekeeping. *)
Theorem c95_prefix (I : vint) {R : Type} (rO rI : R) (radd rmul rsub : R → R → R) (p q : list (mcmd R)) l :
  manswers I rO rI radd rmul rsub (p ++ q) = Some l →
  ∃ l1 l2, l = l1 ++ l2 ∧ manswers I rO rI radd rmul rsub (no_mhouse p) = Some l1 ∧ length l1 = length (no_mhouse p).
Proof. apply manswers_prefix. Qed.
Print Assumptions c95_prefix.

(** A program (with "probabilities" in Z: any numbers will do), and the same one collecting inside and after every call *)
Definition c95_calls : list (mcmd Z) :=
  [DVar "x" 3; DVar "y" 2; DExpr "x y + 2 >= save(a) x y min x 2 * ? load(a) 1 0 ? +" {["x" := 3; "y" := 2]}; DFree 0;
   DBin (OArith VAdd) 2 1; DKids 3; DVal 2; DBin (OCmp Gte) 3 6; DNeg 7; DExpr "x y * x y" {["x" := 3; "y" := 2]}; DBin (OCmp Lt) 3 6; PEq 8 10;
   PKind 3; PIs TOne 8; PConst 6; PCount [2%Z] 3; PProb {["x" := [1; 3; 5]%Z; "y" := [2; 7]%Z]} [1%Z] 7;
   PPaths 100 [2%Z] 3; PSize 3; PLabel 4; PLevel 3; PHeader 7; POrder].
Definition c95_busy (p : list (mcmd Z)) : list (mcmd Z) := JThreshold 0 :: (p ≫= λ c, [c; JGc [1; 2]; JClear]).
Example c95_ex : length (no_mhouse (c95_busy c95_calls)) = length (c95_busy c95_calls) - 47 ∧
  no_mhouse (c95_busy c95_calls) = no_mhouse c95_calls.
Proof. vm_compute. done. Qed.
(** paths as lists, to show them *)
Definition c95_show (a : mans Z) : mans Z + list (list (string * nat)) :=
  match a with NPaths l => inr (map_to_list <$> l) | a => inl a end.
Example c95_ex_answers : fmap (M := option) (map c95_show) (manswers i32_checked 0%Z 1%Z Z.add Z.mul Z.sub (c95_busy c95_calls)) =
  Some [inl NDone; inl NDone; inl (NTruth true); inl NDone; inl NDone; inl (NKids (Some 2)); inl NDone; inl NDone; inl NDone; inl (NTruth false);
        inl NDone; inl (NTruth true); inl (NTruth false); inl (NTruth false); inl (NConst (Some 2%Z)); inl (NCount 1); inl (NProb 62%Z);
        inr [[("x"%string, 1); ("y"%string, 0)]]; inl (NSize (3%N, 4%N, 8%N)); inl (NLabel (Some "x"%string)); inl (NLevel (Some 1));
        inl (NLevel (Some 1)); inl (NOrder [("x"%string, 3); ("y"%string, 2)])].
Proof. vm_compute. done. Qed.
