(** C96 for the combined manager. *)
From stdpp Require Import strings.
From Verif Require Import Prelude ComputeCache Arena Bdd Mdd MtMdd MtMdd2 SpecBdd SpecMdd SpecLog32 Bdd32 Mdd32 Mt32 Mm32 Two32 Mm32Proofs.

(** A history of legal calls on the combined manager after which each forest has at most [2 ^ w] slots and at most
    [2 ^ w] headers: narrowing the stored ids of both forests and of the three mixed memo tables changes no answer
    and not the final state.  A call that panics does so in both. *)
Theorem c96_mtmdd2_exact I w cs rs m : within w (d_ar (mm_b m)) → within w (t_ar (mm_v m)) →
  log32 mm_legal (nmm_answer w I) mm_new cs = Some (rs, m) ↔ log32 mm_legal (mm_answer I) mm_new cs = Some (rs, m).
Proof. exact (xwithin_same I w cs rs m). Qed.
Print Assumptions c96_mtmdd2_exact.

Theorem c96_mtmdd2_reachable I cs rs m : within 32 (d_ar (mm_b m)) → within 32 (t_ar (mm_v m)) →
  log32 mm_legal (nmm_answer 32 I) mm_new cs = Some (rs, m) → mm_reachable I m.
Proof.
  intros Hb Hv H%c96_mtmdd2_exact; [|done|done]. exists cs. revert H. generalize mm_new as m0. revert rs.
  induction cs as [|c cs IH]; intros rs m0; cbn [log32 mm_run]; [by intros [= _ ->]|]. case_decide; [|done].
  destruct (mm_answer I m0 c) as [[m1 r]|] eqn:Ea; [|done]. rewrite (ans_exec _ _ _ _ _ Ea). cbn.
  destruct (log32 _ _ m1 cs) as [[rs' m']|] eqn:E; [|done]. cbn. intros [= _ ->]. by eapply IH.
Qed.
Print Assumptions c96_mtmdd2_reachable.

(** At width 3: eight slots in the forest of values, then one past it. *)
Definition ex96x : list mm_call :=
  [XHeader 0 "x" 2; XValue 5; XValue 7; XNode 0 [NVal 1; NVal 2]; XCmp Lt (NVal 3) (NVal 2); XIte (NBool 3) (NVal 3) (NVal 1);
   XArith VAdd (NVal 3) (NVal 3)].
Definition sx {S} (o : option (list mm_ans * S)) : option (list mm_ans) := fst <$> o.
Example c96_mtmdd2_ex : let past := [XValue 1; XValue 2; XValue 2] in
  (sx (log32 mm_legal (nmm_answer 3 i32_checked) mm_new ex96x), sx (log32 mm_legal (mm_answer i32_checked) mm_new ex96x),
   drop 7 <$> sx (log32 mm_legal (nmm_answer 3 i32_checked) mm_new (ex96x ++ past)),
   drop 7 <$> sx (log32 mm_legal (mm_answer i32_checked) mm_new (ex96x ++ past))) =
  (Some [RNum 0; RNode (NVal 1); RNode (NVal 2); RNode (NVal 3); RNode (NBool 3); RNode (NVal 1); RNode (NVal 6)],
   Some [RNum 0; RNode (NVal 1); RNode (NVal 2); RNode (NVal 3); RNode (NBool 3); RNode (NVal 1); RNode (NVal 6)],
   Some [RNode (NVal 7); RNode (NVal 8); RNode (NVal 0)], Some [RNode (NVal 7); RNode (NVal 8); RNode (NVal 8)]).
Proof. vm_compute. reflexivity. Qed.
