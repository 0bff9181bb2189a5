(** Vocabulary for the width of stored ids: histories with the ids they returned, and sizes. *)
From Verif Require Import Prelude ComputeCache Arena Bdd SpecBdd.

(** A history of legal calls under an execution function: the answers in order and the final manager. *)
Fixpoint bdd_log (exec : bdd → bdd_call → option (bdd * nat)) (m : bdd) (cs : list bdd_call) : option (list nat * bdd) :=
  match cs with
  | [] => Some ([], m)
  | c :: cs =>
      if decide (bdd_legal m c) then
        '(m, r) ← exec m c; '(rs, m) ← bdd_log exec m cs; Some (r :: rs, m)
      else None
  end.

(** Every slot number and every header number of the manager is below [2 ^ w]. *)
Definition bdd_within (w : N) (m : bdd) : Prop :=
  (N.of_nat (length (ar_nodes (b_ar m))) <= 2 ^ w)%N ∧ (N.of_nat (length (ar_headers (b_ar m))) <= 2 ^ w)%N.
