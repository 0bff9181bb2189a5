(** Histories of legal calls with their answers, for any manager. *)
From Verif Require Import Prelude Arena.

(** The answers of a history of legal calls in order, and the final state; [None] if some call is illegal or panics. *)
Fixpoint log32 {S C A} (legal : S → C → Prop) `{∀ m c, Decision (legal m c)} (exec : S → C → option (S * A))
    (m : S) (cs : list C) : option (list A * S) :=
  match cs with
  | [] => Some ([], m)
  | c :: cs =>
      if decide (legal m c) then '(m, r) ← exec m c; '(rs, m) ← log32 legal exec m cs; Some (r :: rs, m) else None
  end.

(** Every slot number and every header number is below [2 ^ w]. *)
Definition within {T} (w : N) (a : arena T) : Prop :=
  (N.of_nat (length (ar_nodes a)) <= 2 ^ w)%N ∧ (N.of_nat (length (ar_headers a)) <= 2 ^ w)%N.
