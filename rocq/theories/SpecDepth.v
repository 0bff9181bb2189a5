(** Vocabulary of C94: how deep the recursive functions nest. *)
From stdpp Require Import strings.
From Verif Require Import Prelude Arena.

(** Every recursive function of the model takes as its first argument the number of nested calls of itself it may still make
    and fails when that is used up.  [nests F d]: [F] answers within [d] nested calls, and the answer is the same for every
    larger allowance - so it is what the unbounded recursion of the code returns. *)
Definition nests {A} (F : nat → option A) (d : nat) : Prop := ∃ r, ∀ n, d ≤ n → F n = Some r.

(** The number of levels of a manager: one more than the highest level of a variable, 0 without variables. *)
Definition levels {T} (a : arena T) : nat := max_list_with (λ hd, S (h_level hd)) (ar_headers a).
