(** C01: the computed table. *)
From Verif Require Import Prelude ComputeCache CacheSpec CacheMain.

(** A hit is always what a perfect memory of the same calls would answer: never an answer for
    another key, never a stale value, nothing after a clear, nothing with a dead id after a retain. *)
Theorem c01_hit_is_recalled os c k0 k1 k2 :
  Forall cop_ok os → cop_run cc_new os = Some c →
  ∃ r, cc_get c k0 k1 k2 = Some r ∧ ∀ v, r = Some v → recall (reverse os) k0 k1 k2 = Some v.
Proof. exact (cache_refines_l os c k0 k1 k2). Qed.
Print Assumptions c01_hit_is_recalled.

(** len() is the number of occupied slots; the table has 2^14 .. 2^24 slots. *)
Theorem c01_counters_exact os c :
  Forall cop_ok os → cop_run cc_new os = Some c →
  cc_len c = N.of_nat (occupied c) ∧
  ∃ b, (14 <= b <= 24)%N ∧ N.of_nat (length (cc_slots c)) = (2 ^ b)%N.
Proof. exact (cache_counts_l os c). Qed.
Print Assumptions c01_counters_exact.

(** No call panics (a retain needs a liveness vector long enough for what was stored), a put can be read back
    at once, clear empties, and the retains keep exactly the fully-live entries. *)
Theorem c01_progress os c o :
  Forall cop_ok os → cop_run cc_new os = Some c → cop_ok o →
  match o with
  | Put k0 k1 k2 v => ∃ c', cop_exec c o = Some c' ∧ cc_get c' k0 k1 k2 = Some (Some v)
  | Clear => ∃ c', cop_exec c o = Some c' ∧ ∀ k0 k1 k2, cc_get c' k0 k1 k2 = Some None
  | Retain live =>
      (∀ k0 k1 k2 v, recall (reverse os) k0 k1 k2 = Some v →
         ∀ i, i ∈ [k1; k2; v] → N.to_nat i < length live) →
      ∃ c', cop_exec c o = Some c' ∧ ∀ k0 k1 k2 v, cc_get c' k0 k1 k2 = Some (Some v) ↔
         cc_get c k0 k1 k2 = Some (Some v) ∧ marked_live live [k1; k2; v]
  | Retain3 live =>
      (∀ k0 k1 k2 v, recall (reverse os) k0 k1 k2 = Some v →
         ∀ i, i ∈ [k0; k1; k2; v] → N.to_nat i < length live) →
      ∃ c', cop_exec c o = Some c' ∧ ∀ k0 k1 k2 v, cc_get c' k0 k1 k2 = Some (Some v) ↔
         cc_get c k0 k1 k2 = Some (Some v) ∧ marked_live live [k0; k1; k2; v]
  end.
Proof. exact (cache_progress_l os c o). Qed.
Print Assumptions c01_progress.

(** Two keys that share a slot: the second put evicts the first; a retain then drops the survivor
    because id 2 is dead. *)
Definition c01_ops : list cop := [Put 0 0 1 3; Put 0 0 16385 5; Put 9 1 2 4].
Example c01_ex_legal : Forall cop_ok c01_ops.
Proof. unfold c01_ops, cop_ok, EMPTY. repeat constructor; lia. Qed.
Example c01_ex_lookups :
  option_map (λ c, (cc_get c 0 0 1, cc_get c 0 0 16385, cc_get c 9 1 2, cc_len c)) (cop_run cc_new c01_ops)
  = Some (Some None, Some (Some 5%N), Some (Some 4%N), 2%N).
Proof. vm_compute. done. Qed.
Example c01_ex_recall : recall (reverse c01_ops) 0 0 1 = Some 3%N ∧ recall (reverse c01_ops) 9 1 2 = Some 4%N.
Proof. vm_compute. done. Qed.
Example c01_ex_retain :
  option_map (λ c, (cc_get c 9 1 2, cc_len c))
    (cop_run cc_new [Put 9 1 2 4; Put 9 1 3 4; Retain [true; true; false; true; true]])
  = Some (Some None, 1%N).
Proof. vm_compute. done. Qed.
