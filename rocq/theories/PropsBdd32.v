(** C96: storing ids in 32 bits is exact up to 2^32 slots and headers, and wrong one past either limit. *)
From stdpp Require Import strings.
From Verif Require Import Prelude ComputeCache Arena Bdd SpecBdd Bdd32 SpecBdd32 Bdd32Proofs Bdd32Main Bdd32Limit.

(** A history of legal calls that ends with at most [2 ^ w] slots and at most [2 ^ w] headers: the manager that
    narrows every stored id to [w] bits and the one that does not give the same answers and end alike. *)
Theorem c96_exact w cs rs m : bdd_within w m →
  bdd_log (n_exec w) bdd_new cs = Some (rs, m) ↔ bdd_log bdd_exec bdd_new cs = Some (rs, m).
Proof. exact (within_same w cs rs m). Qed.
Print Assumptions c96_exact.

(** Hence everything proved of reachable managers holds of the 32-bit manager within those limits. *)
Theorem c96_reachable cs rs m : bdd_within 32 m → bdd_log (n_exec 32) bdd_new cs = Some (rs, m) → bdd_reachable m.
Proof. exact (within_reachable 32 cs rs m). Qed.
Print Assumptions c96_reachable.

(** Nothing guards the limit.  One slot more (and few headers): a variable's node is created in slot [2 ^ w];
    asking for the same node again answers with slot 0, the constant false. *)
Theorem c96_slot_limit w : (2 <= w)%N → ∃ cs h rs m,
  bdd_log (n_exec w) bdd_new (cs ++ [CNode h bdd_zero bdd_one; CNode h bdd_zero bdd_one]) =
    Some (rs ++ [N.to_nat (2 ^ w); bdd_zero], m) ∧
  N.of_nat (length (ar_nodes (b_ar m))) = (2 ^ w + 1)%N ∧ (N.of_nat (length (ar_headers (b_ar m))) <= 2 ^ w)%N.
Proof.
  intros Hw. destruct (slot_limit w Hw) as (cs & h & rs & m & H & Hn & Hh). exists cs, h, rs, m.
  rewrite N2Nat.inj_pow. split; [exact H|]. split; [|by apply cap_N].
  unfold blen, cap in Hn. rewrite Hn, Nat2N.inj_succ, Nat2N.inj_pow, N2Nat.id. change (N.of_nat 2) with 2%N. lia.
Qed.
Print Assumptions c96_slot_limit.

(** One header more (and few slots): the nodes of two variables of different levels are the same node. *)
Theorem c96_header_limit w : (2 <= w)%N → ∃ cs h rs m x hd0 hd1,
  bdd_log (n_exec w) bdd_new (cs ++ [CNode 0 bdd_zero bdd_one; CNode h bdd_zero bdd_one]) = Some (rs ++ [x; x], m) ∧
  ar_headers (b_ar m) !! 0 = Some hd0 ∧ ar_headers (b_ar m) !! h = Some hd1 ∧ h_level hd0 ≠ h_level hd1 ∧
  (N.of_nat (length (ar_nodes (b_ar m))) <= 2 ^ w)%N ∧ N.of_nat (length (ar_headers (b_ar m))) = (2 ^ w + 1)%N.
Proof.
  intros Hw. destruct (header_limit w Hw) as (cs & rs & m & x & hd0 & hd1 & H & H0 & H1 & Hne & Hn & Hh).
  exists cs, (cap w), rs, m, x, hd0, hd1. sp; try done; [by apply cap_N|].
  unfold bhd, cap in Hh. rewrite Hh, Nat2N.inj_succ, Nat2N.inj_pow, N2Nat.id. change (N.of_nat 2) with 2%N. lia.
Qed.
Print Assumptions c96_header_limit.

(** Three variables and a conjunction of them in a 3-bit manager: eight slots, all of them in range. *)
Definition ex96 : list bdd_call :=
  [CHeader 0 "x"; CHeader 1 "y"; CHeader 2 "z"; CNode 0 0 1; CNode 1 0 1; CNode 2 0 1; CConn And 3 4; CConn And 6 5].
Example c96_exact_ex :
  (let s o := '(rs, m) ← o; Some (rs, length (ar_nodes (b_ar m)), length (ar_headers (b_ar m))) in
   (s (bdd_log (n_exec 3) bdd_new ex96), s (bdd_log bdd_exec bdd_new ex96))) =
  (Some ([0; 1; 2; 3; 4; 5; 6; 7], 8, 3), Some ([0; 1; 2; 3; 4; 5; 6; 7], 8, 3)).
Proof. vm_compute. reflexivity. Qed.

(** One more operation goes past the limit: the disjunction of x and y is slot 8, stored as 0; repeated, the
    manager answers false, while the unbounded one repeats 8. *)
Example c96_limit_ex :
  (let s o := '(rs, m) ← o; Some (drop 8 rs : list nat) in
   (s (bdd_log (n_exec 3) bdd_new (ex96 ++ [CConn Or 3 4; CConn Or 3 4])),
    s (bdd_log bdd_exec bdd_new (ex96 ++ [CConn Or 3 4; CConn Or 3 4])))) = (Some [8; 0], Some [8; 8]).
Proof. vm_compute. reflexivity. Qed.
