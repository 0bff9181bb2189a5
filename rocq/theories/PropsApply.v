(** C87: an operation runs in time proportional to the product of the operand sizes.
    docs/developer-guide.md, section 2: "Operation cache — memoizes apply results so an apply runs in time proportional to the product of
    operand sizes." *)
From stdpp Require Import strings.
From Verif Require Import Prelude ComputeCache CacheSpec Arena Bdd BssAlg SpecBdd SpecBss SpecSize BssReach Apply ApplyMain.

Global Set Default Goal Selector "!".

(** The functions ending in [_t] also list the calls they evaluate; a call that is not evaluated (equal operands, or found in the table)
    takes a bounded number of steps, and an evaluated one takes a bounded number of steps and makes two more calls (for xor with a
    constant, one call of not).  So the length of the list measures the time.

    What is true of every call: at most |f| * |g| different pairs are evaluated (for xor, |f| + |g| negations more).
    If the table lost no result, that is, if it holds one result more for every evaluation, no pair is evaluated twice, so that the time is
    indeed bounded by the product.  Missing: the bound without that condition; it is false, see [c87_refuted]. *)
Theorem c87_connective_partial o m f g sf sg : o ≠ OpNot → bss_reachable m → bdd_valid m f → bdd_valid m g →
  bdd_node_size m f = Some sf → bdd_node_size m g = Some sg →
  let bound := (vertices sf * vertices sg + if decide (o = OpXOr) then vertices sf + vertices sg else 0)%N in
  ∃ m' r tr, ap_op o m f g = Some (m', r) ∧ bdd_ap_t o m f g = Some (m', r, tr) ∧
    (N.of_nat (length (remove_dups tr)) ≤ bound)%N ∧
    (occupied (b_cache m') = occupied (b_cache m) + length tr → NoDup tr ∧ (N.of_nat (length tr) ≤ bound)%N).
Proof. exact (λ Ho Hm, ap_l o m f g sf sg Ho (bss_wf m Hm)). Qed.
Print Assumptions c87_connective_partial.

Theorem c87_not_partial m f sf : bss_reachable m → bdd_valid m f → bdd_node_size m f = Some sf →
  ∃ m' r tr, bdd_not m f = Some (m', r) ∧ bdd_not_t m f = Some (m', r, tr) ∧
    (N.of_nat (length (remove_dups tr)) ≤ vertices sf)%N ∧
    (occupied (b_cache m') = occupied (b_cache m) + length tr → NoDup tr ∧ (N.of_nat (length tr) ≤ vertices sf)%N).
Proof. exact (λ Hm, not_l m f sf (bss_wf m Hm)). Qed.
Print Assumptions c87_not_partial.

Theorem c87_ite_partial m f g h sf sg sh : bss_reachable m → bdd_valid m f → bdd_valid m g → bdd_valid m h →
  bdd_node_size m f = Some sf → bdd_node_size m g = Some sg → bdd_node_size m h = Some sh →
  ∃ m' r tr, bdd_ite m f g h = Some (m', r) ∧ bdd_ite_t m f g h = Some (m', r, tr) ∧
    (N.of_nat (length (remove_dups tr)) ≤ vertices sf * vertices sg * vertices sh)%N ∧
    (occupied (b_ite m') = occupied (b_ite m) + length tr → NoDup tr ∧ (N.of_nat (length tr) ≤ vertices sf * vertices sg * vertices sh)%N).
Proof. exact (λ Hm, ite_l m f g h sf sg sh (bss_wf m Hm)). Qed.
Print Assumptions c87_ite_partial.

(** ** The table does lose results *)
(** [k] nodes over header 113 that are never used, to get at certain node ids *)
Fixpoint c87_fill (k c : nat) : list bdd_call :=
  match k with O => [] | S k => CNode 113 (3 + c mod 50) (53 + c / 50) :: c87_fill k (S c) end.
(** Two diagrams in which each node has the two nodes before it as children, at the given ids *)
Fixpoint c87_chains (ids : list (nat * nat)) (i next c f1 f2 g1 g2 : nat) : list bdd_call :=
  match ids with
  | [] => []
  | (a, b) :: ids =>
      c87_fill (a - next) c ++ CNode (100 + i) f1 f2 :: c87_fill (b - a - 1) (c + (a - next)) ++ CNode (100 + i) g1 g2 ::
      c87_chains ids (S i) (S b) (c + (a - next) + (b - a - 1)) a f1 b g1
  end.
(** The pairs of ids all have the same slot, number 33, in a table of 2^14 slots. *)
Definition c87_ids : list (nat * nat) :=
  [(206, 284); (365, 513); (524, 681); (683, 782); (795, 796); (842, 946); (954, 961); (1001, 1175); (1272, 1354); (1431, 1458);
   (1478, 1608); (1637, 1837); (1861, 1866)].
Definition c87_calls : list bdd_call :=
  map (λ l, CHeader l "x") (seq 0 113) ++ [CHeader 200 "y"] ++ map (λ h, CNode h 0 1) (seq 0 100) ++ c87_chains c87_ids 0 103 0 0 1 1 0.

(** x, y, z, x & y, (x & y) | z, x xor z *)
Definition c87_small : list bdd_call :=
  [CHeader 0 "z"; CHeader 1 "y"; CHeader 2 "x"; CNode 0 0 1; CNode 1 0 1; CNode 2 0 1; CConn And 5 4; CConn Or 6 3; CConn Xor 5 3].

Definition c87_check (cs : list bdd_call) (f g : nat) : option bool :=
  m ← bdd_run bdd_new cs; sf ← bdd_node_size m f; sg ← bdd_node_size m g; '(_, _, tr) ← bdd_ap_t OpAnd m f g;
  Some (bool_decide (bdd_valid m f) && bool_decide (bdd_valid m g) && (2 * (vertices sf * vertices sg) <? N.of_nat (length tr))%N).
Lemma c87_sound cs f g : c87_check cs f g = Some true → ∃ m sf sg m' r tr, bss_reachable m ∧ bdd_valid m f ∧ bdd_valid m g ∧
  bdd_node_size m f = Some sf ∧ bdd_node_size m g = Some sg ∧ bdd_and m f g = Some (m', r) ∧ bdd_ap_t OpAnd m f g = Some (m', r, tr) ∧
  (2 * (vertices sf * vertices sg) < N.of_nat (length tr))%N.
Proof.
  unfold c87_check. destruct (bdd_run bdd_new cs) as [m|] eqn:Er; [|done]. cbn [mbind option_bind].
  destruct (bdd_node_size m f) as [sf|] eqn:Sf; [|done]. cbn [mbind option_bind].
  destruct (bdd_node_size m g) as [sg|] eqn:Sg; [|done]. cbn [mbind option_bind].
  destruct (bdd_ap_t OpAnd m f g) as [[[m' r] tr]|] eqn:Et; [|done]. cbn [mbind option_bind]. intros Hc.
  assert (bool_decide (bdd_valid m f) && bool_decide (bdd_valid m g) && (2 * (vertices sf * vertices sg) <? N.of_nat (length tr))%N = true) as Hb by congruence.
  apply andb_true_iff in Hb as [[Hf Hg]%andb_true_iff Hlt]. apply bool_decide_eq_true in Hf, Hg. apply N.ltb_lt in Hlt.
  assert (Hm : bss_reachable m) by (apply bss_core; by exists cs).
  destruct (c87_connective_partial OpAnd m f g sf sg) as (m1 & r1 & tr1 & E & Et1 & _); [done..|].
  rewrite Et in Et1. injection Et1 as <- <- <-.
  exists m, sf, sg, m', r, tr. split; [done|]. split; [done|]. split; [done|]. split; [done|]. split; [done|]. split; [exact E|]. by split.
Qed.

(** Two diagrams with 15 vertices each whose conjunction takes 610 evaluations, more than twice the product of the sizes: the
    evaluations grow as the Fibonacci numbers, as if there were no table (with eighteen pairs of ids in place of thirteen, 6765 evaluations for 20 vertices each). *)
Theorem c87_refuted : ∃ m f g sf sg m' r tr, bss_reachable m ∧ bdd_valid m f ∧ bdd_valid m g ∧
  bdd_node_size m f = Some sf ∧ bdd_node_size m g = Some sg ∧ bdd_and m f g = Some (m', r) ∧ bdd_ap_t OpAnd m f g = Some (m', r, tr) ∧
  (2 * (vertices sf * vertices sg) < N.of_nat (length tr))%N.
Proof.
  assert (Hc : ∃ f g, c87_check c87_calls f g = Some true) by (exists 1861, 1866; vm_compute; reflexivity).
  destruct Hc as (f & g & (m & sf & sg & m' & r & tr & H)%c87_sound). exists m, f, g, sf, sg, m', r, tr. exact H.
Qed.
Print Assumptions c87_refuted.

(** The usual case: (x & y) | z conjoined with x xor z evaluates five of the 5 * 5 pairs, and the table holds five results more.  The second time round nothing is evaluated. *)
Example c87_ex : (m ← bdd_run bdd_new c87_small; let '(f, g) := (8, 10) in '(m1, r, tr) ← bdd_ap_t OpAnd m f g; '(m2, r2, tr2) ← bdd_ap_t OpAnd m1 g f;
    '(_, _, tri) ← bdd_ite_t m f g 3; '(_, _, trx) ← bdd_ap_t OpXOr m f g; '(_, _, trn) ← bdd_not_t m f;
    Some (vertices <$> bdd_node_size m f, vertices <$> bdd_node_size m g, length tr, occupied (b_cache m1) - occupied (b_cache m),
      bool_decide (r2 = r), tr2, (length tri, length trx, length trn))) =
  Some (Some 5%N, Some 5%N, 5, 5, true, [], (3, 6, 2)).
Proof. vm_compute. done. Qed.
