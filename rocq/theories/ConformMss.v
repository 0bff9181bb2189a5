(** The assertions of the repository's own tests of the mddcore and mss crates, evaluated in the model; see ConformBss.v. *)
From Coq Require Import QArith.
From stdpp Require Import strings.
From Verif Require Import Prelude ComputeCache Arena Mdd MtMdd MtMdd2 Zmdd ZmddAlg MddMinsol BssMgr MssMgr MssAlg SpecMdd Dot ConformBss.
Local Open Scope nat_scope.

Notation I := i32_checked.

(** mddcore/tests/test_gc.rs:4-20 and 23-32 *)
Example mdd_gc_keeps_roots_and_reclaims_rest : passes (
  let '(m, h0) := mdd_create_header mdd_new 0 "x" 2 in
  let '(m, h1) := mdd_create_header m 1 "y" 2 in
  let '(m, x) := mdd_create_node m h0 [mdd_zero; mdd_one] in
  let '(m, y) := mdd_create_node m h1 [mdd_zero; mdd_one] in
  let '(m, f) := mdd_create_node m h0 [mdd_zero; y] in
  let '(m, _) := mdd_create_node m h1 [mdd_one; mdd_zero] in
  let before := mdd_live_node_count m in
  '(m, reclaimed) ← mdd_gc m [f; x; y];
  let after := mdd_live_node_count m in
  let '(m, f') := mdd_create_node m h0 [mdd_zero; y] in
  Some [Some (0 <? reclaimed); Some (after <? before); Some (f' =? f)]) = true.
Proof. vm_compute. reflexivity. Qed.
Example mdd_gc_empty_roots_frees_all_nonterminals : passes (
  let '(m, h0) := mdd_create_header mdd_new 0 "x" 2 in
  let '(m, _) := mdd_create_node m h0 [mdd_zero; mdd_one] in
  let total := length (ar_nodes (d_ar m)) in
  '(m, reclaimed) ← mdd_gc m [];
  Some [Some (reclaimed =? total - 3); Some (mdd_live_node_count m =? 3)]) = true.
Proof. vm_compute. reflexivity. Qed.

(** mddcore/tests/test_gc.rs:35-54 *)
Example mtmdd_gc_reclaims_unreferenced_value_terminals : passes (
  let '(m, h0) := mt_create_header mt_new 0 "x" 2 in
  let '(m, v0) := mt_value m 0 in let '(m, v1) := mt_value m 1 in
  let '(m, x) := mt_create_node m h0 [v0; v1] in
  let '(m, v2) := mt_value m 9 in
  let '(m, h1) := mt_create_header m 1 "y" 2 in
  let '(m, _) := mt_create_node m h1 [v1; v2] in
  let before := mt_live_node_count m in
  '(m, reclaimed) ← mt_gc m [x];
  let after := mt_live_node_count m in
  let '(m, v0') := mt_value m 0 in let '(m, x') := mt_create_node m h0 [v0; v1] in
  Some [Some (0 <? reclaimed); Some (after <? before); Some (v0' =? v0); Some (x' =? x)]) = true.
Proof. vm_compute. reflexivity. Qed.

(** mddcore/tests/test_gc.rs:57-83 *)
Example mtmdd2_gc_collects_both_subforests : passes (
  '(m, h0) ← mm_create_header mm_new 0 "x" 2;
  let '(m, v0) := mm_value m 0 in let '(m, v1) := mm_value m 1 in
  '(m, x) ← mm_create_node m h0 [v0; v1];
  '(m, b) ← mm_create_node m h0 [mm_zero; mm_one];
  let '(m, v2) := mm_value m 9 in
  '(m, _) ← mm_create_node m h0 [v1; v2];
  let before := mm_live_node_count m in
  '(m, (rv, _)) ← mm_gc m [x; b];
  let after := mm_live_node_count m in
  '(m, x') ← mm_create_node m h0 [v0; v1];
  '(m, b') ← mm_create_node m h0 [mm_zero; mm_one];
  Some [Some (0 <? rv); Some (after <? before); Some (node_id x' =? node_id x); Some (node_id b' =? node_id b)]) = true.
Proof. vm_compute. reflexivity. Qed.

(** mss/src/mdd_count.rs:232-280: (x + y) * z over three-state variables *)
Definition count_mdd : option (mm * mnode) :=
  '(m, h) ← mm_create_header mm_new 0 "x" 3;
  let '(m, zero) := mm_value m 0 in let '(m, one) := mm_value m 1 in let '(m, two) := mm_value m 2 in
  '(m, x) ← mm_create_node m h [zero; one; two];
  '(m, h) ← mm_create_header m 1 "y" 3; '(m, y) ← mm_create_node m h [zero; one; two];
  '(m, h) ← mm_create_header m 2 "z" 3; '(m, z) ← mm_create_node m h [zero; one; two];
  '(m, tmp) ← mm_arith I VAdd m x y; mm_arith I VMul m tmp z.
Definition as_mgr (m : mm) : mmgr := with_mm g_new m.
Example mdd_count_test : ('(m, x) ← count_mdd; g_count (as_mgr m) x [0%Z]) = Some 11%N.
Proof. vm_compute. reflexivity. Qed.
Example mddnode_count_test : ('(m, x) ← count_mdd; g_size (as_mgr m) x) = Some (9, 7, 27)%N.
Proof. vm_compute. reflexivity. Qed.
Example mddnode_count_test2 : ('(m, x) ← count_mdd; let '(m, zero) := mm_value m 0 in '(m, e) ← mm_eq m x zero; g_size (as_mgr m) e)
  = Some (3, 2, 9)%N.
Proof. vm_compute. reflexivity. Qed.

(** helpers of the tests: vectors as lists of states in the order of [names] *)
Definition dense (names : list string) (d : gmap string nat) : option (list nat) := mapM (λ n, d !! n) names.
Definition same_vecs (a b : list (list nat)) : bool :=
  (length a =? length b) && forallb (λ v, bool_decide (v ∈ b)) a && forallb (λ v, bool_decide (v ∈ a)) b.
Definition vecs_are (names : list string) (l : option (list (gmap string nat))) (b : list (list nat)) : option bool :=
  l ← l; a ← mapM (dense names) l; Some (same_vecs a b).
Definition arith (o : vop) (w : mmgr) (f g : mnode) : option (mmgr * mnode) := g_arith I o w f g.
Definition three3 : option (mmgr * mnode * mnode * mnode) :=
  '(w, x) ← g_defvar g_new "x" 3; '(w, y) ← g_defvar w "y" 3; '(w, z) ← g_defvar w "z" 3; Some (w, x, y, z).

(** mss/tests/test_mss.rs:22-143, test_mincut_matches_bruteforce *)
Fixpoint vectors (vars : list (string * nat)) : list (list nat) :=
  match vars with
  | [] => [[]]
  | (_, m) :: vars => s ← seq 0 m; a ← vectors vars; [s :: a]
  end.
(** the value of the node at a vector, found as the test finds it: the label of probability one under point masses *)
Definition point_mass (vars : list (string * nat)) (a : list nat) : gmap string (list Z) :=
  list_to_map (zip_with (λ '(n, m) s, (n, map (λ j, if j =? s then 1%Z else 0%Z) (seq 0 m))) vars a).
Definition value_at (w : mmgr) (x : mnode) (vars : list (string * nat)) (maxval : nat) (a : list nat) : option Z :=
  List.find (λ v, match g_prob 0%Z 1%Z Z.add Z.mul w x (point_mass vars a) [v] with Some p => (p =? 1)%Z | None => false end)
    (map Z.of_nat (seq 0 (S maxval))).
Definition raise_at (i : nat) (a : list nat) : list nat := imap (λ j s, if j =? i then S s else s) a.
Definition cut_ok (s : mss) (x : mnode) (cut : zmnode) (vars : list (string * nat)) (maxval : nat) : option bool :=
  table ← mapM (λ a, v ← value_at (s_m s) x vars maxval a; Some (a, v)) (vectors vars);
  let phi a := snd <$> List.find (λ p, bool_decide (p.1 = a)) table in
  returned ← mapM (λ v, ds ← zm_extract 1000 (q_z (s_z s)) [v] cut; xs ← mapM (dense vars.*1) ds; Some (map (λ a, (a, v)) xs))
    (map Z.of_nat (seq 0 (S maxval)));
  let returned := concat returned in
  let sound := forallb (λ '(a, v), bool_decide (phi a = Some v) &&
     forallb (λ '(i, (_, m)), match a !! i with
        | Some k => if S k <? m then match phi (raise_at i a) with Some u => (v <? u)%Z | None => false end else true
        | None => false end) (imap pair vars)) returned in
  let complete := forallb (λ '(a, v),
     existsb (λ '(b, u), negb (bool_decide (b = a)) && forallb (λ '(p, q), q <=? p) (zip b a) && (u <=? v)%Z) table
     || bool_decide ((a, v) ∈ returned)) table in
  Some (sound && complete).
Example mincut_matches_bruteforce_value : passes (
  '(w, x, y, z) ← three3;
  '(w, a) ← arith VMin w x y; '(w, phi) ← arith VMax w a z;
  '(s, cut) ← s_mincut I (Mss w q_new) phi; cut ← cut;
  Some [cut_ok s phi cut [("x", 3); ("y", 3); ("z", 3)]%string 2]) = true.
Proof. vm_compute. reflexivity. Qed.
Example mincut_matches_bruteforce_boolean : passes (
  '(w, x) ← g_defvar g_new "x" 3; '(w, y) ← g_defvar w "y" 3;
  '(w, one) ← g_value w 1; '(w, two) ← g_value w 2;
  '(w, a) ← g_bin mm_gte w x one; '(w, b) ← g_bin mm_gte w y two; '(w, phi) ← g_bin mm_and w a b;
  '(s, cut) ← s_mincut I (Mss w q_new) phi; cut ← cut;
  Some [cut_ok s phi cut [("x", 3); ("y", 3)]%string 1]) = true.
Proof. vm_compute. reflexivity. Qed.
Example mincut_matches_bruteforce_asymmetric : passes (
  '(w, a) ← g_defvar g_new "a" 2; '(w, b) ← g_defvar w "b" 3; '(w, c) ← g_defvar w "c" 3;
  '(w, m) ← arith VMax w b c; '(w, phi) ← arith VMin w a m;
  '(s, cut) ← s_mincut I (Mss w q_new) phi; cut ← cut;
  Some [cut_ok s phi cut [("a", 2); ("b", 3); ("c", 3)]%string 2]) = true.
Proof. vm_compute. reflexivity. Qed.
Example mincut_not_coherent : passes (
  '(w, x) ← g_defvar g_new "x" 3; '(w, y) ← g_defvar w "y" 3; '(w, d) ← arith VSub w x y;
  '(s, cut) ← s_mincut I (Mss w q_new) d; Some [Some (bool_decide (cut = None))]) = true.
Proof. vm_compute. reflexivity. Qed.

(** mss/tests/test_mss.rs:153-211, test_mincut_levels_vs_strata *)
Example mincut_levels_vs_strata : passes (
  '(w, a) ← g_defvar g_new "a" 2; '(w, b) ← g_defvar w "b" 3; '(w, c) ← g_defvar w "c" 3;
  '(w, four) ← g_value w 4; '(w, m) ← arith VMul w a four; '(w, t) ← arith VAdd w b c; '(w, phi) ← arith VMin w m t;
  '(s, cut) ← s_mincut I (Mss w q_new) phi; cut ← cut;
  '(s, path) ← s_minpath I s phi; path ← path;
  let q := q_z (s_z s) in
  let is l vs := vecs_are ["a"; "b"; "c"] l vs in
  let stratum v := zm_extract 1000 q [v] cut in let level v := zm_extract_level 1000 q v cut in
  Some [Some (zn_rev cut); (λ l, bool_decide (l = [0; 1; 2; 3; 4]%Z)) <$> zm_labels q (zn_id cut);
        is (stratum 1%Z) [[1; 0; 1]; [1; 1; 0]]; is (level 1%Z) [[0; 2; 2]; [1; 0; 1]; [1; 1; 0]];
        is (level 3%Z) [[0; 2; 2]; [1; 1; 2]; [1; 2; 1]];
        is (stratum 0%Z) [[0; 2; 2]; [1; 0; 0]]; is (level 0%Z) [[0; 2; 2]; [1; 0; 0]]; is (stratum 4%Z) [[1; 2; 2]]; is (level 4%Z) [[1; 2; 2]];
        Some (negb (zn_rev path)); is (zm_extract 1000 q [0%Z] path) [[0; 0; 0]]; is (zm_extract_level 1000 q 0%Z path) [[0; 0; 0]]]
  )%string = true.
Proof. vm_compute. reflexivity. Qed.

(** mss/tests/test_mss.rs:213-272, test_bmeas_matches_pinned_prob, with exact rationals in place of f64 *)
Definition q (n : Z) (d : positive) : Q := Qmake n d.
Definition base_pv : gmap string (list Q) :=
  list_to_map [("x", [q 2 10; q 3 10; q 5 10]); ("y", [q 5 10; q 1 10; q 4 10]); ("z", [q 1 4; q 1 4; q 1 2])]%string.
Definition unit_vec (j : nat) : list Q := map (λ i, if i =? j then q 1 1 else q 0 1) (seq 0 3).
Definition qprob (w : mmgr) (x : mnode) (pv : gmap string (list Q)) (ss : list Z) : option Q := g_prob (q 0 1) (q 1 1) Qplus Qmult w x pv ss.
Definition bmeas_ok (w : mmgr) (x : mnode) (ss : list Z) : option bool :=
  bm ← g_bmeas (q 0 1) (q 1 1) Qplus Qmult Qminus w x base_pv ss;
  oks ← mapM (λ p : string * list Q,
    ds ← mapM (λ dg : nat * Q,
      a ← qprob w x (<[p.1 := unit_vec (S dg.1)]> base_pv) ss; b ← qprob w x (<[p.1 := unit_vec dg.1]> base_pv) ss;
      Some (Qeq_bool dg.2 (Qminus a b))) (imap pair p.2);
    Some ((length p.2 =? 2) && forallb id ds)) (map_to_list bm);
  Some (negb (length oks =? 0) && forallb id oks).
Example bmeas_matches_pinned_prob_value : passes (
  '(w, x, y, z) ← three3; '(w, a) ← arith VMin w x y; '(w, phi) ← arith VMax w a z; Some [bmeas_ok w phi [1%Z; 2%Z]]) = true.
Proof. vm_compute. reflexivity. Qed.
Example bmeas_matches_pinned_prob_boolean : passes (
  '(w, x) ← g_defvar g_new "x" 3; '(w, y) ← g_defvar w "y" 3;
  '(w, one) ← g_value w 1; '(w, two) ← g_value w 2;
  '(w, a) ← g_bin mm_gte w x one; '(w, b) ← g_bin mm_gte w y two; '(w, phi) ← g_bin mm_and w a b; Some [bmeas_ok w phi [1%Z]]) = true.
Proof. vm_compute. reflexivity. Qed.

(** mss/tests/test_mss.rs:292-320, test_minpath_coherence_detection *)
Definition some_mpath (w : mmgr) (x : mnode) : option bool := '(_, r) ← s_minpath I (Mss w q_new) x; Some (bool_decide (is_Some r)).
Example minpath_coherence_detection : passes (
  '(w, x) ← g_defvar g_new "x" 3; '(w, y) ← g_defvar w "y" 3;
  '(w, sum) ← arith VAdd w x y; '(w, mx) ← arith VMax w x y; '(w, diff) ← arith VSub w x y;
  '(w, one) ← g_value w 1; '(w, ge) ← g_bin mm_gte w x one; '(w, lt) ← g_bin mm_lt w x y; '(w, eq) ← g_bin mm_eq w x y;
  Some [some_mpath w sum; some_mpath w mx; negb <$> some_mpath w diff; some_mpath w ge; negb <$> some_mpath w lt;
        negb <$> some_mpath w eq]) = true.
Proof. vm_compute. reflexivity. Qed.

(** mss/tests/test_mss.rs:327-366, test_minpath_no_spurious_vectors, 368-420, test_zmdd_intersect_setdiff, and 422-440,
    test_zmdd_dot *)
Fixpoint contains (t : string) (s : string) : bool :=
  String.prefix t s || match s with EmptyString => false | String.String _ s => contains t s end.
Example minpath_vectors_and_algebra : passes (
  '(w, x, y, z) ← three3; '(w, g) ← arith VMin w x y; '(w, f) ← arith VMax w g z;
  '(s, a) ← s_minpath I (Mss w q_new) f; a ← a;
  '(s, b) ← s_minpath I s g; b ← b;
  '(k, inter) ← q_intersect (s_z s) a b; '(k, diff) ← q_setdiff k a b;
  d ← q_dot k (zn_id a);
  let is c vs := vecs_are ["x"; "y"; "z"] (zm_extract 1000 (q_z k) [1%Z; 2%Z] c) vs in
  let count c := zm_count (q_z k) [1%Z; 2%Z] (zn_id c) in
  Some [is a [[0; 0; 1]; [0; 0; 2]; [1; 1; 0]; [2; 2; 0]];
        is inter [[1; 1; 0]; [2; 2; 0]]; (λ n, n =? 2)%N <$> count inter;
        is diff [[0; 0; 1]; [0; 0; 2]]; (λ n, n =? 2)%N <$> count diff;
        Some (String.prefix "digraph {" d); Some (negb (contains "Undet" d));
        Some (contains "label=""x""" d && contains "label=""y""" d && contains "label=""z""" d)])%string = true.
Proof. vm_compute. reflexivity. Qed.
