(** The assertions of the repository's own tests of the bddcore and bss crates, evaluated in the model.  These are tests of
    the model, not proofs of properties: they show that on the inputs the authors chose the model gives the answers the
    authors assert of the code. *)
From stdpp Require Import strings.
From Verif Require Import Prelude ComputeCache Arena Bdd Zdd ZddAlg BssAlg BssMgr ZddMgr BssLook.

(** [sorted_sets(a) == sets(b)]: the same sets, each as often *)
Definition same_members (a b : list string) : bool :=
  (length a =? length b) && forallb (λ x, bool_decide (x ∈ b)) a && forallb (λ x, bool_decide (x ∈ a)) b.
Definition same_family (a b : list (list string)) : bool :=
  (length a =? length b) && forallb (λ s, existsb (same_members s) b) a && forallb (λ s, existsb (same_members s) a) b.
Definition fam_is (y : zmgr) (z : nat) (b : list (list string)) : option bool :=
  a ← y_extract 1000 y [true] z; Some (same_family a b).
(** the whole test passes: no panic and every assertion true *)
Definition passes (r : option (list (option bool))) : bool :=
  match r with Some l => forallb (λ o, match o with Some b => b | None => false end) l | None => false end.

(** bddcore/tests/test_gc.rs:4-33, bdd_gc_retains_live_cache_entries *)
Definition t_gc_base : bdd * nat * nat * nat :=
  let '(m, hx) := bdd_create_header bdd_new 0 "x" in
  let '(m, hy) := bdd_create_header m 1 "y" in
  let '(m, hz) := bdd_create_header m 2 "z" in
  let '(m, x) := bdd_create_node m hx bdd_zero bdd_one in
  let '(m, y) := bdd_create_node m hy bdd_zero bdd_one in
  let '(m, z) := bdd_create_node m hz bdd_zero bdd_one in (m, x, y, z).
Definition cache_len (m : bdd) : N := (bdd_size m).2.
Example bdd_gc_retains_live_cache_entries : passes (
  let '(m, x, y, z) := t_gc_base in
  '(m, a) ← bdd_and m x y; '(m, _) ← bdd_or m x z;
  let before := cache_len m in
  '(m, reclaimed) ← bdd_gc m [a; x; y];
  let after := cache_len m in
  '(m, a') ← bdd_and m x y;
  Some [Some (0 <? before)%N; Some (0 <? reclaimed); Some (0 <? after)%N; Some (after <? before)%N; Some (a' =? a)]) = true.
Proof. vm_compute. reflexivity. Qed.

(** bddcore/tests/test_gc.rs:36-57 *)
Example bdd_gc_keeps_roots_and_reclaims_rest : passes (
  let '(m, x, y, z) := t_gc_base in
  '(m, f) ← bdd_and m x y; '(m, _) ← bdd_or m x z;
  let before := bdd_live_node_count m in
  '(m, reclaimed) ← bdd_gc m [f; x; y];
  let after := bdd_live_node_count m in
  '(m, f') ← bdd_and m x y;
  Some [Some (0 <? reclaimed); Some (after <? before); Some (f' =? f)]) = true.
Proof. vm_compute. reflexivity. Qed.

(** bddcore/tests/test_gc.rs:60-73 and 76-94 *)
Example bdd_gc_empty_roots_and_reuse : passes (
  let '(m, hx) := bdd_create_header bdd_new 0 "x" in
  let '(m, hy) := bdd_create_header m 1 "y" in
  let '(m, x) := bdd_create_node m hx bdd_zero bdd_one in
  let '(m, y) := bdd_create_node m hy bdd_zero bdd_one in
  '(m, _) ← bdd_and m x y;
  let total := (bdd_size m).1.2 in
  '(m, reclaimed) ← bdd_gc m [];
  let live := bdd_live_node_count m in
  let slots := (bdd_size m).1.2 in
  let '(m, hw) := bdd_create_header m 3 "w" in
  let '(m, _) := bdd_create_node m hw bdd_zero bdd_one in
  Some [Some (reclaimed =? total - 3); Some (live =? 3); Some (0 <? slots - live); Some ((bdd_size m).1.2 =? slots)]) = true.
Proof. vm_compute. reflexivity. Qed.

(** bddcore/tests/test_gc.rs:97-114 and 117-130 *)
Definition t_zgc_base : zdd * nat * nat :=
  let '(m, ha) := zdd_create_header zdd_new 0 "a" in
  let '(m, hb) := zdd_create_header m 1 "b" in
  let '(m, a) := zdd_create_node m ha zdd_zero zdd_one in
  let '(m, b) := zdd_create_node m hb zdd_zero zdd_one in (m, a, b).
Example zdd_gc_keeps_roots_and_reclaims_rest : passes (
  let '(m, a, b) := t_zgc_base in
  '(m, u) ← zdd_union m a b; '(m, _) ← zdd_product m a b;
  let before := zdd_live_node_count m in
  '(m, reclaimed) ← zdd_gc m [u; a; b];
  let after := zdd_live_node_count m in
  '(m, u') ← zdd_union m a b;
  Some [Some (0 <? reclaimed); Some (after <? before); Some (u' =? u)]) = true.
Proof. vm_compute. reflexivity. Qed.
Example zdd_gc_empty_roots_frees_all_nonterminals : passes (
  let '(m, a, b) := t_zgc_base in
  '(m, u) ← zdd_union m a b;
  let total := length (ar_nodes (z_ar m)) in
  '(m, reclaimed) ← zdd_gc m [];
  Some [Some (reclaimed =? total - 3); Some (zdd_live_node_count m =? 3)]) = true.
Proof. vm_compute. reflexivity. Qed.

(** bss/tests/test_bss.rs:111-129, test_minpath_monotone_detection *)
Definition three : bmgr * nat * nat * nat :=
  let '(w, x) := w_defvar w_new "x" in let '(w, y) := w_defvar w "y" in let '(w, z) := w_defvar w "z" in (w, x, y, z).
Definition some_path (w : bmgr) (f : nat) : option bool := '(_, r) ← s_minpath (BssM w y_new) f; Some (bool_decide (is_Some r)).
Example minpath_monotone_detection : passes (
  let '(w, x, y, z) := three in
  '(w, a) ← w_and w x y; '(w, mono) ← w_or w a z;
  '(w, xo) ← w_xor w x y; '(w, ny) ← w_not w y; '(w, an) ← w_and w x ny; '(w, nz) ← w_not w z;
  Some [some_path w mono; negb <$> some_path w xo; negb <$> some_path w an; negb <$> some_path w nz]) = true.
Proof. vm_compute. reflexivity. Qed.

(** bss/tests/test_bss.rs:158-190, test_dual_and_mincut *)
Example dual_and_mincut : passes (
  let '(w, x) := w_defvar w_new "x" in let '(w, y) := w_defvar w "y" in
  '(w, series) ← w_and w x y; '(w, parallel) ← w_or w x y;
  '(w, ds) ← w_dual w series; '(w, dp) ← w_dual w parallel; '(w, dds) ← w_dual w ds; '(w, xo) ← w_xor w x y;
  '(s, cut) ← s_mincut (BssM w y_new) series; cut ← cut;
  '(s, path) ← s_minpath s series; path ← path;
  '(s, cut2) ← s_mincut s parallel; cut2 ← cut2;
  '(s, path2) ← s_minpath s parallel; path2 ← path2;
  '(s, no) ← s_mincut s xo;
  let y := s_zdd s in
  Some [Some (w_eq ds parallel); Some (w_eq dp series); Some (w_eq dds series);
        (λ n, n =? 2)%N <$> y_count y [true] cut; fam_is y cut [["x"]; ["y"]];
        (λ n, n =? 1)%N <$> y_count y [true] path; fam_is y path [["x"; "y"]];
        fam_is y cut2 [["x"; "y"]]; fam_is y path2 [["x"]; ["y"]]; Some (bool_decide (no = None))])%string = true.
Proof. vm_compute. reflexivity. Qed.

(** bss/tests/test_bss.rs:193-217, test_zdd_setops *)
Example zdd_setops : passes (
  let '(w, x, y, z) := three in
  '(w, a) ← w_and w x y; '(w, f) ← w_or w a z; '(w, g) ← w_or w x z;
  '(s, a) ← s_minpath (BssM w y_new) f; a ← a;
  '(s, b) ← s_minpath s g; b ← b;
  '(s, fx) ← s_minpath s x; fx ← fx;
  '(s, fy) ← s_minpath s y; fy ← fy;
  let q := s_zdd s in
  '(q, u) ← y_op ZUnion q a b; '(q, i) ← y_op ZIntersect q a b; '(q, d) ← y_op ZSetdiff q a b;
  '(q, p) ← y_op ZProduct q fx fy; '(q, v) ← y_op ZDivision q p fy;
  Some [fam_is q a [["z"]; ["x"; "y"]]; fam_is q b [["x"]; ["z"]]; fam_is q u [["x"; "y"]; ["x"]; ["z"]];
        fam_is q i [["z"]]; fam_is q d [["x"; "y"]]; fam_is q p [["x"; "y"]]; fam_is q v [["x"]]])%string = true.
Proof. vm_compute. reflexivity. Qed.

(** bss/tests/test_bss.rs:264-286, test_zdd_standalone *)
Example zdd_standalone : passes (
  '(q, e) ← y_empty y_new; '(q, o) ← y_base q;
  '(q, a) ← y_from_sets q [["x"; "y"]; ["z"]];
  '(q, x) ← y_singleton q "x"; '(q, z) ← y_singleton q "z"; '(q, b) ← y_op ZUnion q x z;
  '(q, y) ← y_singleton q "y";
  '(q, u) ← y_op ZUnion q a b; '(q, i) ← y_op ZIntersect q a b; '(q, d) ← y_op ZSetdiff q a b;
  '(q, p) ← y_op ZProduct q x y; '(q, v) ← y_op ZDivision q p y;
  Some [(λ n, n =? 0)%N <$> y_count q [true] e; (λ n, n =? 1)%N <$> y_count q [true] o; fam_is q o [[]];
        fam_is q a [["x"; "y"]; ["z"]]; fam_is q b [["x"]; ["z"]]; fam_is q u [["x"; "y"]; ["x"]; ["z"]];
        fam_is q i [["z"]]; fam_is q d [["x"; "y"]]; fam_is q p [["x"; "y"]]; fam_is q v [["x"]]])%string = true.
Proof. vm_compute. reflexivity. Qed.

(** bss/tests/test_bss.rs:223-261, test_minpath_exhaustive_brute_force: every function of one, two and three variables *)
Definition bit (t a : nat) : bool := Nat.testbit t a.
Definition var_name (i : nat) : string := nth i ["x0"; "x1"; "x2"]%string ""%string.
Fixpoint defvars (w : bmgr) (is : list nat) : bmgr * list nat :=
  match is with
  | [] => (w, [])
  | i :: is => let '(w, x) := w_defvar w (var_name i) in let '(w, xs) := defvars w is in (w, x :: xs)
  end.
Fixpoint minterm (w : bmgr) (acc : nat) (vars : list nat) (i a : nat) : option (bmgr * nat) :=
  match vars with
  | [] => Some (w, acc)
  | v :: vars =>
      '(w, lit) ← (if bit a i then Some (w, v) else w_not w v);
      '(w, acc) ← w_and w acc lit; minterm w acc vars (S i) a
  end.
Fixpoint from_table (w : bmgr) (acc : nat) (vars : list nat) (t : nat) (points : list nat) : option (bmgr * nat) :=
  match points with
  | [] => Some (w, acc)
  | a :: points =>
      if bit t a then
        '(w, o) ← w_one w; '(w, m) ← minterm w o vars 0 a; '(w, acc) ← w_or w acc m; from_table w acc vars t points
      else from_table w acc vars t points
  end.
Definition table_ok (s0 : bssmgr) (n t : nat) : bool :=
  let points := seq 0 (2 ^ n) in
  let mono := forallb (λ a, forallb (λ b, negb (Nat.land a b =? a) || negb (bit t a) || bit t b) points) points in
  let trues := List.filter (bit t) points in
  let minimal := List.filter (λ a, negb (existsb (λ b, negb (b =? a) && (Nat.land b a =? b)) trues)) trues in
  let expected := map (λ a, map var_name (List.filter (bit a) (seq 0 n))) minimal in
  let '(w, vars) := defvars (s_bdd s0) (seq 0 n) in
  match ('(w, z) ← w_zero w; '(w, f) ← from_table w z vars t points;
         '(s, mp) ← s_minpath (BssM w (s_zdd s0)) f; Some (s, mp)) with
  | None => false
  | Some (s, None) => negb mono
  | Some (s, Some p) => mono && match fam_is (s_zdd s) p expected with Some b => b | None => false end
  end.
(** all functions of one and two variables, and the majority function and one other of three *)
Example minpath_exhaustive : (let s0 := s_new in
  forallb (table_ok s0 1) (seq 0 4) && forallb (table_ok s0 2) (seq 0 16) && table_ok s0 3 232 && table_ok s0 3 150) = true.
Proof. vm_compute. reflexivity. Qed.

(** bss/src/bdd.rs:656-690, test_kofn_minterms: kofn(k, n).bdd_count([true]) is the sum of C(n, j) over j >= k, for n = 8 (the
    variables are called a, b, ... here) *)
Definition binom (n k : nat) : N :=
  foldl (λ r i, r * N.of_nat (n - i) / N.of_nat (i + 1))%N 1%N (seq 0 (Nat.min k (n - k))).
Definition name_of (i : nat) : string := String.String (Ascii.ascii_of_nat (97 + i)) EmptyString.
Fixpoint defnames (w : bmgr) (is : list nat) : bmgr * list nat :=
  match is with
  | [] => (w, [])
  | i :: is => let '(w, x) := w_defvar w (name_of i) in let '(w, xs) := defnames w is in (w, x :: xs)
  end.
Definition kofn_ok (n k : nat) : bool :=
  let '(w, xs) := defnames w_new (seq 0 n) in
  match ('(w, f) ← w_kofn w k xs; w_count w [true] f) with
  | Some c => (c =? foldr (λ j s, binom n j + s) 0 (seq k (n - k + 1)))%N
  | None => false
  end.
Example kofn_minterms : forallb (λ n, forallb (kofn_ok n) [1; 2; n / 2; n]) [8] = true.
Proof. vm_compute. reflexivity. Qed.
Example kofn_zero : forallb (λ n, let '(w, xs) := defnames w_new (seq 0 n) in
  match ('(w, f) ← w_kofn w 0 xs; w_size w f) with Some (c, _, _) => (c =? 0)%N | None => false end) [8; 16; 20] = true.
Proof. vm_compute. reflexivity. Qed.
