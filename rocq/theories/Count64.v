(** The counters of the BDD and ZDD queries in machine arithmetic.  [bdd_count] and [zdd_count] are generic in the
    number type T; the wrapper methods instantiate it with u64.  [BssAlg] and [ZddAlg] model T as unbounded; here
    every addition and multiplication is the one of u64.
    Sources: bss/src/bdd_count.rs, zdd_count.rs, bdd.rs:518-522, zdd.rs:287-292. *)
From stdpp Require Import strings.
From Verif Require Import Prelude ComputeCache Arena Bdd BssAlg Zdd ZddAlg BssMgr ZddMgr.

(** How the library was compiled: with overflow checks (the dev and test profiles) or without (release). *)
Inductive build := Checked | Wrapping.
Definition U64 : N := (2 ^ 64)%N.
(** The result of a u64 operation whose exact result is [x]; [None] is the overflow panic. *)
Definition u64 (md : build) (x : N) : option N :=
  if (x <? U64)%N then Some x else match md with Checked => None | Wrapping => Some (x mod U64)%N end.

(** bdd_count.rs:4-13 at T = u64 *)
Fixpoint power64 (md : build) (x : N) (n : nat) : option N :=
  match n with O => Some 1%N | S n => r ← power64 md x n; u64 md (r * x) end.

(** bdd_count.rs:41-94 at T = u64; the order of the operations is that of the code: power, recursive call, product, sum *)
Fixpoint bdd_count64_f (md : build) (n : nat) (a : arena tv) (ss : list bool) (node : nat) (cache : gmap nat N)
  : option (gmap nat N * N) :=
  match n with
  | O => None
  | S n =>
      match cache !! node with
      | Some x => Some (cache, x)
      | None =>
          nd ← ar_nodes a !! node;
          '(cache, result) ←
            match nd with
            | Term TOne => Some (cache, if in_ss ss true then 1%N else 0%N)
            | Term TZero => Some (cache, if in_ss ss false then 1%N else 0%N)
            | NT h cs =>
                '(e0, e1) ← edges2 cs;
                current ← hdr_level a h;
                l0 ← ar_node_level a e0;
                p0 ← power64 md 2 (match l0 with Some next => current - next - 1 | None => current end);
                '(cache, c0) ← bdd_count64_f md n a ss e0 cache;
                t0 ← u64 md (p0 * c0);
                r ← u64 md (0 + t0);
                l1 ← ar_node_level a e1;
                p1 ← power64 md 2 (match l1 with Some next => current - next - 1 | None => current end);
                '(cache, c1) ← bdd_count64_f md n a ss e1 cache;
                t1 ← u64 md (p1 * c1);
                r ← u64 md (r + t1);
                Some (cache, r)
            | Term TUndet => Some (cache, 0%N)
            end;
          Some (<[node := result]> cache, result)
      end
  end.
(** bdd.rs:518-522 BddNode::bdd_count *)
Definition w_count64 (md : build) (w : bmgr) (ss : list bool) (node : nat) : option N :=
  let a := b_ar (w_bdd w) in
  '(_, r) ← bdd_count64_f md (ar_fuel a) a ss node ∅; Some r.

(** zdd_count.rs:10-45 at T = u64 *)
Fixpoint zdd_count64_f (md : build) (n : nat) (a : arena tv) (ss : list bool) (node : nat) (cache : gmap nat N)
  : option (gmap nat N * N) :=
  match n with
  | O => None
  | S n =>
      match cache !! node with
      | Some x => Some (cache, x)
      | None =>
          nd ← ar_nodes a !! node;
          '(cache, result) ←
            match nd with
            | Term TOne => Some (cache, if in_ss ss true then 1%N else 0%N)
            | Term TZero => Some (cache, if in_ss ss false then 1%N else 0%N)
            | NT _ cs =>
                '(f0, f1) ← edges2 cs;
                '(cache, e0) ← zdd_count64_f md n a ss f0 cache;
                '(cache, e1) ← zdd_count64_f md n a ss f1 cache;
                r ← u64 md (e0 + e1);
                Some (cache, r)
            | Term TUndet => Some (cache, 0%N)
            end;
          Some (<[node := result]> cache, result)
      end
  end.
(** zdd.rs:287-292 ZddNode::count *)
Definition y_count64 (md : build) (w : zmgr) (ss : list bool) (node : nat) : option N :=
  let a := z_ar (y_zdd w) in
  '(_, r) ← zdd_count64_f md (ar_fuel a) a ss node ∅; Some r.
