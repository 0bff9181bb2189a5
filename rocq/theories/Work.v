(** How much work the recursions of bss and mss do: the same recursions as in BssAlg, ZddAlg and MssAlg, which also report
    what they do.  [kofn_c] counts the calls of [ite]; the others list the nodes they evaluate, in the order in which their results
    are stored in the memo table.  WorkProofs shows that leaving the report out gives the modelled functions back. *)
From stdpp Require Import strings.
From Verif Require Import Prelude ComputeCache Arena Bdd Zdd Mdd MtMdd MtMdd2 BssAlg ZddAlg ZmddAlg BssMgr MssMgr MssAlg.

(** bdd_kofn.rs:42-66, counting the calls of dd.ite at line 63 *)
Fixpoint kofn_rec_c (fuel : nat) (m : bdd) (node : list nat) (k start n : nat) (memo : list (option nat))
  : option (bdd * list (option nat) * nat * nat) :=
  match fuel with
  | O => None
  | S fuel =>
      if k =? 0 then Some (m, memo, bdd_one, 0) else
      let remaining := n - start in
      if remaining <? k then Some (m, memo, bdd_zero, 0) else
      let idx := k * (n + 1) + start in
      hit ← memo !! idx;
      match hit with
      | Some v => Some (m, memo, v, 0)
      | None =>
          '(m, memo, t, c1) ← kofn_rec_c fuel m node (k - 1) (start + 1) n memo;
          '(m, memo, e, c2) ← kofn_rec_c fuel m node k (start + 1) n memo;
          x ← node !! start;
          '(m, res) ← bdd_ite m x t e;
          Some (m, <[idx := Some res]> memo, res, c1 + c2 + 1)
      end
  end.
(** bdd_kofn.rs:31-40 *)
Definition kofn_c (m : bdd) (k : nat) (node : list nat) : option (bdd * nat * nat) :=
  let n := length node in
  '(m, _, r, c) ← kofn_rec_c (S n) m node k 0 n (replicate ((k + 1) * (n + 1)) None);
  Some (m, r, c).

(** bdd_dual.rs:12-37, listing the evaluated nodes *)
Fixpoint dual_t (n : nat) (m : bdd) (node : nat) (cache : gmap nat nat)
  : option (bdd * gmap nat nat * nat * list nat) :=
  match n with
  | O => None
  | S n =>
      match cache !! node with
      | Some x => Some (m, cache, x, [])
      | None =>
          nd ← ar_nodes (b_ar m) !! node;
          '(m, cache, result, tr) ←
            match nd with
            | Term TZero => Some (m, cache, bdd_one, [])
            | Term TOne => Some (m, cache, bdd_zero, [])
            | Term TUndet => Some (m, cache, bdd_undet, [])
            | NT h cs =>
                '(lo, hi) ← edges2 cs;
                '(m, cache, new_low, t1) ← dual_t n m hi cache;
                '(m, cache, new_high, t2) ← dual_t n m lo cache;
                let '(m, r) := bdd_create_node m h new_low new_high in
                Some (m, cache, r, t1 ++ t2)
            end;
          Some (m, <[node := result]> cache, result, tr ++ [node])
      end
  end.
Definition bdd_dual_t (m : bdd) (node : nat) : option (bdd * nat * list nat) :=
  '(m, _, r, tr) ← dual_t (ar_fuel (b_ar m)) m node ∅; Some (m, r, tr).

(** bdd_count.rs:41-94, listing the evaluated nodes *)
Fixpoint bdd_count_tf (n : nat) (a : arena tv) (ss : list bool) (node : nat) (cache : gmap nat N)
  : option (gmap nat N * N * list nat) :=
  match n with
  | O => None
  | S n =>
      match cache !! node with
      | Some x => Some (cache, x, [])
      | None =>
          nd ← ar_nodes a !! node;
          '(cache, result, tr) ←
            match nd with
            | Term TOne => Some (cache, if in_ss ss true then 1%N else 0%N, [])
            | Term TZero => Some (cache, if in_ss ss false then 1%N else 0%N, [])
            | NT h cs =>
                '(e0, e1) ← edges2 cs;
                current ← hdr_level a h;
                l0 ← ar_node_level a e0;
                '(cache, c0, t1) ← bdd_count_tf n a ss e0 cache;
                let r0 := match l0 with
                          | Some next => (power 2 (current - next - 1) * c0)%N
                          | None => (power 2 current * c0)%N
                          end in
                l1 ← ar_node_level a e1;
                '(cache, c1, t2) ← bdd_count_tf n a ss e1 cache;
                let r1 := match l1 with
                          | Some next => (power 2 (current - next - 1) * c1)%N
                          | None => (power 2 current * c1)%N
                          end in
                Some (cache, (0 + r0 + r1)%N, t1 ++ t2)
            | Term TUndet => Some (cache, 0%N, [])
            end;
          Some (<[node := result]> cache, result, tr ++ [node])
      end
  end.
Definition bdd_count_t (m : bdd) (ss : list bool) (node : nat) : option (N * list nat) :=
  '(_, r, tr) ← bdd_count_tf (ar_fuel (b_ar m)) (b_ar m) ss node ∅; Some (r, tr).

(** zdd_count.rs:4-46, listing the evaluated nodes *)
Fixpoint zdd_count_tf (n : nat) (a : arena tv) (ss : list bool) (node : nat) (cache : gmap nat N)
  : option (gmap nat N * N * list nat) :=
  match n with
  | O => None
  | S n =>
      match cache !! node with
      | Some x => Some (cache, x, [])
      | None =>
          nd ← ar_nodes a !! node;
          '(cache, result, tr) ←
            match nd with
            | Term TOne => Some (cache, if in_ss ss true then 1%N else 0%N, [])
            | Term TZero => Some (cache, if in_ss ss false then 1%N else 0%N, [])
            | NT _ cs =>
                '(f0, f1) ← edges2 cs;
                '(cache, e0, t1) ← zdd_count_tf n a ss f0 cache;
                '(cache, e1, t2) ← zdd_count_tf n a ss f1 cache;
                Some (cache, (e0 + e1)%N, t1 ++ t2)
            | Term TUndet => Some (cache, 0%N, [])
            end;
          Some (<[node := result]> cache, result, tr ++ [node])
      end
  end.
Definition zdd_count_t (m : zdd) (ss : list bool) (node : nat) : option (N * list nat) :=
  '(_, r, tr) ← zdd_count_tf (ar_fuel (z_ar m)) (z_ar m) ss node ∅; Some (r, tr).

Section prob.
Context {R : Type} (rO rI : R) (radd rmul rsub : R → R → R).

(** bdd_prob.rs:5-45, listing the evaluated nodes *)
Fixpoint prob_tf (n : nat) (a : arena tv) (node : nat) (pv : gmap string R) (ss : list bool)
  (cache : gmap nat R) : option (gmap nat R * R * list nat) :=
  match n with
  | O => None
  | S n =>
      match cache !! node with
      | Some x => Some (cache, x, [])
      | None =>
          nd ← ar_nodes a !! node;
          '(cache, result, tr) ←
            match nd with
            | Term TZero => Some (cache, if in_ss ss false then rI else rO, [])
            | Term TOne => Some (cache, if in_ss ss true then rI else rO, [])
            | NT h cs =>
                hd ← ar_headers a !! h;
                let fp := default rO (pv !! h_label hd) in
                '(e0, e1) ← edges2 cs;
                '(cache, low, t1) ← prob_tf n a e0 pv ss cache;
                '(cache, high, t2) ← prob_tf n a e1 pv ss cache;
                Some (cache, radd (rmul (rsub rI fp) low) (rmul fp high), t1 ++ t2)
            | Term TUndet => None
            end;
          Some (<[node := result]> cache, result, tr ++ [node])
      end
  end.
Definition bdd_prob_t (m : bdd) (pv : gmap string R) (ss : list bool) (node : nat) : option (R * list nat) :=
  '(_, r, tr) ← prob_tf (ar_fuel (b_ar m)) (b_ar m) node pv ss ∅; Some (r, tr).

(** vprob / bprob, mdd_prob.rs:28-67 and 69-114, listing the evaluated nodes *)
Fixpoint nprob_tf {T} (hit : T → option bool) (n : nat) (a : arena T) (pv : gmap string (list R)) (node : nat) (cache : gmap nat R)
  : option (gmap nat R * R * list nat) :=
  match n with
  | O => None
  | S n =>
      match cache !! node with
      | Some x => Some (cache, x, [])
      | None =>
          nd ← ar_nodes a !! node;
          '(cache, r, tr) ←
            match nd with
            | Term t => Some (cache, match hit t with Some true => rI | _ => rO end, [])
            | NT h cs =>
                hd ← ar_headers a !! h;
                fp ← pv !! h_label hd;
                (fix go i cs cache r tr {struct cs} :=
                   match cs with
                   | [] => Some (cache, r, tr)
                   | c :: cs =>
                       '(cache, tmp, t1) ← nprob_tf hit n a pv c cache;
                       p ← fp !! i;
                       go (S i) cs cache (radd r (rmul p tmp)) (tr ++ t1)
                   end) 0 cs cache rO []
            end;
          Some (<[node := r]> cache, r, tr ++ [node])
      end
  end.
(** MddNode::prob, mdd.rs:884-898 *)
Definition g_prob_t (w : mmgr) (x : mnode) (pv : gmap string (list R)) (ss : list Z) : option (R * list nat) :=
  '(_, r, tr) ←
    match x with
    | NVal f => nprob_tf (vhit ss) (ar_fuel (t_ar (mm_v (g_mm w)))) (t_ar (mm_v (g_mm w))) pv f ∅
    | NBool f => nprob_tf (bhit ss) (ar_fuel (d_ar (mm_b (g_mm w)))) (d_ar (mm_b (g_mm w))) pv f ∅
    end;
  Some (r, tr).
End prob.
