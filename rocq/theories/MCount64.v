(** The counters of the multi-state queries in u64 arithmetic (see [Count64]; [MssAlg] and [ZmddAlg] leave them unbounded).
    Sources: mss/src/mdd_count.rs, mdd.rs:930-934, zmdd.rs:273-278 and 334-362. *)
From stdpp Require Import strings.
From Verif Require Import Prelude ComputeCache Arena Bdd Mdd MtMdd MtMdd2 Zmdd ZmddAlg BssMgr MssMgr MssAlg Count64.

(** vmdd_count ([keyed = true]) and bmdd_count ([keyed = false]), mdd_count.rs:138-180 and 182-230, at T = u64.
    [T::from(edge_num as u32)]: the number of states of a variable is assumed to be below 2^32. *)
Fixpoint ncount64_f {T} (md : build) (keyed : bool) (hit : T → option bool) (n : nat) (a : arena T) (l2h : list nat)
  (level : option nat) (node : nat) (cache : gmap (nat * option nat) N) : option (gmap (nat * option nat) N * N) :=
  match n with
  | O => None
  | S n =>
      let key := (node, if keyed then level else None) in
      match cache !! key with
      | Some x => Some (cache, x)
      | None =>
          nd ← ar_nodes a !! node;
          nl ← ar_node_level a node;
          '(cache, r) ←
            if negb (undetermined hit nd) && olt nl level then
              l ← level; h ← l2h !! l; hd ← ar_headers a !! h;
              '(cache, x) ← ncount64_f md keyed hit n a l2h (opred level) node cache;
              r ← u64 md (N.of_nat (h_edges hd) * x);
              Some (cache, r)
            else
              match nd with
              | NT _ cs =>
                  (fix go cs cache r {struct cs} :=
                     match cs with
                     | [] => Some (cache, r)
                     | c :: cs =>
                         '(cache, tmp) ← ncount64_f md keyed hit n a l2h (opred level) c cache;
                         r ← u64 md (r + tmp);
                         go cs cache r
                     end) cs cache 0%N
              | Term t => Some (cache, match hit t with Some true => 1%N | _ => 0%N end)
              end;
          Some (<[key := r]> cache, r)
      end
  end.
(** mdd_count, mdd_count.rs:104-135 *)
Definition ncount64 {T} (md : build) (keyed : bool) (hit : T → option bool) (a : arena T) (node : nat) : option N :=
  nl ← ar_node_level a node;
  match nl with
  | Some level =>
      l2h ← l2h_table a;
      '(_, r) ← ncount64_f md keyed hit (2 + length (ar_headers a)) a l2h (Some level) node ∅; Some r
  | None => Some 1%N
  end.
(** MddNode::mdd_count, mdd.rs:930-934 *)
Definition g_count64 (md : build) (w : mmgr) (x : mnode) (ss : list Z) : option N :=
  match x with
  | NVal f => ncount64 md true (vhit ss) (t_ar (mm_v (g_mm w))) f
  | NBool f => ncount64 md false (bhit ss) (d_ar (mm_b (g_mm w))) f
  end.

(** zmdd_count, zmdd.rs:334-362; [sum()] adds from the left, starting at 0, as the children are counted *)
Fixpoint zm_count64_f (md : build) (n : nat) (a : arena vt) (ss : list Z) (node : nat) (cache : gmap nat N)
  : option (gmap nat N * N) :=
  match n with
  | O => None
  | S n =>
      match cache !! node with
      | Some x => Some (cache, x)
      | None =>
          nd ← ar_nodes a !! node;
          '(cache, r) ←
            match nd with
            | Term VUndet => Some (cache, 0%N)
            | Term (VVal z) => Some (cache, if in_zs ss z then 1%N else 0%N)
            | NT _ cs =>
                (fix go cs cache r {struct cs} :=
                   match cs with
                   | [] => Some (cache, r)
                   | c :: cs =>
                       '(cache, x) ← zm_count64_f md n a ss c cache;
                       r ← u64 md (r + x);
                       go cs cache r
                   end) cs cache 0%N
            end;
          Some (<[node := r]> cache, r)
      end
  end.
(** ZmddNode::count, zmdd.rs:273-278 *)
Definition zm_count64 (md : build) (m : mt) (ss : list Z) (node : nat) : option N :=
  '(_, r) ← zm_count64_f md (ar_fuel (t_ar m)) (t_ar m) ss node ∅; Some r.
