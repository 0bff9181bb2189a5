(** Model of the BSS analyses on BDDs.
    Sources: bss/src/bdd_count.rs, bdd_path.rs, bdd_kofn.rs, bdd_dual.rs, bdd_prob.rs, bdd_minsol.rs.
    Recursion depth is bounded by fuel; the entry points supply [ar_fuel].  HashMap/HashSet caches are
    finite maps/sets.  [None] = panic or out of fuel. *)
From stdpp Require Import strings.
From Verif Require Import Prelude ComputeCache Arena Bdd.

(** ** bdd_count.rs *)

(** bdd_count.rs:4-13 *)
Fixpoint power (x : N) (n : nat) : N :=
  match n with O => 1%N | S n => (power x n * x)%N end.

(** [ss.contains(&b)] *)
Definition in_ss (ss : list bool) (b : bool) : bool := existsb (Bool.eqb b) ss.

(** bdd_count.rs:15-39; T is modelled as N *)
Fixpoint node_count_f (n : nat) (a : arena tv) (node : nat) (cache : gset nat)
  : option (gset nat * (N * N * N)) :=
  match n with
  | O => None
  | S n =>
      if decide (node ∈ cache) then Some (cache, (0, 0, 1)%N) else
      nd ← ar_nodes a !! node;
      '(cache, result) ←
        match nd with
        | Term _ => Some (cache, (0, 1, 1)%N)
        | NT _ cs =>
            '(e0, e1) ← edges2 cs;
            '(cache, (n0, v0, w0)) ← node_count_f n a e0 cache;
            '(cache, (n1, v1, w1)) ← node_count_f n a e1 cache;
            Some (cache, (n0 + n1 + 1, v0 + v1, w0 + w1 + 1)%N)
        end;
      Some ({[node]} ∪ cache, result)
  end.

(** bdd.rs:528-534 BddNode::size *)
Definition bdd_node_size (m : bdd) (node : nat) : option (N * N * N) :=
  '(_, (nn, nv, ne)) ← node_count_f (ar_fuel (b_ar m)) (b_ar m) node ∅;
  Some (nn, nv, (ne - 1)%N).

(** bdd_count.rs:41-94; the usize subtraction at 74/82 is truncated here (it never underflows on ordered
    diagrams); counts are unbounded *)
Fixpoint bdd_count_f (n : nat) (a : arena tv) (ss : list bool) (node : nat) (cache : gmap nat N)
  : option (gmap nat N * N) :=
  match n with
  | O => None
  | S n =>
      match cache !! node with
      | Some x => Some (cache, x)
      | None =>
          nd ← ar_nodes a !! node;
          '(cache, result) ←
            match nd with
            | Term TOne => Some (cache, if in_ss ss true then 1%N else 0%N)
            | Term TZero => Some (cache, if in_ss ss false then 1%N else 0%N)
            | NT h cs =>
                '(e0, e1) ← edges2 cs;
                current ← hdr_level a h;
                l0 ← ar_node_level a e0;
                '(cache, c0) ← bdd_count_f n a ss e0 cache;
                let r0 := match l0 with
                          | Some next => (power 2 (current - next - 1) * c0)%N
                          | None => (power 2 current * c0)%N
                          end in
                l1 ← ar_node_level a e1;
                '(cache, c1) ← bdd_count_f n a ss e1 cache;
                let r1 := match l1 with
                          | Some next => (power 2 (current - next - 1) * c1)%N
                          | None => (power 2 current * c1)%N
                          end in
                Some (cache, (0 + r0 + r1)%N)
            | Term TUndet => Some (cache, 0%N)
            end;
          Some (<[node := result]> cache, result)
      end
  end.
(** bdd.rs:518-522 *)
Definition bdd_count (m : bdd) (ss : list bool) (node : nat) : option N :=
  '(_, r) ← bdd_count_f (ar_fuel (b_ar m)) (b_ar m) ss node ∅; Some r.

(** ** bdd_path.rs *)
(** bdd_path.rs:4-8 *)
Inductive pstack := PNode (level : option nat) (id : nat) | PPush (s : string) | PPop.
(** bdd_path.rs:10-16; the head of each list is the top of the Rust stack / vector end *)
Record bpath := BPath { p_stack : list pstack; p_path : list string }.

(** bdd_path.rs:26-32: labels indexed by level; [None] = index panic *)
Fixpoint path_labels_go (hds : list header) (labels : list string) : option (list string) :=
  match hds with
  | [] => Some labels
  | hd :: hds =>
      if decide (h_level hd < length labels)
      then path_labels_go hds (<[h_level hd := h_label hd]> labels) else None
  end.
Definition path_labels {T} (a : arena T) : option (list string) :=
  path_labels_go (ar_headers a) (replicate (length (ar_headers a)) EmptyString).

(** bdd_path.rs:19-41 *)
Definition bpath_new (a : arena tv) (node : nat) : option bpath :=
  level ← ar_node_level a node; Some (BPath [PNode level node] []).

(** [level.and_then(|x| x.checked_sub(1))] *)
Definition level_pred (l : option nat) : option nat :=
  match l with Some (S l) => Some l | _ => None end.

(** the six pushes, bdd_path.rs:61-66 etc.; [lo]/[hi] are the ids pushed for the two branches *)
Definition path_fork (labels : list string) (level : option nat) (lo hi : nat) (st : list pstack)
  : option (list pstack) :=
  l ← level; x ← labels !! l;
  Some (PPush (String.append "~" x) :: PNode (level_pred level) lo :: PPop
        :: PPush x :: PNode (level_pred level) hi :: PPop :: st).

(** One iteration of the while loop in [next], bdd_path.rs:53-122; [Some x] = the loop returns item [x]. *)
Definition bpath_step (a : arena tv) (labels : list string) (ss : list bool) (p : bpath)
  : option (bpath * option (list string)) :=
  match p_stack p with
  | [] => None
  | PPush x :: st => Some (BPath st (x :: p_path p), None)
  | PPop :: st => Some (BPath st (tail (p_path p)), None)
  | PNode level id :: st =>
      current ← ar_node_level a id;
      nd ← ar_nodes a !! id;
      let fork lo hi := st' ← path_fork labels level lo hi st; Some (BPath st' (p_path p), None) in
      let emit b := Some (BPath st (p_path p), if in_ss ss b then Some (p_path p) else None) in
      match nd with
      | NT _ cs =>
          if decide (level = current) then '(e0, e1) ← edges2 cs; fork e0 e1 else fork id id
      | Term TZero => if decide (level = None) then emit false else fork id id
      | Term TOne => if decide (level = None) then emit true else fork id id
      | Term TUndet => Some (BPath st (p_path p), None)
      end
  end.

(** Drain the iterator: all items until [next] returns None.  [fuel] bounds the total number of loop
    iterations. The path vector is kept with its last element first, so the emitted [p_path] is already the
    reversed clone of bdd_path.rs:71-72. *)
Fixpoint bpath_collect (fuel : nat) (a : arena tv) (labels : list string) (ss : list bool) (p : bpath)
  : option (list (list string)) :=
  match p_stack p with
  | [] => Some []
  | _ :: _ =>
      match fuel with
      | O => None
      | S k =>
          '(p, out) ← bpath_step a labels ss p;
          rest ← bpath_collect k a labels ss p;
          Some (match out with Some x => x :: rest | None => rest end)
      end
  end.
(** [node.bdd_extract(ss).collect()], bdd.rs:524-526 *)
Definition bdd_extract (fuel : nat) (m : bdd) (ss : list bool) (node : nat) : option (list (list string)) :=
  labels ← path_labels (b_ar m);
  p ← bpath_new (b_ar m) node;
  bpath_collect fuel (b_ar m) labels ss p.

(** ** bdd_kofn.rs *)
(** bdd_kofn.rs:3-12 *)
Fixpoint kofn_and_go (m : bdd) (res : nat) (ns : list nat) : option (bdd * nat) :=
  match ns with
  | [] => Some (m, res)
  | n :: ns => '(m, res) ← bdd_and m res n; kofn_and_go m res ns
  end.
Definition kofn_and (m : bdd) (ns : list nat) := kofn_and_go m bdd_one ns.
(** bdd_kofn.rs:14-23 *)
Fixpoint kofn_or_go (m : bdd) (res : nat) (ns : list nat) : option (bdd * nat) :=
  match ns with
  | [] => Some (m, res)
  | n :: ns => '(m, res) ← bdd_or m res n; kofn_or_go m res ns
  end.
Definition kofn_or (m : bdd) (ns : list nat) := kofn_or_go m bdd_zero ns.

(** bdd_kofn.rs:42-66; recursion on [fuel] = nodes left + 1 *)
Fixpoint kofn_rec (fuel : nat) (m : bdd) (node : list nat) (k start n : nat) (memo : list (option nat))
  : option (bdd * list (option nat) * nat) :=
  match fuel with
  | O => None
  | S fuel =>
      if k =? 0 then Some (m, memo, bdd_one) else
      let remaining := n - start in
      if remaining <? k then Some (m, memo, bdd_zero) else
      let idx := k * (n + 1) + start in
      hit ← memo !! idx;
      match hit with
      | Some v => Some (m, memo, v)
      | None =>
          '(m, memo, t) ← kofn_rec fuel m node (k - 1) (start + 1) n memo;
          '(m, memo, e) ← kofn_rec fuel m node k (start + 1) n memo;
          x ← node !! start;
          '(m, res) ← bdd_ite m x t e;
          Some (m, <[idx := Some res]> memo, res)
      end
  end.
(** bdd_kofn.rs:31-40 *)
Definition kofn (m : bdd) (k : nat) (node : list nat) : option (bdd * nat) :=
  let n := length node in
  '(m, _, r) ← kofn_rec (S n) m node k 0 n (replicate ((k + 1) * (n + 1)) None);
  Some (m, r).

(** ** bdd_dual.rs:12-37 *)
Fixpoint dual_f (n : nat) (m : bdd) (node : nat) (cache : gmap nat nat)
  : option (bdd * gmap nat nat * nat) :=
  match n with
  | O => None
  | S n =>
      match cache !! node with
      | Some x => Some (m, cache, x)
      | None =>
          nd ← ar_nodes (b_ar m) !! node;
          '(m, cache, result) ←
            match nd with
            | Term TZero => Some (m, cache, bdd_one)
            | Term TOne => Some (m, cache, bdd_zero)
            | Term TUndet => Some (m, cache, bdd_undet)
            | NT h cs =>
                '(lo, hi) ← edges2 cs;
                '(m, cache, new_low) ← dual_f n m hi cache;
                '(m, cache, new_high) ← dual_f n m lo cache;
                let '(m, r) := bdd_create_node m h new_low new_high in
                Some (m, cache, r)
            end;
          Some (m, <[node := result]> cache, result)
      end
  end.
(** bdd.rs:508-516, without the handle bookkeeping *)
Definition bdd_dual (m : bdd) (node : nat) : option (bdd * nat) :=
  '(m, _, r) ← dual_f (ar_fuel (b_ar m)) m node ∅; Some (m, r).

(** ** bdd_prob.rs, with T an arbitrary type with the five operations used *)
Section prob.
Context {R : Type} (rO rI : R) (radd rmul rsub : R → R → R).

(** bdd_prob.rs:5-45 *)
Fixpoint prob_f (n : nat) (a : arena tv) (node : nat) (pv : gmap string R) (ss : list bool)
  (cache : gmap nat R) : option (gmap nat R * R) :=
  match n with
  | O => None
  | S n =>
      match cache !! node with
      | Some x => Some (cache, x)
      | None =>
          nd ← ar_nodes a !! node;
          '(cache, result) ←
            match nd with
            | Term TZero => Some (cache, if in_ss ss false then rI else rO)
            | Term TOne => Some (cache, if in_ss ss true then rI else rO)
            | NT h cs =>
                hd ← ar_headers a !! h;
                let fp := default rO (pv !! h_label hd) in
                '(e0, e1) ← edges2 cs;
                '(cache, low) ← prob_f n a e0 pv ss cache;
                '(cache, high) ← prob_f n a e1 pv ss cache;
                Some (cache, radd (rmul (rsub rI fp) low) (rmul fp high))
            | Term TUndet => None
            end;
          Some (<[node := result]> cache, result)
      end
  end.
(** bdd.rs:478-491 *)
Definition bdd_prob (m : bdd) (pv : gmap string R) (ss : list bool) (node : nat) : option R :=
  '(_, r) ← prob_f (ar_fuel (b_ar m)) (b_ar m) node pv ss ∅; Some r.

(** bdd_prob.rs:95-99 *)
Inductive cstate := Persistent | Temporary.

(** bdd_prob.rs:119-144; [result] in push order reversed (last pushed first), [queue] in order *)
Fixpoint topo_visit (n : nat) (a : arena tv) (x : nat) (st : gmap nat cstate * list nat * list nat)
  : option (gmap nat cstate * list nat * list nat) :=
  match n with
  | O => None
  | S n =>
      let '(check, result, queue) := st in
      match check !! x with
      | Some Temporary => None
      | Some Persistent => Some st
      | None =>
          let check := <[x := Temporary]> check in
          nd ← ar_nodes a !! x;
          '(check, result, queue) ←
            match nd with
            | Term _ => Some (check, result, queue)
            | NT _ cs =>
                (fix go cs st {struct cs} :=
                   match cs with
                   | [] => Some st
                   | c :: cs =>
                       let '(check, result, queue) := st in
                       st ← topo_visit n a c (check, result, queue ++ [c]);
                       go cs st
                   end) cs (check, result, queue)
            end;
          Some (<[x := Persistent]> check, x :: result, queue)
      end
  end.

(** bdd_prob.rs:106-114 *)
Fixpoint topo_loop (fuel : nat) (a : arena tv) (st : gmap nat cstate * list nat * list nat)
  : option (list nat) :=
  let '(check, result, queue) := st in
  match queue with
  | [] => Some result
  | node :: queue =>
      match fuel with
      | O => None
      | S fuel =>
          match check !! node with
          | Some Temporary => None
          | Some Persistent => topo_loop fuel a (check, result, queue)
          | None => st ← topo_visit (ar_fuel a) a node (check, result, queue); topo_loop fuel a st
          end
      end
  end.
(** bdd_prob.rs:101-117: the result vector is reversed at the end, which is how it is kept here *)
Definition topo_sort (a : arena tv) (f : nat) : option (list nat) :=
  topo_loop (2 + 2 * length (ar_nodes a)) a (∅, [], [f]).

(** bdd_prob.rs:61-91, one iteration *)
Definition bmeas_step (a : arena tv) (ss : list bool) (env : gmap string R) (f : nat)
  (st : gmap nat R * gmap nat R * gmap string R) : option (gmap nat R * gmap nat R * gmap string R) :=
  let '(gradcache, bddcache, gradevent) := st in
  nd ← ar_nodes a !! f;
  match nd with
  | Term _ => Some st
  | NT h cs =>
      let w := default rO (gradcache !! f) in
      hd ← ar_headers a !! h;
      let x := h_label hd in
      let p := default rO (env !! x) in
      let barp := rsub rI p in
      '(e0, e1) ← edges2 cs;
      let result0 := match gradcache !! e0 with
                     | Some val => radd val (rmul w barp) | None => rmul w barp end in
      let gradcache := <[e0 := result0]> gradcache in
      let result1 := match gradcache !! e1 with
                     | Some val => radd val (rmul w p) | None => rmul w p end in
      let gradcache := <[e1 := result1]> gradcache in
      '(bddcache, p0) ← prob_f (ar_fuel a) a e0 env ss bddcache;
      '(bddcache, p1) ← prob_f (ar_fuel a) a e1 env ss bddcache;
      let resultv := match gradevent !! x with
                     | Some val => radd val (rmul w (rsub p1 p0)) | None => rmul w (rsub p1 p0) end in
      Some (gradcache, bddcache, <[x := resultv]> gradevent)
  end.
Fixpoint bmeas_loop (a : arena tv) (ss : list bool) (env : gmap string R) (fs : list nat)
  (st : gmap nat R * gmap nat R * gmap string R) : option (gmap nat R * gmap nat R * gmap string R) :=
  match fs with
  | [] => Some st
  | f :: fs => st ← bmeas_step a ss env f st; bmeas_loop a ss env fs st
  end.
(** bdd_prob.rs:47-93 *)
Definition bdd_bmeas (m : bdd) (env : gmap string R) (ss : list bool) (node : nat)
  : option (gmap string R) :=
  sorted ← topo_sort (b_ar m) node;
  '(_, _, gradevent) ← bmeas_loop (b_ar m) ss env sorted ({[node := rI]}, ∅, ∅);
  Some gradevent.
End prob.

(** ** bdd_minsol.rs *)
(** bdd_minsol.rs:189-236 *)
Fixpoint without_f (n : nat) (m : bdd) (f g : nat) (cache : gmap (nat * nat) nat)
  : option (bdd * gmap (nat * nat) nat * nat) :=
  match n with
  | O => None
  | S n =>
      match cache !! (f, g) with
      | Some x => Some (m, cache, x)
      | None =>
          fn ← ar_nodes (b_ar m) !! f;
          gn ← ar_nodes (b_ar m) !! g;
          '(m, cache, node) ←
            match fn, gn with
            | Term TZero, _ => Some (m, cache, bdd_zero)
            | _, Term TZero => Some (m, cache, f)
            | _, Term TOne => Some (m, cache, bdd_zero)
            | Term TOne, NT _ gc => '(g0, _) ← edges2 gc; without_f n m f g0 cache
            | NT hf fc, NT hg gc =>
                lf ← hdr_level (b_ar m) hf;
                lg ← hdr_level (b_ar m) hg;
                '(f0, f1) ← edges2 fc;
                '(g0, g1) ← edges2 gc;
                if f =? g then Some (m, cache, bdd_zero)
                else if lg <? lf then
                  '(m, cache, low) ← without_f n m f0 g cache;
                  '(m, cache, high) ← without_f n m f1 g cache;
                  let '(m, r) := bdd_create_node m hf low high in Some (m, cache, r)
                else if lf <? lg then without_f n m f g0 cache
                else
                  '(m, cache, low) ← without_f n m f0 g0 cache;
                  '(m, cache, high) ← without_f n m f1 g1 cache;
                  let '(m, r) := bdd_create_node m hf low high in Some (m, cache, r)
            | Term TUndet, _ | _, Term TUndet => None
            end;
          Some (m, <[(f, g) := node]> cache, node)
      end
  end.

(** bdd_minsol.rs:12-52; the result [Some None] is the Rust value None (not monotone) *)
Fixpoint minsol_f (n : nat) (m : bdd) (node : nat) (cache1 : gmap nat (option nat))
  (cache2 : gmap (nat * nat) nat)
  : option (bdd * gmap nat (option nat) * gmap (nat * nat) nat * option nat) :=
  match n with
  | O => None
  | S n =>
      match cache1 !! node with
      | Some x => Some (m, cache1, cache2, x)
      | None =>
          nd ← ar_nodes (b_ar m) !! node;
          '(m, cache1, cache2, result) ←
            match nd with
            | Term TZero => Some (m, cache1, cache2, Some bdd_zero)
            | Term TOne => Some (m, cache1, cache2, Some bdd_one)
            | NT h cs =>
                '(f0, f1) ← edges2 cs;
                '(m, cache1, cache2, low) ← minsol_f n m f0 cache1 cache2;
                match low with
                | None => Some (m, cache1, cache2, None)
                | Some low =>
                    '(m, cache1, cache2, high_src) ← minsol_f n m f1 cache1 cache2;
                    match high_src with
                    | None => Some (m, cache1, cache2, None)
                    | Some high_src =>
                        '(m, r) ← bdd_and m f0 f1;
                        if negb (r =? f0) then Some (m, cache1, cache2, None)
                        else
                          '(m, cache2, high) ← without_f (2 * ar_fuel (b_ar m)) m high_src f0 cache2;
                          let '(m, r) := bdd_create_node m h low high in
                          Some (m, cache1, cache2, Some r)
                    end
                end
            | Term TUndet => None
            end;
          Some (m, <[node := result]> cache1, cache2, result)
      end
  end.
(** the BDD half of BssMgr::minpath, bss.rs:110-116 *)
Definition bdd_minsol (m : bdd) (node : nat) : option (bdd * option nat) :=
  '(m, _, _, r) ← minsol_f (ar_fuel (b_ar m)) m node ∅ ∅; Some (m, r).
