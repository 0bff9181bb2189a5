(** Analyses of one multi-state diagram: node counts, vector counts, enumeration, probability and importance.
    Sources: mss/src/mdd_count.rs, mdd_path.rs, mdd_prob.rs.  Each file writes its functions twice, for value diagrams
    and for boolean diagrams; here they are written once, for any terminal type, with the treatment of a terminal as a
    parameter [hit].  Where the two copies differ, that is a parameter too. *)
From stdpp Require Import strings.
From Verif Require Import Prelude ComputeCache Arena Bdd Mdd MtMdd MtMdd2 ZmddAlg BssMgr MssMgr.

(** The match on a terminal: [None] for an undetermined one, else whether its value is in [ss].
    mdd_count.rs:168-176, mdd_path.rs:116-123, mdd_prob.rs:44-51 and 63 *)
Definition vhit (ss : list Z) (t : vt) : option bool :=
  match t with VVal z => Some (in_zs ss z) | VUndet => None end.
(** mdd_count.rs:212-226, mdd_path.rs:164-176, mdd_prob.rs:85-98 and 110; [V::from] of 0 and 1 are 0 and 1 *)
Definition bhit (ss : list Z) (t : tv) : option bool :=
  match t with TZero => Some (in_zs ss 0) | TOne => Some (in_zs ss 1) | TUndet => None end.

(** ** Node counts *)
(** vmddnode_count / bmddnode_count, mdd_count.rs:27-59 and 61-93; counts are unbounded *)
Fixpoint nsize_f {T} (n : nat) (a : arena T) (node : nat) (cache : gset nat) : option (gset nat * (N * N * N)) :=
  match n with
  | O => None
  | S n =>
      if decide (node ∈ cache) then Some (cache, (0, 0, 1)%N)
      else
        nd ← ar_nodes a !! node;
        '(cache, r) ←
          match nd with
          | Term _ => Some (cache, (0, 1, 1)%N)
          | NT _ cs =>
              (fix go cs cache nn nv ne {struct cs} :=
                 match cs with
                 | [] => Some (cache, (nn, nv, ne))
                 | c :: cs =>
                     '(cache, (ntmp, vtmp, etmp)) ← nsize_f n a c cache;
                     go cs cache (nn + ntmp)%N (nv + vtmp)%N (ne + etmp)%N
                 end) cs cache 1%N 0%N 1%N
          end;
        Some ({[node]} ∪ cache, r)
  end.
(** mddnode_count, mdd_count.rs:13-24; MddNode::size, mdd.rs:940-944 *)
Definition nsize {T} (a : arena T) (node : nat) : option (N * N * N) :=
  '(_, (nn, nv, ne)) ← nsize_f (ar_fuel a) a node ∅; Some (nn, nv, (ne - 1)%N).
Definition g_size (w : mmgr) (x : mnode) : option (N * N * N) :=
  match x with NVal f => nsize (t_ar (mm_v (g_mm w))) f | NBool f => nsize (d_ar (mm_b (g_mm w))) f end.

(** ** Vector counts *)
(** level2headers, mdd_count.rs:108-114 and 123-129 *)
Fixpoint l2h_go (i : nat) (hds : list header) (acc : list nat) : option (list nat) :=
  match hds with
  | [] => Some acc
  | hd :: hds => if h_level hd <? length acc then l2h_go (S i) hds (<[h_level hd := i]> acc) else None
  end.
Definition l2h_table {T} (a : arena T) : option (list nat) :=
  l2h_go 0 (ar_headers a) (replicate (length (ar_headers a)) 0).
(** comparison of [Option<usize>], [None] first *)
Definition olt (a b : option nat) : bool :=
  match a, b with
  | None, Some _ => true
  | Some x, Some y => x <? y
  | _, None => false
  end.
(** [level.and_then(|x| x.checked_sub(1))] *)
Definition opred (l : option nat) : option nat := match l with Some (S x) => Some x | _ => None end.
Definition undetermined {T} (hit : T → option bool) (nd : node T) : bool :=
  match nd with Term t => match hit t with None => true | _ => false end | _ => false end.
(** vmdd_count, mdd_count.rs:138-180, with [keyed = true]: the memo is keyed by node and level; bmdd_count,
    mdd_count.rs:182-230, with [keyed = false]: it is keyed by node alone.  Counts (u64 in the wrapper) are unbounded. *)
Fixpoint ncount_f {T} (keyed : bool) (hit : T → option bool) (n : nat) (a : arena T) (l2h : list nat) (level : option nat) (node : nat)
  (cache : gmap (nat * option nat) N) : option (gmap (nat * option nat) N * N) :=
  match n with
  | O => None
  | S n =>
      let key := (node, if keyed then level else None) in
      match cache !! key with
      | Some x => Some (cache, x)
      | None =>
          nd ← ar_nodes a !! node;
          nl ← ar_node_level a node;
          '(cache, r) ←
            if negb (undetermined hit nd) && olt nl level then
              l ← level; h ← l2h !! l; hd ← ar_headers a !! h;
              '(cache, x) ← ncount_f keyed hit n a l2h (opred level) node cache;
              Some (cache, N.of_nat (h_edges hd) * x)%N
            else
              match nd with
              | NT _ cs =>
                  (fix go cs cache r {struct cs} :=
                     match cs with
                     | [] => Some (cache, r)
                     | c :: cs =>
                         '(cache, tmp) ← ncount_f keyed hit n a l2h (opred level) c cache;
                         go cs cache (r + tmp)%N
                     end) cs cache 0%N
              | Term t => Some (cache, match hit t with Some true => 1%N | _ => 0%N end)
              end;
          Some (<[key := r]> cache, r)
      end
  end.
(** mdd_count, mdd_count.rs:104-135: a constant counts 1 whatever its value; MddNode::mdd_count, mdd.rs:930-934 *)
Definition ncount {T} (keyed : bool) (hit : T → option bool) (a : arena T) (node : nat) : option N :=
  nl ← ar_node_level a node;
  match nl with
  | Some level =>
      l2h ← l2h_table a;
      '(_, r) ← ncount_f keyed hit (2 + length (ar_headers a)) a l2h (Some level) node ∅; Some r
  | None => Some 1%N
  end.
Definition g_count (w : mmgr) (x : mnode) (ss : list Z) : option N :=
  match x with
  | NVal f => ncount true (vhit ss) (t_ar (mm_v (g_mm w))) f
  | NBool f => ncount false (bhit ss) (d_ar (mm_b (g_mm w))) f
  end.

(** ** Enumeration *)
(** mdd_path.rs:5-9 *)
Inductive mdstack := DSNode (level : option nat) (id : nat) | DSPush (x : string) (i : nat) | DSPop (x : string).
(** the mutable part of the iterator, mdd_path.rs:11-18 *)
Record mdpath := MDPath { dp_stack : list mdstack; dp_path : gmap string nat }.
(** labels and edges by level, mdd_path.rs:29-51; [nh] is the header count of the value half for either kind of node *)
Fixpoint tables_go (hds : list header) (acc : list (string * nat)) : option (list (string * nat)) :=
  match hds with
  | [] => Some acc
  | hd :: hds => if h_level hd <? length acc then tables_go hds (<[h_level hd := (h_label hd, h_edges hd)]> acc) else None
  end.
Definition path_tables {T} (nh : nat) (a : arena T) : option (list (string * nat)) :=
  if length (ar_headers a) <? nh then None
  else tables_go (take nh (ar_headers a)) (replicate nh (EmptyString, 0)).
(** what the loops mdd_path.rs:100-104 and 110-114 push for edges [i, i+1, ..], topmost first *)
Fixpoint md_push (label : string) (level : option nat) (i : nat) (cs : list nat) : list mdstack :=
  match cs with
  | [] => []
  | c :: cs => [DSPush label i; DSNode level c; DSPop label] ++ md_push label level (S i) cs
  end.
(** One iteration of the while loops in vnext / bnext, mdd_path.rs:91-133 and 139-186; [Some x] = the loop returns [x].
    MIter.v lets the manager change between calls of [next]. *)
Definition mdpath_step {T} (hit : T → option bool) (a : arena T) (tab : list (string * nat)) (p : mdpath)
  : option (mdpath * option (gmap string nat)) :=
  match dp_stack p with
  | [] => None
  | DSPush x i :: st => Some (MDPath st (<[x := i]> (dp_path p)), None)
  | DSPop x :: st => Some (MDPath st (delete x (dp_path p)), None)
  | DSNode level id :: st =>
      nd ← ar_nodes a !! id;
      nl ← ar_node_level a id;
      if negb (undetermined hit nd) && olt nl level then
        l ← level; '(x, e) ← tab !! l;
        Some (MDPath (md_push x (opred level) 0 (replicate e id) ++ st) (dp_path p), None)
      else
        match nd with
        | NT _ cs =>
            l ← level; '(x, _) ← tab !! l;
            Some (MDPath (md_push x (opred level) 0 cs ++ st) (dp_path p), None)
        | Term t => Some (MDPath st (dp_path p), match hit t with Some true => Some (dp_path p) | _ => None end)
        end
  end.
(** Drain the iterator; [fuel] bounds the total number of loop iterations. *)
Fixpoint mdpath_collect {T} (fuel : nat) (hit : T → option bool) (a : arena T) (tab : list (string * nat)) (p : mdpath)
  : option (list (gmap string nat)) :=
  match dp_stack p with
  | [] => Some []
  | _ :: _ =>
      match fuel with
      | O => None
      | S k =>
          '(p, out) ← mdpath_step hit a tab p;
          rest ← mdpath_collect k hit a tab p;
          Some (match out with Some x => x :: rest | None => rest end)
      end
  end.
(** MddNode::get_level, mdd.rs:569-588 *)
Definition nlevel {T} (a : arena T) (node : nat) : option nat := mjoin (ar_node_level a node).
Definition g_level (w : mmgr) (x : mnode) : option nat :=
  match x with NVal f => nlevel (t_ar (mm_v (g_mm w))) f | NBool f => nlevel (d_ar (mm_b (g_mm w))) f end.
(** MddPath::new, mdd_path.rs:24-60 *)
Definition nextract {T} (fuel : nat) (hit : T → option bool) (nh : nat) (a : arena T) (node : nat) : option (list (gmap string nat)) :=
  tab ← path_tables nh a;
  mdpath_collect fuel hit a tab (MDPath [DSNode (nlevel a node) node] ∅).
(** [node.mdd_extract(ss).collect()], mdd.rs:936-938; [len()] is [g_count], mdd_path.rs:62-64 *)
Definition g_extract (fuel : nat) (w : mmgr) (x : mnode) (ss : list Z) : option (list (gmap string nat)) :=
  let nh := length (ar_headers (t_ar (mm_v (g_mm w)))) in
  match x with
  | NVal f => nextract fuel (vhit ss) nh (t_ar (mm_v (g_mm w))) f
  | NBool f => nextract fuel (bhit ss) nh (d_ar (mm_b (g_mm w))) f
  end.

(** ** Probability, with T an arbitrary type with the operations used *)
Section prob.
Context {R : Type} (rO rI : R) (radd rmul rsub : R → R → R).

(** vprob / bprob, mdd_prob.rs:28-67 and 69-114; a variable missing in [pv], or with too few entries, panics *)
Fixpoint nprob_f {T} (hit : T → option bool) (n : nat) (a : arena T) (pv : gmap string (list R)) (node : nat) (cache : gmap nat R)
  : option (gmap nat R * R) :=
  match n with
  | O => None
  | S n =>
      match cache !! node with
      | Some x => Some (cache, x)
      | None =>
          nd ← ar_nodes a !! node;
          '(cache, r) ←
            match nd with
            | Term t => Some (cache, match hit t with Some true => rI | _ => rO end)
            | NT h cs =>
                hd ← ar_headers a !! h;
                fp ← pv !! h_label hd;
                (fix go i cs cache r {struct cs} :=
                   match cs with
                   | [] => Some (cache, r)
                   | c :: cs =>
                       '(cache, tmp) ← nprob_f hit n a pv c cache;
                       p ← fp !! i;
                       go (S i) cs cache (radd r (rmul p tmp))
                   end) 0 cs cache rO
            end;
          Some (<[node := r]> cache, r)
      end
  end.
(** prob, mdd_prob.rs:6-26; MddNode::prob, mdd.rs:884-898 *)
Definition nprob {T} (hit : T → option bool) (a : arena T) (pv : gmap string (list R)) (node : nat) : option R :=
  '(_, r) ← nprob_f hit (ar_fuel a) a pv node ∅; Some r.
Definition g_prob (w : mmgr) (x : mnode) (pv : gmap string (list R)) (ss : list Z) : option R :=
  match x with
  | NVal f => nprob (vhit ss) (t_ar (mm_v (g_mm w))) pv f
  | NBool f => nprob (bhit ss) (d_ar (mm_b (g_mm w))) pv f
  end.

(** topo_postorder, mdd_prob.rs:165-176; [order] is kept last first, which is the order after [order.reverse()] *)
Fixpoint ntopo_f {T} (n : nat) (a : arena T) (f : nat) (st : gset nat * list nat) : option (gset nat * list nat) :=
  match n with
  | O => None
  | S n =>
      let '(visited, order) := st in
      if decide (f ∈ visited) then Some st
      else
        nd ← ar_nodes a !! f;
        '(visited, order) ←
          (fix go cs st {struct cs} :=
             match cs with
             | [] => Some st
             | c :: cs => st ← ntopo_f n a c st; go cs st
             end) (node_children nd) ({[f]} ∪ visited, order);
        Some (visited, f :: order)
  end.
(** the loop over the edges, mdd_prob.rs:212-216 and 262-266 *)
Fixpoint nmeas_edges {T} (hit : T → option bool) (a : arena T) (pv : gmap string (list R)) (w : R) (pj : list R) (j : nat) (es : list nat)
  (gradcache : gmap nat R) (probcache : gmap nat R) : option (gmap nat R * gmap nat R * list R) :=
  match es with
  | [] => Some (gradcache, probcache, [])
  | e :: es =>
      p ← pj !! j;
      let gradcache := <[e := radd (default rO (gradcache !! e)) (rmul w p)]> gradcache in
      '(probcache, x) ← nprob_f hit (ar_fuel a) a pv e probcache;
      '(gradcache, probcache, probs) ← nmeas_edges hit a pv w pj (S j) es gradcache probcache;
      Some (gradcache, probcache, x :: probs)
  end.
(** the loop over the differences, mdd_prob.rs:221-223 and 271-273; [slot] must be long enough *)
Fixpoint nmeas_slot (w : R) (probs slot : list R) : option (list R) :=
  match probs with
  | p :: (p' :: _) as probs' =>
      match slot with
      | s :: slot => rest ← nmeas_slot w probs' slot; Some (radd s (rmul w (rsub p' p)) :: rest)
      | [] => None
      end
  | _ => Some slot
  end.
(** one iteration, mdd_prob.rs:201-224 and 251-274 *)
Definition nmeas_step {T} (hit : T → option bool) (a : arena T) (pv : gmap string (list R)) (f : nat)
  (st : gmap nat R * gmap nat R * gmap string (list R)) : option (gmap nat R * gmap nat R * gmap string (list R)) :=
  let '(gradcache, probcache, gradevent) := st in
  nd ← ar_nodes a !! f;
  match nd with
  | Term _ => Some st
  | NT h cs =>
      hd ← ar_headers a !! h;
      let w := default rO (gradcache !! f) in
      pj ← pv !! h_label hd;
      '(gradcache, probcache, probs) ← nmeas_edges hit a pv w pj 0 cs gradcache probcache;
      slot ← match gradevent !! h_label hd with
             | Some slot => Some slot
             | None => match length cs with O => None | S m => Some (replicate m rO) end
             end;
      slot ← nmeas_slot w probs slot;
      Some (gradcache, probcache, <[h_label hd := slot]> gradevent)
  end.
Fixpoint nmeas_loop {T} (hit : T → option bool) (a : arena T) (pv : gmap string (list R)) (fs : list nat)
  (st : gmap nat R * gmap nat R * gmap string (list R)) : option (gmap nat R * gmap nat R * gmap string (list R)) :=
  match fs with
  | [] => Some st
  | f :: fs => st ← nmeas_step hit a pv f st; nmeas_loop hit a pv fs st
  end.
(** vbmeas / bbmeas, mdd_prob.rs:178-226 and 228-276 *)
Definition nmeas {T} (hit : T → option bool) (a : arena T) (pv : gmap string (list R)) (node : nat) : option (gmap string (list R)) :=
  '(_, order) ← ntopo_f (ar_fuel a) a node (∅, []);
  '(_, _, gradevent) ← nmeas_loop hit a pv order ({[node := rI]}, ∅, ∅);
  Some gradevent.
(** bmeas, mdd_prob.rs:146-160; MddNode::bmeas, mdd.rs:911-925 *)
Definition g_bmeas (w : mmgr) (x : mnode) (pv : gmap string (list R)) (ss : list Z) : option (gmap string (list R)) :=
  match x with
  | NVal f => nmeas (vhit ss) (t_ar (mm_v (g_mm w))) pv f
  | NBool f => nmeas (bhit ss) (d_ar (mm_b (g_mm w))) pv f
  end.
End prob.
