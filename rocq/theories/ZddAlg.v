(** Model of the algorithms over a ZDD manager and of the conversion of minimal-solution diagrams.
    Sources: bss/src/zdd_count.rs, zdd_path.rs, zdd_convert.rs, bss.rs.
    Recursion depth is bounded by fuel; the entry points supply [ar_fuel].  HashMap/HashSet caches are
    finite maps/sets.  [None] = panic or out of fuel. *)
From stdpp Require Import strings.
From Verif Require Import Prelude ComputeCache Arena Bdd BssAlg Zdd.

(** zdd_count.rs:10-45; counts are unbounded *)
Fixpoint zdd_count_f (n : nat) (a : arena tv) (ss : list bool) (node : nat) (cache : gmap nat N)
  : option (gmap nat N * N) :=
  match n with
  | O => None
  | S n =>
      match cache !! node with
      | Some x => Some (cache, x)
      | None =>
          nd ← ar_nodes a !! node;
          '(cache, result) ←
            match nd with
            | Term TOne => Some (cache, if in_ss ss true then 1%N else 0%N)
            | Term TZero => Some (cache, if in_ss ss false then 1%N else 0%N)
            | NT _ cs =>
                '(f0, f1) ← edges2 cs;
                '(cache, e0) ← zdd_count_f n a ss f0 cache;
                '(cache, e1) ← zdd_count_f n a ss f1 cache;
                Some (cache, (e0 + e1)%N)
            | Term TUndet => Some (cache, 0%N)
            end;
          Some (<[node := result]> cache, result)
      end
  end.
(** zdd.rs:287-292 *)
Definition zdd_count (m : zdd) (ss : list bool) (node : nat) : option N :=
  '(_, r) ← zdd_count_f (ar_fuel (z_ar m)) (z_ar m) ss node ∅; Some r.

(** zdd_count.rs:48-68 is the same recursion as bdd_count.rs:15-39; zdd.rs:299-305 *)
Definition zdd_node_size (m : zdd) (node : nat) : option (N * N * N) :=
  '(_, (nn, nv, ne)) ← node_count_f (ar_fuel (z_ar m)) (z_ar m) node ∅;
  Some (nn, nv, (ne - 1)%N).

(** ** zdd_path.rs *)
(** zdd_path.rs:4-8 *)
Inductive zstack := ZSNode (id : nat) | ZSPush (s : string) | ZSPop.
(** zdd_path.rs:16-21; the head of each list is the top of the Rust stack / vector end *)
Record zpath := ZPath { zp_stack : list zstack; zp_path : list string }.
(** zdd_path.rs:24-34 *)
Definition zpath_new (node : nat) : zpath := ZPath [ZSNode node] [].
(** One iteration of the while loop in [next], zdd_path.rs:46-74; [Some x] = the loop returns item [x].
    The path vector is kept with its last element first, so the emitted [zp_path] is already the reversed
    clone. *)
Definition zpath_step (a : arena tv) (ss : list bool) (p : zpath) : option (zpath * option (list string)) :=
  match zp_stack p with
  | [] => None
  | ZSPush x :: st => Some (ZPath st (x :: zp_path p), None)
  | ZSPop :: st => Some (ZPath st (tail (zp_path p)), None)
  | ZSNode id :: st =>
      nd ← ar_nodes a !! id;
      let emit b := Some (ZPath st (zp_path p), if in_ss ss b then Some (zp_path p) else None) in
      match nd with
      | Term TZero => emit false
      | Term TOne => emit true
      | NT h cs =>
          hd ← ar_headers a !! h;
          '(e0, e1) ← edges2 cs;
          Some (ZPath (ZSNode e0 :: ZSPush (h_label hd) :: ZSNode e1 :: ZSPop :: st) (zp_path p), None)
      | Term TUndet => Some (ZPath st (zp_path p), None)
      end
  end.
(** Drain the iterator; [fuel] bounds the total number of loop iterations. *)
Fixpoint zpath_collect (fuel : nat) (a : arena tv) (ss : list bool) (p : zpath)
  : option (list (list string)) :=
  match zp_stack p with
  | [] => Some []
  | _ :: _ =>
      match fuel with
      | O => None
      | S k =>
          '(p, out) ← zpath_step a ss p;
          rest ← zpath_collect k a ss p;
          Some (match out with Some x => x :: rest | None => rest end)
      end
  end.
(** [node.extract(ss).collect()], zdd.rs:295-297 *)
Definition zdd_extract (fuel : nat) (m : zdd) (ss : list bool) (node : nat) : option (list (list string)) :=
  zpath_collect fuel (z_ar m) ss (zpath_new node).

(** ** zdd_convert.rs:20-57; [zh] maps source headers to destination headers *)
Fixpoint to_zdd_f (n : nat) (src : bdd) (root : nat) (dst : zdd) (zh memo : gmap nat nat)
  : option (zdd * gmap nat nat * gmap nat nat * nat) :=
  match n with
  | O => None
  | S n =>
      match memo !! root with
      | Some x => Some (dst, zh, memo, x)
      | None =>
          nd ← ar_nodes (b_ar src) !! root;
          '(dst, zh, memo, result) ←
            match nd with
            | Term TZero => Some (dst, zh, memo, zdd_zero)
            | Term TOne => Some (dst, zh, memo, zdd_one)
            | Term TUndet => Some (dst, zh, memo, zdd_undet)
            | NT shid cs =>
                '(e0, e1) ← edges2 cs;
                '(dst, zh, memo, low) ← to_zdd_f n src e0 dst zh memo;
                '(dst, zh, memo, high) ← to_zdd_f n src e1 dst zh memo;
                '(dst, zh, dhid) ←
                  match zh !! shid with
                  | Some h => Some (dst, zh, h)
                  | None =>
                      header ← ar_headers (b_ar src) !! shid;
                      let '(dst, h) := zdd_create_header dst (h_level header) (h_label header) in
                      Some (dst, <[shid := h]> zh, h)
                  end;
                let '(dst, r) := zdd_create_node dst dhid low high in
                Some (dst, zh, memo, r)
            end;
          Some (dst, zh, <[root := result]> memo, result)
      end
  end.
Definition to_zdd (src : bdd) (root : nat) (dst : zdd) : option (zdd * nat) :=
  '(dst, _, _, r) ← to_zdd_f (ar_fuel (b_ar src)) src root dst ∅ ∅; Some (dst, r).

(** ** BssMgr::minpath and mincut on the two inner managers, bss.rs:109-136, without the handle
    bookkeeping.  [Some (_, _, None)] is the Rust result None. *)
Definition minpath (b : bdd) (z : zdd) (node : nat) : option (bdd * zdd * option nat) :=
  '(b, fake) ← bdd_minsol b node;
  match fake with
  | None => Some (b, z, None)
  | Some f => '(z, zid) ← to_zdd b f z; Some (b, z, Some zid)
  end.
Definition mincut (b : bdd) (z : zdd) (node : nat) : option (bdd * zdd * option nat) :=
  '(b, d) ← bdd_dual b node; minpath b z d.
