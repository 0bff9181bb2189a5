(** Model of the queries on ZMDD families: labels, counting, enumeration, extraction by level.
    Source: mss/src/zmdd.rs.  [None] = panic or out of fuel; a HashSet of labels is a list, HashMaps are finite maps. *)
From stdpp Require Import strings sorting.
From Verif Require Import Prelude ComputeCache Arena Bdd Mdd MtMdd Zmdd.

Definition in_zs (ss : list Z) (z : Z) : bool := existsb (Z.eqb z) ss.

(** ** labels, zmdd.rs:204-223 *)
(** the search loop, zmdd.rs:210-219; the head of [stack] is the top of the Rust stack *)
Fixpoint zm_labels_f (fuel : nat) (a : arena vt) (seen : gset nat) (stack : list nat) (out : list Z)
  : option (list Z) :=
  match stack with
  | [] => Some out
  | id :: rest =>
      match fuel with
      | O => None
      | S k =>
          if decide (id ∈ seen) then zm_labels_f k a seen rest out
          else
            n ← ar_nodes a !! id;
            let seen := {[id]} ∪ seen in
            match n with
            | Term VUndet => zm_labels_f k a seen rest out
            | Term (VVal z) => zm_labels_f k a seen rest (out ++ [z])
            | NT _ cs => zm_labels_f k a seen (rev cs ++ rest) out
            end
      end
  end.
(** [Vec::dedup] *)
Fixpoint dedup (l : list Z) : list Z :=
  match l with
  | [] => []
  | x :: l' => match l' with
               | y :: _ => if (x =? y)%Z then dedup l' else x :: dedup l'
               | [] => [x]
               end
  end.
(** every node is expanded once, so this much fuel is enough *)
Definition zm_labels (m : mt) (node : nat) : option (list Z) :=
  out ← zm_labels_f (ar_mark_fuel (ar_nodes (t_ar m)) [node]) (t_ar m) ∅ [node] [];
  Some (dedup (merge_sort Z.le out)).

(** ** count, zmdd.rs:273-278 and 334-362; counts are unbounded *)
Fixpoint zm_count_f (n : nat) (a : arena vt) (ss : list Z) (node : nat) (cache : gmap nat N)
  : option (gmap nat N * N) :=
  match n with
  | O => None
  | S n =>
      match cache !! node with
      | Some x => Some (cache, x)
      | None =>
          nd ← ar_nodes a !! node;
          '(cache, r) ←
            match nd with
            | Term VUndet => Some (cache, 0%N)
            | Term (VVal z) => Some (cache, if in_zs ss z then 1%N else 0%N)
            | NT _ cs =>
                '(cache, xs) ← mapst (λ cache e, zm_count_f n a ss e cache) cache cs;
                Some (cache, foldl N.add 0%N xs)
            end;
          Some (<[node := r]> cache, r)
      end
  end.
Definition zm_count (m : mt) (ss : list Z) (node : nat) : option N :=
  '(_, r) ← zm_count_f (ar_fuel (t_ar m)) (t_ar m) ss node ∅; Some r.

(** ** extract, zmdd.rs:300-302 and 364-461 *)
(** zmdd.rs:364-368 *)
Inductive zmstack := MSNode (id : nat) | MSPush (x : string) (i : nat) | MSPop (x : string).
(** zmdd.rs:374-382: the mutable part of the iterator *)
Record zmpath := ZMPath { mp_stack : list zmstack; mp_path : gmap string nat }.
(** zmdd.rs:393-397; [states - 1] panics when a variable has no state *)
Definition zm_baseline (rev : bool) (vars : list (string * nat)) : option (gmap string nat) :=
  if rev && existsb (λ v, v.2 =? 0) vars then None
  else Some (foldl (λ M v, <[v.1 := if rev then v.2 - 1 else 0]> M) ∅ vars).
(** what the loop zmdd.rs:430-440 pushes for edges [i, i+1, ..], topmost first *)
Fixpoint zm_push (rev : bool) (label : string) (last i : nat) (cs : list nat) : list zmstack :=
  match cs with
  | [] => []
  | c :: cs =>
      (match i with
       | O => [MSNode c]
       | S _ => [MSPush label (if rev then last - i else i); MSNode c; MSPop label]
       end) ++ zm_push rev label last (S i) cs
  end.
(** One iteration of the while loop in [next], zmdd.rs:417-456; [Some x] = the loop returns item [x].
    [edges.len() - 1] panics on a node without edges. *)
Definition zmpath_step (a : arena vt) (rev : bool) (base : gmap string nat) (ss : list Z) (p : zmpath)
  : option (zmpath * option (gmap string nat)) :=
  match mp_stack p with
  | [] => None
  | MSPush x i :: st => Some (ZMPath st (<[x := i]> (mp_path p)), None)
  | MSPop x :: st =>
      Some (ZMPath st (match base !! x with Some b => <[x := b]> (mp_path p) | None => delete x (mp_path p) end), None)
  | MSNode id :: st =>
      nd ← ar_nodes a !! id;
      match nd with
      | Term VUndet => Some (ZMPath st (mp_path p), None)
      | Term (VVal z) => Some (ZMPath st (mp_path p), if in_zs ss z then Some (mp_path p) else None)
      | NT h cs =>
          hd ← ar_headers a !! h;
          match cs with
          | [] => None
          | _ :: _ => Some (ZMPath (zm_push rev (h_label hd) (length cs - 1) 0 cs ++ st) (mp_path p), None)
          end
      end
  end.
(** Drain the iterator; [fuel] bounds the total number of loop iterations. *)
Fixpoint zmpath_collect (fuel : nat) (a : arena vt) (rev : bool) (base : gmap string nat) (ss : list Z) (p : zmpath)
  : option (list (gmap string nat)) :=
  match mp_stack p with
  | [] => Some []
  | _ :: _ =>
      match fuel with
      | O => None
      | S k =>
          '(p, out) ← zmpath_step a rev base ss p;
          rest ← zmpath_collect k a rev base ss p;
          Some (match out with Some x => x :: rest | None => rest end)
      end
  end.
(** a family handle: node, direction and variable list, zmdd.rs:128-137 *)
Record zmnode := ZMNode { zn_id : nat; zn_rev : bool; zn_vars : list (string * nat) }.
(** [node.extract(ss).collect()] *)
Definition zm_extract (fuel : nat) (m : mt) (ss : list Z) (x : zmnode) : option (list (gmap string nat)) :=
  base ← zm_baseline (zn_rev x) (zn_vars x);
  zmpath_collect fuel (t_ar m) (zn_rev x) base ss (ZMPath [MSNode (zn_id x)] base).

(** ** extract_level, zmdd.rs:234-255 *)
(** the closure of [all], with its short circuit: is [y] on the extreme side of [x] in every component?
    [None] = indexing a missing key *)
Fixpoint zm_dominates (rev : bool) (vars : list (string * nat)) (y x : gmap string nat) : option bool :=
  match vars with
  | [] => Some true
  | (n, _) :: vars =>
      a ← y !! n; b ← x !! n;
      if (if rev then b <=? a else a <=? b) then zm_dominates rev vars y x else Some false
  end.
(** [any] *)
Fixpoint zm_dominated (rev : bool) (vars : list (string * nat)) (ys : list (gmap string nat)) (x : gmap string nat)
  : option bool :=
  match ys with
  | [] => Some false
  | y :: ys =>
      if decide (y = x) then zm_dominated rev vars ys x
      else b ← zm_dominates rev vars y x; if b : bool then Some true else zm_dominated rev vars ys x
  end.
(** the filter *)
Fixpoint zm_extreme (rev : bool) (vars : list (string * nat)) (ys xs : list (gmap string nat))
  : option (list (gmap string nat)) :=
  match xs with
  | [] => Some []
  | x :: xs =>
      b ← zm_dominated rev vars ys x;
      rest ← zm_extreme rev vars ys xs;
      Some (if b : bool then rest else x :: rest)
  end.
Definition zm_extract_level (fuel : nat) (m : mt) (v : Z) (x : zmnode) : option (list (gmap string nat)) :=
  ls ← zm_labels m (zn_id x);
  let ss := filter (λ w, (if zn_rev x then w <=? v else v <=? w)%Z = true) ls in
  vectors ← zm_extract fuel m ss x;
  zm_extreme (zn_rev x) (zn_vars x) vectors vectors.
