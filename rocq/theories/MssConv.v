(** Model of the conversion of a solution diagram into a ZMDD family, and of the evaluation at the extreme state
    vector.  Sources: mss/src/zmdd_convert.rs, mss/src/mss.rs.  [None] = panic or out of fuel. *)
From stdpp Require Import strings.
From Verif Require Import Prelude ComputeCache Arena Bdd Mdd MtMdd MtMdd2 Zmdd.

(** destination manager, [hmap], [memo] *)
Record cst := CSt { cv_z : mt; cv_h : gmap nat nat; cv_memo : gmap nat nat }.

(** dst_header, zmdd_convert.rs:39-58 *)
Definition dst_header (s : cst) (h : nat) (level : nat) (label : string) (edges : nat) : cst * nat :=
  match cv_h s !! h with
  | Some h' => (s, h')
  | None =>
      let '(z, h') := zm_create_header (cv_z s) level label edges in
      (CSt z (<[h := h']> (cv_h s)) (cv_memo s), h')
  end.

(** to_zmdd_value 60-100 and to_zmdd_bool 102-142 (equal up to the terminal cases, given by [leaf]: the label the
    terminal gets, none for [undet]) *)
Fixpoint to_zmdd_f {T} (leaf : T → option Z) (n : nat) (a : arena T) (reverse : bool) (s : cst) (root : nat)
  : option (cst * nat) :=
  match n with
  | O => None
  | S n =>
      match cv_memo s !! root with
      | Some x => Some (s, x)
      | None =>
          nd ← ar_nodes a !! root;
          '(s, result) ←
            match nd with
            | Term t =>
                match leaf t with
                | None => Some (s, zm_undet)
                | Some v => let '(z, x) := zm_value (cv_z s) v in Some (CSt z (cv_h s) (cv_memo s), x)
                end
            | NT h cs =>
                hd ← ar_headers a !! h;
                '(s, ch) ← mapst (λ s e, to_zmdd_f leaf n a reverse s e) s cs;
                let ch := if reverse then rev ch else ch in
                let '(s, dh) := dst_header s h (h_level hd) (h_label hd) (length cs) in
                '(z, x) ← zm_create_node (cv_z s) dh ch;
                Some (CSt z (cv_h s) (cv_memo s), x)
            end;
          Some (CSt (cv_z s) (cv_h s) (<[root := result]> (cv_memo s)), result)
      end
  end.

(** the terminal cases: zmdd_convert.rs:76-80 and 118-122 *)
Definition cv_vleaf (t : vt) : option Z := match t with VVal v => Some v | VUndet => None end.
Definition cv_bleaf (reverse : bool) (t : tv) : option Z :=
  match t with TOne => Some (if reverse then 0%Z else 1%Z) | TZero | TUndet => None end.

(** to_zmdd, zmdd_convert.rs:22-37 *)
Definition to_zmdd (src : mm) (x : mnode) (dst : mt) (reverse : bool) : option (mt * nat) :=
  '(s, r) ← match x with
            | NVal f => to_zmdd_f cv_vleaf (ar_fuel (t_ar (mm_v src))) (t_ar (mm_v src)) reverse (CSt dst ∅ ∅) f
            | NBool f => to_zmdd_f (cv_bleaf reverse) (ar_fuel (d_ar (mm_b src))) (d_ar (mm_b src)) reverse (CSt dst ∅ ∅) f
            end;
  Some (cv_z s, r).

(** eval_extreme, mss.rs:21-53: the loop; [edges\[0\]], [edges\[edges.len() - 1\]] panic on a node without edges *)
Fixpoint extreme_f {T} (n : nat) (a : arena T) (top : bool) (cur : nat) : option T :=
  match n with
  | O => None
  | S n =>
      nd ← ar_nodes a !! cur;
      match nd with
      | Term t => Some t
      | NT _ cs => c ← (if top then last cs else head cs); extreme_f n a top c
      end
  end.
Definition eval_extreme (src : mm) (x : mnode) (top : bool) : option Z :=
  match x with
  | NVal f => t ← extreme_f (ar_fuel (t_ar (mm_v src))) (t_ar (mm_v src)) top f;
      Some (match t with VVal v => v | VUndet => 0%Z end)
  | NBool f => t ← extreme_f (ar_fuel (d_ar (mm_b src))) (d_ar (mm_b src)) top f;
      Some (match t with TOne => 1%Z | TZero | TUndet => 0%Z end)
  end.
