(** Model of minimal and maximal solutions on the combined manager.  Source: mss/src/mdd_minsol.rs.
    The eight recursive functions of the file share two shapes (subtract a function from a family; solutions of a
    diagram).  The shapes are written once over the operations of the forest in use ([forest]); what differs -
    the terminal cases and whether the baseline is edge 0 or the top edge ([top]) - is a parameter, given for each
    function below.  Outer [None] = panic or out of fuel.  The local hash maps are finite maps. *)
From Verif Require Import Prelude ComputeCache Arena Bdd Mdd MtMdd MtMdd2.

(** the operations of a forest that the functions call *)
Record forest (S T : Type) := Forest {
  fo_ar : S → arena T;
  fo_mk : S → nat → list nat → S * nat;
  fo_meet : S → nat → nat → option (S * nat);
}.
Arguments Forest {S T}.
Arguments fo_ar {S T}.
Arguments fo_mk {S T}.
Arguments fo_meet {S T}.

(** value forest: create_node and [min], mdd_minsol.rs:53, 78; [min] never overflows, so any [vint] will do *)
Definition vforest (I : vint) : forest mt vt := Forest t_ar mt_create_node (mt_bin I VMin).
(** boolean forest: create_node and [and], mdd_minsol.rs:181, 204 *)
Definition bforest : forest mdd tv := Forest d_ar mdd_create_node mdd_and.

(** Outcome of matching on the two operand nodes of a subtraction: a result; follow the baseline edge of [f];
    visit the children of [g]; both operands are nonterminal and their levels decide. *)
Inductive warm := WRet (id : nat) | WBase | WMap | WLevel.

(** vwithout mdd_minsol.rs:102-155, vupwithout mdd_minsol.rs:370-423 *)
Definition vwithout_arm (f g : nat) (fn gn : node vt) : warm :=
  match fn, gn with
  | Term VUndet, _ => WRet g
  | _, Term VUndet => WRet mt_undet
  | Term (VVal a), Term (VVal b) => if (a =? b)%Z then WRet mt_undet else WRet g
  | NT _ _, Term _ => WBase
  | Term _, NT _ _ => WMap
  | NT _ _, NT _ _ => WLevel
  end.
(** bwithout, mdd_minsol.rs:225-265 *)
Definition bwithout_arm (f g : nat) (fn gn : node tv) : warm :=
  match fn, gn with
  | Term TUndet, _ => WRet g
  | _, Term TUndet => WRet mdd_undet
  | Term TZero, Term TOne => WRet mdd_one
  | Term TZero, _ => WRet g
  | _, Term TZero => WRet mdd_undet
  | Term TOne, _ => WRet mdd_undet
  | NT _ _, Term TOne => WBase
  | NT _ _, NT _ _ => WLevel
  end.
(** bupwithout, mdd_minsol.rs:495-537 *)
Definition bupwithout_arm (f g : nat) (fn gn : node tv) : warm :=
  match fn, gn with
  | Term TUndet, _ => WRet g
  | _, Term TUndet => WRet mdd_undet
  | Term TOne, _ => WRet g
  | Term TZero, _ => WRet mdd_undet
  | NT _ _, Term TOne => WBase
  | NT _ _, Term TZero => WRet mdd_undet
  | NT _ _, NT _ _ => WLevel
  end.

(** [fnode.edge(0)] and [fnode.iter().last().unwrap()] *)
Definition base_edge (top : bool) (cs : list nat) : option nat := if top then last cs else head cs.

(** The result of a terminal: vminsol mdd_minsol.rs:45-46 and vmaxsol 313-314 ... *)
Definition vsol_leaf (id : nat) (t : vt) : nat := match t with VVal _ => id | VUndet => mt_undet end.
(** ... bminsol mdd_minsol.rs:172-174 ... *)
Definition bminsol_leaf (id : nat) (t : tv) : nat :=
  match t with TZero => mdd_undet | TOne => id | TUndet => mdd_undet end.
(** ... bmaxsol mdd_minsol.rs:443-445 *)
Definition bmaxsol_leaf (id : nat) (t : tv) : nat :=
  match t with TZero => mdd_one | TOne => mdd_undet | TUndet => mdd_undet end.

(** for each child the sibling to subtract: the previous one (mdd_minsol.rs:68-72, 194-198), or in the mirrored
    functions the next one (mdd_minsol.rs:336-340, 464-468); none for the baseline child *)
Definition sol_nbr (top : bool) (cs : list nat) : list (option nat) :=
  if top then map Some (tail cs) ++ [None] else None :: map Some cs.

Section sol.
Context {S T : Type} (F : forest S T) (top : bool)
  (warm_of : nat → nat → node T → node T → warm) (leaf_of : nat → T → nat).

(** vwithout mdd_minsol.rs:89-159, bwithout 215-269, vupwithout 357-427, bupwithout 485-541; the level guards
    compare [level(f)] and [level(g)] *)
Fixpoint without_f (n : nat) (st : S * gmap (nat * nat) nat) (f g : nat)
  : option ((S * gmap (nat * nat) nat) * nat) :=
  match n with
  | O => None
  | Datatypes.S n =>
      match st.2 !! (f, g) with
      | Some x => Some (st, x)
      | None =>
          fn ← ar_nodes (fo_ar F st.1) !! f;
          gn ← ar_nodes (fo_ar F st.1) !! g;
          let base fc := (e ← base_edge top fc; without_f n st e g) in
          let over h ps :=
            ('(st, ns) ← mapst (λ st p, without_f n st p.1 p.2) st ps;
             let '(s, x) := fo_mk F st.1 h ns in Some ((s, st.2), x)) in
          '(st, result) ←
            match warm_of f g fn gn, fn, gn with
            | WRet x, _, _ => Some (st, x)
            | WBase, NT _ fc, _ => base fc
            | WMap, _, NT hg gc => over hg (map (λ c, (f, c)) gc)
            | WLevel, NT hf fc, NT hg gc =>
                lf ← hdr_level (fo_ar F st.1) hf;
                lg ← hdr_level (fo_ar F st.1) hg;
                if lg <? lf then base fc
                else if lf <? lg then over hg (map (λ c, (f, c)) gc)
                else over hf (zip fc gc)
            | _, _, _ => None
            end;
          Some ((st.1, <[(f, g) := result]> st.2), result)
      end
  end.

(** [(1..children.len()).all(|i| dd.meet(children\[i-1\], children\[i\]) == children\[i-1\])], mdd_minsol.rs:52-53,
    180-181, 319-320, 449-450 *)
Fixpoint mono_f (s : S) (cs : list nat) : option (S * bool) :=
  match cs with
  | [] => Some (s, true)
  | a :: cs' =>
      match cs' with
      | [] => Some (s, true)
      | b :: _ => '(s, r) ← fo_meet F s a b; if r =? a then mono_f s cs' else Some (s, false)
      end
  end.

(** manager, cache1, cache2 *)
Definition sol_st : Type := S * gmap nat (option nat) * gmap (nat * nat) nat.

(** the loop over the children, mdd_minsol.rs:59-81, 185-207, 325-349, 455-477 *)
Fixpoint sol_loop (G : sol_st → nat → option (sol_st * option nat)) (st : sol_st) (l : list (nat * option nat))
  : option (sol_st * option (list nat)) :=
  match l with
  | [] => Some (st, Some [])
  | (c, p) :: l =>
      '(st, m) ← G st c;
      match m with
      | None => Some (st, None)
      | Some m =>
          '(st, v) ←
            match p with
            | None => Some (st, m)
            | Some q =>
                '(w, v) ← without_f (ar_fuel (fo_ar F st.1.1)) (st.1.1, st.2) q m;
                Some ((w.1, st.1.2, w.2), v)
            end;
          '(st, vs) ← sol_loop G st l;
          Some (st, option_map (cons v) vs)
      end
  end.

(** vminsol mdd_minsol.rs:31-87, bminsol 161-213, vmaxsol 299-355, bmaxsol 429-483.  [children.len() - 1]
    underflows on a node without children in the mirrored functions. *)
Fixpoint sol_f (n : nat) (st : sol_st) (node : nat) : option (sol_st * option nat) :=
  match n with
  | O => None
  | Datatypes.S n =>
      match st.1.2 !! node with
      | Some x => Some (st, x)
      | None =>
          nd ← ar_nodes (fo_ar F st.1.1) !! node;
          '(st, result) ←
            match nd with
            | Term t => Some (st, Some (leaf_of node t))
            | NT h cs =>
                '(s, mono) ← mono_f st.1.1 cs;
                let st := (s, st.1.2, st.2) in
                if mono : bool then
                  if top && (length cs =? 0) then None else
                  '(st, ns) ← sol_loop (sol_f n) st (zip cs (sol_nbr top cs));
                  match ns with
                  | None => Some (st, None)
                  | Some ns => let '(s, x) := fo_mk F st.1.1 h ns in Some ((s, st.1.2, st.2), Some x)
                  end
                else Some (st, None)
            end;
          Some ((st.1.1, <[node := result]> st.1.2, st.2), result)
      end
  end.
Definition sol (s : S) (node : nat) : option (S * option nat) :=
  '(st, r) ← sol_f (ar_fuel (fo_ar F s)) (s, ∅, ∅) node; Some (st.1.1, r).
End sol.

(** mdd_minsol.rs:13-29 *)
Definition mdd_minsol (I : vint) (m : mm) (x : mnode) : option (mm * option mnode) :=
  match x with
  | NVal f => '(v, r) ← sol (vforest I) false vwithout_arm vsol_leaf (mm_v m) f; Some (mm_with_v m v, option_map NVal r)
  | NBool f => '(b, r) ← sol bforest false bwithout_arm bminsol_leaf (mm_b m) f; Some (mm_with_b m b, option_map NBool r)
  end.
(** mdd_minsol.rs:281-297 *)
Definition mdd_maxsol (I : vint) (m : mm) (x : mnode) : option (mm * option mnode) :=
  match x with
  | NVal f => '(v, r) ← sol (vforest I) true vwithout_arm vsol_leaf (mm_v m) f; Some (mm_with_v m v, option_map NVal r)
  | NBool f => '(b, r) ← sol bforest true bupwithout_arm bmaxsol_leaf (mm_b m) f; Some (mm_with_b m b, option_map NBool r)
  end.
