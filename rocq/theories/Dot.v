(** Model of the Graphviz output: common/src/dot.rs and the dot_impl of the managers. *)
From stdpp Require Import strings pretty.
From Verif Require Import Prelude ComputeCache Arena Bdd Zdd Mdd MtMdd MtMdd2 Zmdd BssMgr MssMgr ZddMgr.

(** One written line: a node (square or circle) or an edge. *)
Inductive dline := DNode (id : nat) (square : bool) (label : string) | DEdge (p c i : nat).

(** the format! strings, e.g. bddcore/src/bdd_dot.rs:17, 29-33, 40 *)
Definition newline : string := String (Ascii.ascii_of_nat 10) EmptyString.
Definition dot_obj (id : nat) : string := """obj" +:+ pretty (N.of_nat id) +:+ """".
Definition dot_line (l : dline) : string :=
  match l with
  | DNode id sq s => dot_obj id +:+ " [shape=" +:+ (if sq then "square" else "circle") +:+ ", label=""" +:+ s +:+ """];" +:+ newline
  | DEdge p c i => dot_obj p +:+ " -> " +:+ dot_obj c +:+ " [label=""" +:+ pretty (N.of_nat i) +:+ """];" +:+ newline
  end.
(** Dot::dot and Dot::dot_string, common/src/dot.rs:8-27, with the lines dot_impl writes *)
Definition dot_text (ls : list dline) : string :=
  "digraph { layout=dot; overlap=false; splines=true; node [fontsize=10];" +:+ newline +:+
  foldr (λ l s, dot_line l +:+ s) EmptyString ls +:+ "}" +:+ newline.

Section dot.
Context {T : Type} (tlabel : T → string) (hidden : T → bool) (a : arena T).
Definition hides (nd : node T) : bool := match nd with Term t => hidden t | NT _ _ => false end.
(** dot_impl, e.g. bddcore/src/bdd_dot.rs:8-48; the lines written so far are kept last first *)
Fixpoint dot_f (n : nat) (id : nat) (st : gset nat * list dline) : option (gset nat * list dline) :=
  match n with
  | O => None
  | S n =>
      let '(visited, out) := st in
      if decide (id ∈ visited) then Some st
      else
        nd ← ar_nodes a !! id;
        '(visited, out) ←
          match nd with
          | Term t => Some (visited, DNode id true (tlabel t) :: out)
          | NT h cs =>
              hd ← ar_headers a !! h;
              (fix go i cs st {struct cs} :=
                 match cs with
                 | [] => Some st
                 | x :: cs =>
                     nx ← ar_nodes a !! x;
                     if hides nx then go (S i) cs st
                     else
                       '(visited, out) ← dot_f n x st;
                       go (S i) cs (visited, DEdge id x i :: out)
                 end) 0 cs (visited, DNode id false (h_label hd) :: out)
          end;
        Some ({[id]} ∪ visited, out)
  end.
(** Dot::dot, common/src/dot.rs:8-18 *)
Definition dot_lines (id : nat) : option (list dline) :=
  '(_, out) ← dot_f (ar_fuel a) id (∅, []); Some (reverse out).
Definition dot_of (id : nat) : option string := dot_text <$> dot_lines id.
End dot.

(** bddcore/src/bdd_dot.rs:16-28 (labels) and 36-38 (edges into Undet are omitted) *)
Definition b_tlabel (t : tv) : string := match t with TUndet => "?" | TZero => "0" | TOne => "1" end.
Definition b_hidden (t : tv) : bool := match t with TUndet => true | _ => false end.
(** bddcore/src/zdd_dot.rs:22-34 and 42-44 *)
Definition z_tlabel (t : tv) : string := match t with TUndet => "*" | TZero => "0" | TOne => "1" end.
Definition z_hidden (t : tv) : bool := match t with TOne => false | _ => true end.
(** mddcore/src/mdd_dot.rs:15-27 and 36-38 *)
Definition m_tlabel (t : tv) : string := match t with TZero => "F" | TOne => "T" | TUndet => "?" end.
(** mddcore/src/mtmdd_dot.rs:22-32 and 41, mddcore/src/zmdd_dot.rs:35-45 and 55 *)
Definition v_tlabel (t : vt) : string := match t with VUndet => "Undet" | VVal z => pretty z end.
Definition v_hidden (t : vt) : bool := match t with VUndet => true | VVal _ => false end.

(** BddNode::dot, bss/src/bdd.rs:438-442 *)
Definition w_dot (w : bmgr) (f : nat) : option string := dot_of b_tlabel b_hidden (b_ar (w_bdd w)) f.
(** ZddNode::dot, bss/src/zdd.rs:245-249 *)
Definition y_dot (w : ZddMgr.zmgr) (f : nat) : option string := dot_of z_tlabel z_hidden (z_ar (y_zdd w)) f.
(** mddcore/src/mtmdd2_dot.rs:11-19, MddNode::dot, mss/src/mdd.rs:742-746 *)
Definition g_dot (w : mmgr) (x : mnode) : option string :=
  match x with
  | NVal f => dot_of v_tlabel v_hidden (t_ar (mm_v (g_mm w))) f
  | NBool f => dot_of m_tlabel b_hidden (d_ar (mm_b (g_mm w))) f
  end.
(** ZmddNode::dot, mss/src/zmdd.rs:283-287 *)
Definition q_dot (w : MssMgr.zmgr) (f : nat) : option string := dot_of v_tlabel v_hidden (t_ar (q_z w)) f.
