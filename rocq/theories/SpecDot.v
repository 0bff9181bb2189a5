(** Specification vocabulary for the Graphviz output: which lines a drawing must have, and how to read a drawing. *)
From Coq Require Import Ascii.
From stdpp Require Import strings pretty.
From Verif Require Import Prelude Arena Bdd Mdd MtMdd MtMdd2 SpecBssMgr SpecMdd SpecMss Dot.

Section drawing.
Context {T : Type} (tlabel : T → string) (hidden : T → bool) (a : arena T) (root : nat).
(** node [c] is not a hidden terminal *)
Definition shown (c : nat) : Prop :=
  match ar_nodes a !! c with Some (Term t) => hidden t = false | Some (NT _ _) => True | None => False end.
(** [i]-th edge of [p], if it does not lead to a hidden terminal *)
Definition arrow (p i c : nat) : Prop := ∃ h cs, ar_nodes a !! p = Some (NT h cs) ∧ cs !! i = Some c ∧ shown c.
(** the nodes to draw: the root and what arrows reach from it *)
Inductive drawn : nat → Prop :=
  | dr_root : drawn root
  | dr_arrow p i c : drawn p → arrow p i c → drawn c.
(** a terminal is a square labelled with its value, any other node a circle labelled with its variable *)
Definition caption (id : nat) (square : bool) (s : string) : Prop :=
  match ar_nodes a !! id with
  | Some (Term t) => square = true ∧ s = tlabel t
  | Some (NT h _) => square = false ∧ ∃ hd, ar_headers a !! h = Some hd ∧ s = h_label hd
  | None => False
  end.
Definition line_right (l : dline) : Prop :=
  match l with
  | DNode id sq s => drawn id ∧ caption id sq s
  | DEdge p c i => drawn p ∧ arrow p i c
  end.
(** each node and each edge once, and nothing else *)
Definition drawing (ls : list dline) : Prop := NoDup ls ∧ ∀ l, l ∈ ls ↔ line_right l.
End drawing.

(** ** Reading a drawing
    Start at a node; from a circle follow the edge numbered by the state of its variable; [Some s]: a square labelled [s] was reached;
    [None]: there is no such edge. *)
Inductive reads (ls : list dline) (e : string → nat) : nat → option string → Prop :=
  | rd_square id s : DNode id true s ∈ ls → reads ls e id (Some s)
  | rd_follow id x c o : DNode id false x ∈ ls → DEdge id c (e x) ∈ ls → reads ls e c o → reads ls e id o
  | rd_none id x : DNode id false x ∈ ls → (∀ c, DEdge id c (e x) ∉ ls) → reads ls e id None.
(** The sets spelled by the paths to the square labelled 1: the labels of the circles left by edge 1 *)
Inductive spells (ls : list dline) : nat → gset string → Prop :=
  | sp_square id : DNode id true "1" ∈ ls → spells ls id ∅
  | sp_low id x c S : DNode id false x ∈ ls → DEdge id c 0 ∈ ls → spells ls c S → spells ls id S
  | sp_high id x c S : DNode id false x ∈ ls → DEdge id c 1 ∈ ls → spells ls c S → spells ls id ({[x]} ∪ S).

(** The vectors spelled by the paths to the square labelled [z]: a circle is left by the edge numbered by its component,
    components no circle asks for are 0 *)
Inductive vspells (ls : list dline) (z : Z) : nat → (string → nat) → Prop :=
  | vs_square id e : DNode id true (pretty z) ∈ ls → (∀ s, e s = 0) → vspells ls z id e
  | vs_follow id x c e : DNode id false x ∈ ls → DEdge id c (e x) ∈ ls → vspells ls z c (λ s, if decide (s = x) then 0 else e s) →
      vspells ls z id e.
(** a vector given by level, by name *)
Definition by_name (vars : list (string * nat)) (v : nat → nat) : string → nat := λ s,
  match list_find (λ p, p.1 = s) vars with Some (l, _) => v l | None => 0 end.
(** an assignment of truth values as one of edge numbers *)
Definition bits (e : env) : string → nat := λ x, if e x then 1 else 0.
(** how a value of a multi-state function is written; undetermined: no edge, or the whole drawing is one square *)
Definition answers (v : mval) (o : option string) : Prop :=
  match v with
  | VB b => o = Some (if b then "T" else "F")
  | VI (VVal z) => o = Some (pretty z)
  | VI VUndet => o = None ∨ o = Some "Undet"
  end.
(** What the squares say, and which squares are left out (unless the whole drawing is one square): an undetermined value;
    in the drawing of a family of sets everything but 1. *)
Definition bdd_says (t : tv) : string := match t with TZero => "0" | TOne => "1" | TUndet => "?" end.
Definition zdd_says (t : tv) : string := match t with TZero => "0" | TOne => "1" | TUndet => "*" end.
Definition mdd_says (t : tv) : string := match t with TZero => "F" | TOne => "T" | TUndet => "?" end.
Definition val_says (t : vt) : string := match t with VVal z => pretty z | VUndet => "Undet" end.
Definition undet_out (t : tv) : bool := bool_decide (t = TUndet).
Definition all_but_one_out (t : tv) : bool := bool_decide (t ≠ TOne).
Definition val_out (t : vt) : bool := bool_decide (t = VUndet).
(** the number of the node in its own forest, and the drawing there *)
Definition node_no (x : mnode) : nat := match x with NVal f => f | NBool f => f end.
Definition mm_drawing (m : mm) (x : mnode) (ls : list dline) : Prop :=
  match x with
  | NVal f => drawing val_says val_out (t_ar (mm_v m)) f ls
  | NBool f => drawing mdd_says undet_out (d_ar (mm_b m)) f ls
  end.

(** ** The text *)
(** no double quote in [s] *)
Fixpoint quoteless (s : string) : Prop :=
  match s with EmptyString => True | String c s => c ≠ """"%char ∧ quoteless s end.
(** the names of the declared variables are free of double quotes *)
Definition clean {T} (a : arena T) : Prop := ∀ hd, hd ∈ ar_headers a → quoteless (h_label hd).
