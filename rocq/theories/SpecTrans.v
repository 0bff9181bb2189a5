(** Client programs of BddMgr, and what a client sees of them.
    A client keeps its handles in numbered slots: a call that gives a handle appends a slot, a dropped handle leaves its slot empty.
    Using an empty slot is not possible in Rust (the value was moved); here the program stops with [None], as it does when a call panics. *)
From stdpp Require Import strings.
From Verif Require Import Prelude ComputeCache Arena Bdd BssAlg BssMgr BssLook SpecBssMgr.

Section prog.
(** the numbers used in probabilities: any type with any five constants and operations (so also [f64]) *)
Context {R : Type} (rO rI : R) (radd rmul rsub : R → R → R).

Inductive cmd :=
  (* calls that give handles *)
  | CVar (x : string) | CConst (b : bool) | CNeg (i : nat) | CBin (o : bop2) (i j : nat) | CCond (i j k : nat)
  | CAndAll (l : list nat) | COrAll (l : list nat) | CAtLeast (k : nat) (l : list nat) | CDualOf (i : nat)
  | CKids (i : nat) | CDup (i : nat) | CFree (i : nat) | CExpr (e : string)
  (* questions *)
  | QEq (i j : nat) | QIs (t : tv) (i : nat) | QCount (ss : list bool) (i : nat)
  | QProb (pv : gmap string R) (ss : list bool) (i : nat) | QMeas (pv : gmap string R) (ss : list bool) (i : nat)
  | QPaths (fuel : nat) (ss : list bool) (i : nat) | QSize (i : nat) | QLabel (i : nat) | QLevel (i : nat) | QOrder
  (* housekeeping *)
  | HGc (keep : list nat) | HThreshold (t : nat) | HClear.

Definition housekeeping (c : cmd) : Prop := match c with HGc _ | HThreshold _ | HClear => True | _ => False end.
Global Instance housekeeping_dec c : Decision (housekeeping c).
Proof. destruct c; apply _. Defined.

Inductive ans :=
  | Done | ABool (b : bool) | ACount (n : N) | AProb (r : R) | AMeas (m : gmap string R) | APaths (l : list (list string))
  | ASize (s : N * N * N) | ALabel (x : option string) | ALevel (l : option nat) | AOrder (l : list string).

Definition slot (S : list (option nat)) (i : nat) : option nat := mjoin (S !! i).
Definition slots (S : list (option nat)) (l : list nat) : option (list nat) := mapM (slot S) l.
Definition give (S : list (option nat)) (o : option (bmgr * nat)) : option (bmgr * list (option nat) * ans) :=
  '(w, r) ← o; Some (w, S ++ [Some r], Done).
Definition tell (w : bmgr) (S : list (option nat)) (a : option ans) : option (bmgr * list (option nat) * ans) :=
  a ← a; Some (w, S, a).

Definition do (w : bmgr) (S : list (option nat)) (c : cmd) : option (bmgr * list (option nat) * ans) :=
  match c with
  | CVar x => give S (Some (w_defvar w x))
  | CConst b => give S (if b then w_one w else w_zero w)
  | CNeg i => f ← slot S i; give S (w_not w f)
  | CBin o i j => f ← slot S i; g ← slot S j; give S (w_bin o w f g)
  | CCond i j k => f ← slot S i; g ← slot S j; h ← slot S k; give S (w_ite w f g h)
  | CAndAll l => fs ← slots S l; give S (w_and_list w fs)
  | COrAll l => fs ← slots S l; give S (w_or_list w fs)
  | CAtLeast k l => fs ← slots S l; give S (w_kofn w k fs)
  | CDualOf i => f ← slot S i; give S (w_dual w f)
  | CKids i =>
      (* the children of a constant: two empty slots *)
      f ← slot S i; '(w, o) ← w_children w f;
      Some match o with
           | Some (f0, f1) => (w, S ++ [Some f0; Some f1], ABool true)
           | None => (w, S ++ [None; None], ABool false)
           end
  | CDup i => f ← slot S i; Some (w_clone w f, S ++ [Some f], Done)
  | CFree i => f ← slot S i; Some (w_drop w f, <[i := None]> S, Done)
  | CExpr e =>
      (* a reported error: an empty slot *)
      '(w, r) ← w_rpn w e;
      Some match r with RpnOk f => (w, S ++ [Some f], ABool true) | RpnErr => (w, S ++ [None], ABool false) end
  | QEq i j => f ← slot S i; g ← slot S j; tell w S (Some (ABool (w_eq f g)))
  | QIs t i => f ← slot S i; tell w S (ABool <$> w_is t w f)
  | QCount ss i => f ← slot S i; tell w S (ACount <$> w_count w ss f)
  | QProb pv ss i => f ← slot S i; tell w S (AProb <$> w_prob rO rI radd rmul rsub w pv ss f)
  | QMeas pv ss i => f ← slot S i; tell w S (AMeas <$> w_bmeas rO rI radd rmul rsub w pv ss f)
  | QPaths n ss i => f ← slot S i; tell w S (APaths <$> w_extract n w ss f)
  | QSize i => f ← slot S i; tell w S (ASize <$> w_size w f)
  | QLabel i => f ← slot S i; tell w S (Some (ALabel (w_label w f)))
  | QLevel i => f ← slot S i; tell w S (Some (ALevel (w_level w f)))
  | QOrder => tell w S (AOrder <$> w_varorder w)
  | HGc keep => '(w, _) ← w_gc w (omap (slot S) keep); Some (w, S, Done)
  | HThreshold t => Some (w_set_threshold w t, S, Done)
  | HClear => Some (w_clear_cache w, S, Done)
  end.

(** The answers to the calls of a program other than housekeeping. *)
Fixpoint go (w : bmgr) (S : list (option nat)) (p : list cmd) : option (list ans) :=
  match p with
  | [] => Some []
  | c :: p =>
      '(w, S, a) ← do w S c;
      l ← go w S p;
      Some (if decide (housekeeping c) then l else a :: l)
  end.
Definition answers (p : list cmd) : option (list ans) := go w_new [] p.
Definition no_housekeeping (p : list cmd) : list cmd := filter (λ c, ¬ housekeeping c) p.
End prog.
Arguments cmd : clear implicits.
Arguments ans : clear implicits.
