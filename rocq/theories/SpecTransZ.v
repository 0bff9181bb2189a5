(** Client programs of ZddMgr, and what a client sees of them.
    As in SpecTrans.v: handles in numbered slots, a call that gives a handle appends a slot, a dropped handle leaves its slot empty, and a
    program that uses an empty slot (impossible in Rust) or makes a call that panics stops with [None]. *)
From stdpp Require Import strings.
From Verif Require Import Prelude ComputeCache Arena Bdd BssAlg BssMgr Zdd ZddAlg ZddMgr ZddLook SpecTrans.

Inductive ycmd :=
  (* calls that give handles *)
  | YEmpty | YBase | YSingle (x : string) | YSets (l : list (list string)) | YOp (o : zop) (i j : nat)
  | YKids (i : nat) | YDup (i : nat) | YFree (i : nat)
  (* questions *)
  | YEq (i j : nat) | YIs (t : tv) (i : nat) | YCount (ss : list bool) (i : nat)
  | YMembers (fuel : nat) (ss : list bool) (i : nat) | YSize (i : nat) | YLabel (i : nat) | YLevel (i : nat) | YHeader (i : nat)
  (* housekeeping; ZddMgr has no gc method, collections start inside calls when the threshold is reached *)
  | YThreshold (t : nat) | YClear.

Definition yhousekeeping (c : ycmd) : Prop := match c with YThreshold _ | YClear => True | _ => False end.
Global Instance yhousekeeping_dec c : Decision (yhousekeeping c).
Proof. destruct c; cbn; apply _. Defined.

Inductive yans :=
  | YDone | YBool (b : bool) | YNum (n : N) | YFam (l : list (list string)) | YDims (s : N * N * N) | YName (x : option string) | YNat (l : option nat).

Definition ygive (S : list (option nat)) (o : option (zmgr * nat)) : option (zmgr * list (option nat) * yans) :=
  '(w, r) ← o; Some (w, S ++ [Some r], YDone).
Definition ytell (w : zmgr) (S : list (option nat)) (a : option yans) : option (zmgr * list (option nat) * yans) :=
  a ← a; Some (w, S, a).

Definition ydo (w : zmgr) (S : list (option nat)) (c : ycmd) : option (zmgr * list (option nat) * yans) :=
  match c with
  | YEmpty => ygive S (y_empty w)
  | YBase => ygive S (y_base w)
  | YSingle x => ygive S (y_singleton w x)
  | YSets l => ygive S (y_from_sets w l)
  | YOp o i j => f ← slot S i; g ← slot S j; ygive S (y_op o w f g)
  | YKids i =>
      (* the children of a constant: two empty slots *)
      f ← slot S i; '(w, o) ← y_children w f;
      Some match o with
           | Some (f0, f1) => (w, S ++ [Some f0; Some f1], YBool true)
           | None => (w, S ++ [None; None], YBool false)
           end
  | YDup i => f ← slot S i; Some (y_clone w f, S ++ [Some f], YDone)
  | YFree i => f ← slot S i; Some (y_drop w f, <[i := None]> S, YDone)
  | YEq i j => f ← slot S i; g ← slot S j; ytell w S (Some (YBool (y_eq f g)))
  | YIs t i => f ← slot S i; ytell w S (YBool <$> y_is t w f)
  | YCount ss i => f ← slot S i; ytell w S (YNum <$> y_count w ss f)
  | YMembers n ss i => f ← slot S i; ytell w S (YFam <$> y_extract n w ss f)
  | YSize i => f ← slot S i; ytell w S (YDims <$> y_size w f)
  | YLabel i => f ← slot S i; ytell w S (Some (YName (y_label w f)))
  | YLevel i => f ← slot S i; ytell w S (Some (YNat (y_level w f)))
  | YHeader i => f ← slot S i; ytell w S (Some (YNat (y_hid w f)))
  | YThreshold t => Some (y_set_threshold w t, S, YDone)
  | YClear => Some (y_clear_cache w, S, YDone)
  end.

(** The answers to the calls of a program other than housekeeping. *)
Fixpoint ygo (w : zmgr) (S : list (option nat)) (p : list ycmd) : option (list yans) :=
  match p with
  | [] => Some []
  | c :: p =>
      '(w, S, a) ← ydo w S c;
      l ← ygo w S p;
      Some (if decide (yhousekeeping c) then l else a :: l)
  end.
Definition yanswers (p : list ycmd) : option (list yans) := ygo y_new [] p.
Definition y_no_housekeeping (p : list ycmd) : list ycmd := filter (λ c, ¬ yhousekeeping c) p.
