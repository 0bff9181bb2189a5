(** Client programs of MddMgr, and what a client sees of them; see SpecTrans.v for the slots. *)
From stdpp Require Import strings.
From Verif Require Import Prelude ComputeCache Arena Bdd Mdd MtMdd MtMdd2 BssMgr MssMgr MssAlg MssLook SpecMdd SpecMss.

Section prog.
(** the integer type of the constants, and the numbers used in probabilities (any type with any operations) *)
Context (I : vint) {R : Type} (rO rI : R) (radd rmul rsub : R → R → R).

Inductive mcmd :=
  (* calls that give handles *)
  | DVar (x : string) (range : nat) | DBool (b : bool) | DVal (z : Z) | DUndetB | DUndetV
  | DNeg (i : nat) | DBin (o : mop2) (i j : nat) | DCond (i j k : nat) | DAll (o : mlist) (l : list nat) | DMake (h : nat) (l : list nat)
  | DKids (i : nat) | DDup (i : nat) | DFree (i : nat) | DExpr (e : string) (ranges : gmap string nat)
  (* questions *)
  | PEq (i j : nat) | PKind (i : nat) | PIs (t : tv) (i : nat) | PConst (i : nat) | PCount (ss : list Z) (i : nat)
  | PProb (pv : gmap string (list R)) (ss : list Z) (i : nat) | PMeas (pv : gmap string (list R)) (ss : list Z) (i : nat)
  | PPaths (fuel : nat) (ss : list Z) (i : nat) | PSize (i : nat) | PLabel (i : nat) | PLevel (i : nat) | PHeader (i : nat) | POrder
  (* housekeeping *)
  | JGc (keep : list nat) | JThreshold (t : nat) | JClear.

Definition mhouse (c : mcmd) : Prop := match c with JGc _ | JThreshold _ | JClear => True | _ => False end.
Global Instance mhouse_dec c : Decision (mhouse c).
Proof. destruct c; apply _. Defined.

Inductive mans :=
  | NDone | NTruth (b : bool) | NConst (z : option Z) | NCount (n : N) | NProb (r : R) | NMeas (m : gmap string (list R))
  | NPaths (l : list (gmap string nat)) | NSize (s : N * N * N) | NLabel (x : option string) | NLevel (l : option nat)
  | NOrder (l : list (string * nat)) | NKids (n : option nat).

Definition mslots := list (option mnode).
Definition mslot (S : mslots) (i : nat) : option mnode := mjoin (S !! i).
Definition mslot_list (S : mslots) (l : list nat) : option (list mnode) := mapM (mslot S) l.
Definition mgive (S : mslots) (o : option (mmgr * mnode)) : option (mmgr * mslots * mans) :=
  '(w, r) ← o; Some (w, S ++ [Some r], NDone).
Definition mtell (w : mmgr) (S : mslots) (a : option mans) : option (mmgr * mslots * mans) :=
  a ← a; Some (w, S, a).

Definition mdo (w : mmgr) (S : mslots) (c : mcmd) : option (mmgr * mslots * mans) :=
  match c with
  | DVar x n => mgive S (g_defvar w x n)
  | DBool b => mgive S (g_boolean w b)
  | DVal z => mgive S (g_value w z)
  | DUndetB => mgive S (g_undet_boolean w)
  | DUndetV => mgive S (g_undet_value w)
  | DNeg i => f ← mslot S i; mgive S (g_not w f)
  | DBin o i j => f ← mslot S i; g ← mslot S j; mgive S (g_bin (mm_bin I o) w f g)
  | DCond i j k => f ← mslot S i; g ← mslot S j; h ← mslot S k; mgive S (g_ite w f g h)
  | DAll o l => fs ← mslot_list S l; mgive S (g_list I o w fs)
  | DMake h l =>
      (* create_node trusts its caller; a program that passes children that do not fit stops here *)
      fs ← mslot_list S l; if decide (mm_fits (g_mm w) h fs) then mgive S (g_create_node w h fs) else None
  | DKids i =>
      (* the answer is the number of children *)
      f ← mslot S i; '(w, o) ← g_children w f;
      Some match o with Some fs => (w, S ++ (Some <$> fs), NKids (Some (length fs))) | None => (w, S, NKids None) end
  | DDup i => f ← mslot S i; Some (g_clone w f, S ++ [Some f], NDone)
  | DFree i => f ← mslot S i; Some (g_drop w f, <[i := None]> S, NDone)
  | DExpr e ranges =>
      (* a reported error: an empty slot *)
      '(w, r) ← g_rpn I w e ranges;
      Some match r with RpnOk f => (w, S ++ [Some f], NTruth true) | RpnErr => (w, S ++ [None], NTruth false) end
  | PEq i j => f ← mslot S i; g ← mslot S j; mtell w S (Some (NTruth (g_same f g)))
  | PKind i => f ← mslot S i; mtell w S (Some (NTruth (g_is_boolean f)))
  | PIs t i => f ← mslot S i; mtell w S (NTruth <$> g_is t w f)
  | PConst i => f ← mslot S i; mtell w S (NConst <$> g_const w f)
  | PCount ss i => f ← mslot S i; mtell w S (NCount <$> g_count w f ss)
  | PProb pv ss i => f ← mslot S i; mtell w S (NProb <$> g_prob rO rI radd rmul w f pv ss)
  | PMeas pv ss i => f ← mslot S i; mtell w S (NMeas <$> g_bmeas rO rI radd rmul rsub w f pv ss)
  | PPaths n ss i => f ← mslot S i; mtell w S (NPaths <$> g_extract n w f ss)
  | PSize i => f ← mslot S i; mtell w S (NSize <$> g_size w f)
  | PLabel i => f ← mslot S i; mtell w S (Some (NLabel (g_label w f)))
  | PLevel i => f ← mslot S i; mtell w S (Some (NLevel (g_level w f)))
  | PHeader i => f ← mslot S i; mtell w S (Some (NLevel (g_header w f)))
  | POrder => mtell w S (NOrder <$> g_varorder w)
  | JGc keep => '(w, _) ← g_gc w (omap (mslot S) keep); Some (w, S, NDone)
  | JThreshold t => Some (g_set_threshold w t, S, NDone)
  | JClear => Some (g_clear_cache w, S, NDone)
  end.

(** The answers to the calls of a program other than housekeeping. *)
Fixpoint mgo (w : mmgr) (S : mslots) (p : list mcmd) : option (list mans) :=
  match p with
  | [] => Some []
  | c :: p =>
      '(w, S, a) ← mdo w S c;
      l ← mgo w S p;
      Some (if decide (mhouse c) then l else a :: l)
  end.
Definition manswers (p : list mcmd) : option (list mans) := mgo g_new [] p.
Definition no_mhouse (p : list mcmd) : list mcmd := filter (λ c, ¬ mhouse c) p.
End prog.
Arguments mcmd : clear implicits.
Arguments mans : clear implicits.
