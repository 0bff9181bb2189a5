(** Specification vocabulary for the multi-state wrappers: functions of named multi-state variables, direct
    evaluation of RPN expressions, what the user holds, and minimal / maximal state vectors. *)
From stdpp Require Import strings.
From Verif Require Import Prelude ComputeCache Arena Bdd Mdd MtMdd MtMdd2 Zmdd ZmddAlg BssMgr MssMgr
  SpecBdd SpecMdd SpecZmdd SpecZmddAlg SpecBssMgr.

(** ** Values *)
(** An assignment of states to variable names; the value of a node: a boolean or a (possibly undetermined) integer *)
Definition menv := string → nat.
Definition menv_set (e : menv) (x : string) (i : nat) : menv := λ y, if decide (y = x) then i else e y.
Inductive mval := VB (b : bool) | VI (t : vt).
Definition mfn := menv → mval.

(** The value of node [id] under [e]: follow the edge chosen by the state of the node's variable. *)
Inductive named_value {T} (a : arena T) (e : menv) : nat → T → Prop :=
  | mv_term id t : ar_nodes a !! id = Some (Term t) → named_value a e id t
  | mv_node id h cs hd c t :
      ar_nodes a !! id = Some (NT h cs) → ar_headers a !! h = Some hd →
      cs !! e (h_label hd) = Some c → named_value a e c t →
      named_value a e id t.
Definition mvalue (m : mm) (e : menv) (x : mnode) (v : mval) : Prop :=
  match x, v with
  | NBool f, VB b => named_value (d_ar (mm_b m)) e f (tvb b)
  | NVal f, VI t => named_value (t_ar (mm_v m)) e f t
  | _, _ => False
  end.
(** [e] gives every declared variable one of its states *)
Definition mrange (m : mm) (e : menv) : Prop :=
  ∀ hd, hd ∈ ar_headers (d_ar (mm_b m)) → e (h_label hd) < h_edges hd.

(** ** The operators on values; [None]: operands of the wrong kind, or an integer overflow *)
Inductive mop2 := OArith (o : vop) | OCmp (c : cmp) | OGate (g : gate).
Global Instance no_overflow_dec I o a b : Decision (no_overflow I o a b).
Proof. destruct o, a, b; cbn; apply _. Defined.
Definition val2 (I : vint) (o : mop2) (a b : mval) : option mval :=
  match o, a, b with
  | OArith o, VI x, VI y => if decide (no_overflow I o x y) then Some (VI (arith_vt o x y)) else None
  | OCmp c, VI x, VI y => Some (VB (cmp_vt c x y))
  | OCmp Eq, VB x, VB y => Some (VB (eqb x y))
  | OCmp Neq, VB x, VB y => Some (VB (negb (eqb x y)))
  | OGate g, VB x, VB y => Some (VB (gate_bool g x y))
  | _, _, _ => None
  end.
Definition val_not (a : mval) : option mval := match a with VB x => Some (VB (negb x)) | VI _ => None end.
Definition val_ite (c a b : mval) : option mval :=
  match c, a, b with
  | VB c, VB x, VB y => Some (VB (if c then x else y))
  | VB c, VI x, VI y => Some (VI (if c then x else y))
  | _, _, _ => None
  end.
(** left-to-right combination of a list *)
Definition val_fold (I : vint) (o : mop2) : option mval → list (option mval) → option mval :=
  foldl (λ acc x, a ← acc; b ← x; val2 I o a b).

(** ** Direct evaluation of RPN (the table of mss/src/mdd.rs:244-296) *)
Inductive mtok :=
  | MLit (text : string) (z : Z) | MBool (b : bool) | MOp (o : mop2) | MNot | MIte
  | MSave (x : string) | MLoad (x : string) | MVar (x : string).
Definition mprint (t : mtok) : string :=
  match t with
  | MLit s _ => s
  | MBool true => "True" | MBool false => "False"
  | MOp (OArith VAdd) => "+" | MOp (OArith VSub) => "-" | MOp (OArith VMul) => "*" | MOp (OArith VDiv) => "/"
  | MOp (OArith VMin) => "min" | MOp (OArith VMax) => "max" | MOp (OArith (VRem | VReplace)) => ""
  | MOp (OCmp Eq) => "==" | MOp (OCmp Neq) => "!=" | MOp (OCmp Lt) => "<" | MOp (OCmp Lte) => "<="
  | MOp (OCmp Gt) => ">" | MOp (OCmp Gte) => ">="
  | MOp (OGate GAnd) => "&&" | MOp (OGate GOr) => "||" | MOp (OGate GXor) => ""
  | MNot => "!" | MIte => "?"
  | MSave x => "save(" +:+ x +:+ ")" | MLoad x => "load(" +:+ x +:+ ")"
  | MVar x => x
  end.
(** decimal notation: an optional sign and one or more digits, for a number that fits in 32 bits *)
Definition digits_text (ds : list nat) : string := foldr (λ d s, String (Ascii.ascii_of_nat (48 + d)) s) EmptyString ds.
Definition digits_value (ds : list nat) : Z := foldl (λ v d, v * 10 + Z.of_nat d)%Z 0%Z ds.
Definition int_text (s : string) (z : Z) : Prop :=
  ∃ ds, ds ≠ [] ∧ Forall (λ d, d < 10) ds ∧ in_i32 z ∧
    ((s = digits_text ds ∧ z = digits_value ds) ∨ (s = "+" +:+ digits_text ds ∧ z = digits_value ds) ∨
     (s = "-" +:+ digits_text ds ∧ z = - digits_value ds)%Z).
(** the language has no remainder, replace and xor *)
Definition mtok_wf (t : mtok) : Prop :=
  match t with MLit s z => int_text s z | MOp (OArith (VRem | VReplace)) | MOp (OGate GXor) => False | _ => True end.
(** a variable name is any word that is no other token *)
Definition mtok_ok (t : mtok) : Prop :=
  mtok_wf t ∧ match t with MVar x => ∀ t', mtok_wf t' → mprint t' = x → t' = MVar x | _ => True end.

(** [Underflow] here also stands for operands of the wrong kind and integer overflow *)
Definition mstate : Type := list mval * gmap string mval.
Definition meval_step (I : vint) (e : menv) (s : mstate) (t : mtok) : outcome mstate :=
  let '(st, saved) := s in
  let push st o := match o with Some v => Value (v :: st, saved) | None => Underflow end in
  match t, st with
  | MLit _ z, _ => Value (VI (VVal z) :: st, saved)
  | MBool b, _ => Value (VB b :: st, saved)
  | MOp o, b :: a :: st => push st (val2 I o a b)
  | MNot, a :: st => push st (val_not a)
  | MIte, b :: a :: c :: st => push st (val_ite c a b)
  | MSave x, a :: _ => Value (st, <[x := a]> saved)
  | MSave _, [] => Reported
  | MLoad x, _ => match saved !! x with Some a => Value (a :: st, saved) | None => Reported end
  | MVar x, _ => Value (VI (VVal (Z.of_nat (e x))) :: st, saved)
  | _, _ => Underflow
  end.
Fixpoint meval_go (I : vint) (e : menv) (s : mstate) (ts : list mtok) : outcome mstate :=
  match ts with
  | [] => Value s
  | t :: ts => match meval_step I e s t with Value s => meval_go I e s ts | Reported => Reported | Underflow => Underflow end
  end.
Definition meval (I : vint) (e : menv) (ts : list mtok) : outcome mval :=
  match meval_go I e ([], ∅) ts with
  | Value ([v], _) => Value v
  | Value _ | Reported => Reported
  | Underflow => Underflow
  end.
(** the expression does not use [<=] *)
Definition no_lte (ts : list mtok) : Prop := MOp (OCmp Lte) ∉ ts.

(** ** Histories of MddMgr calls
    The user holds handles, each with the function it was created to denote; [None] for a handle whose call
    makes no promise (operands of the wrong kind, an undetermined boolean, an overflow, [<=]). *)
Definition handles := list (mnode * option mfn).
Definition at_env (F : option mfn) (e : menv) : option mval := (λ f, f e) <$> F.
(** [K] is a meaning the specification [S] of the call allows *)
Definition promised (w : mmgr) (S : menv → option mval) (K : option mfn) : Prop :=
  match K with Some k => ∀ e, mrange (g_mm w) e → S e = Some (k e) | None => True end.

Definition mm_bin (I : vint) (o : mop2) : mm → mnode → mnode → option (mm * mnode) :=
  match o with OArith o => mm_arith I o | OCmp c => mm_cmp c | OGate g => mm_gate g end.
Inductive mlist := LAnd | LOr | LMin | LMax.
Definition g_list (I : vint) (l : mlist) : mmgr → list mnode → option (mmgr * mnode) :=
  match l with LAnd => g_and_list | LOr => g_or_list | LMin => g_min_list I | LMax => g_max_list I end.
Definition val_list (I : vint) (l : mlist) (vs : list (option mval)) : option mval :=
  match l, vs with
  | LAnd, _ => val_fold I (OGate GAnd) (Some (VB true)) vs
  | LOr, _ => val_fold I (OGate GOr) (Some (VB false)) vs
  | LMin, v :: vs => val_fold I (OArith VMin) v vs
  | LMax, v :: vs => val_fold I (OArith VMax) v vs
  | _, [] => None
  end.

Inductive mdd_step (I : vint) : mmgr → handles → mmgr → handles → Prop :=
  | ds_boolean w H b w' r : g_boolean w b = Some (w', r) → mdd_step I w H w' ((r, Some (λ _, VB b)) :: H)
  | ds_value w H z w' r : g_value w z = Some (w', r) → mdd_step I w H w' ((r, Some (λ _, VI (VVal z))) :: H)
  | ds_undet_value w H w' r : g_undet_value w = Some (w', r) → mdd_step I w H w' ((r, Some (λ _, VI VUndet)) :: H)
  | ds_undet_boolean w H w' r : g_undet_boolean w = Some (w', r) → mdd_step I w H w' ((r, None) :: H)
  | ds_defvar w H x n w' r : g_defvar w x n = Some (w', r) →
      mdd_step I w H w' ((r, Some (λ e, VI (VVal (Z.of_nat (e x))))) :: H)
  | ds_node w H h hd xs Fs w' r K : mm_fits (g_mm w) h xs → Forall2 (λ x F, (x, F) ∈ H) xs Fs →
      ar_headers (d_ar (mm_b (g_mm w))) !! h = Some hd → g_create_node w h xs = Some (w', r) →
      promised w (λ e, F ← Fs !! e (h_label hd); at_env F e) K → mdd_step I w H w' ((r, K) :: H)
  | ds_not w H f F w' r K : (f, F) ∈ H → g_not w f = Some (w', r) →
      promised w (λ e, a ← at_env F e; val_not a) K → mdd_step I w H w' ((r, K) :: H)
  | ds_bin o w H f F g G w' r K : (f, F) ∈ H → (g, G) ∈ H → g_bin (mm_bin I o) w f g = Some (w', r) →
      promised w (λ e, a ← at_env F e; b ← at_env G e; val2 I o a b) K → (o = OCmp Lte → K = None) →
      mdd_step I w H w' ((r, K) :: H)
  | ds_ite w H c C f F g G w' r K : (c, C) ∈ H → (f, F) ∈ H → (g, G) ∈ H → g_ite w c f g = Some (w', r) →
      promised w (λ e, x ← at_env C e; a ← at_env F e; b ← at_env G e; val_ite x a b) K →
      mdd_step I w H w' ((r, K) :: H)
  | ds_list l w H (L : handles) w' r K : (∀ x, x ∈ L → x ∈ H) → g_list I l w L.*1 = Some (w', r) →
      promised w (λ e, val_list I l ((λ F, at_env F e) <$> L.*2)) K → mdd_step I w H w' ((r, K) :: H)
  | ds_children w H x F s w' xs : (x, F) ∈ H → g_label w x = Some s → g_children w x = Some (w', Some xs) →
      mdd_step I w H w' (imap (λ i y, (y, (λ (f : mfn) (e : menv), f (menv_set e s i)) <$> F)) xs ++ H)
  | ds_rpn w H expr ts vars w' r K : Forall mtok_ok ts → separated expr (mprint <$> ts) →
      g_rpn I w expr vars = Some (w', RpnOk r) →
      promised w' (λ e, match meval I e ts with Value v => Some v | _ => None end) K → (K = None ∨ no_lte ts) →
      mdd_step I w H w' ((r, K) :: H)
  | ds_rpn_err w H expr vars w' : g_rpn I w expr vars = Some (w', RpnErr) → mdd_step I w H w' H
  | ds_clone w H x F : (x, F) ∈ H → mdd_step I w H (g_clone w x) ((x, F) :: H)
  | ds_drop w H x F H' : H ≡ₚ (x, F) :: H' → mdd_step I w H (g_drop w x) H'
  | ds_gc w H keep w' n : Forall (λ x, x ∈ H.*1) keep → g_gc w keep = Some (w', n) → mdd_step I w H w' H
  | ds_threshold w H t : mdd_step I w H (g_set_threshold w t) H
  | ds_clear w H : mdd_step I w H (g_clear_cache w) H.

(** ** Structure functions *)
(** [vars]: the variables with their numbers of states *)
Definition states (vars : list (string * nat)) (e : menv) : Prop := ∀ s n, (s, n) ∈ vars → e s < n.
Definition below_on (vars : list (string * nat)) (e e' : menv) : Prop := ∀ s, s ∈ vars.*1 → e s ≤ e' s.
Definition same_on (vars : list (string * nat)) (e e' : menv) : Prop := ∀ s, s ∈ vars.*1 → e s = e' s.
(** every variable with its state *)
Definition dense (vars : list (string * nat)) (e : menv) : gmap string nat := list_to_map ((λ v, (v.1, e v.1)) <$> vars).

(** the level a value stands for: false is 0, true is 1 *)
Definition score (v : mval) : option Z :=
  match v with VB b => Some (if b then 1%Z else 0%Z) | VI (VVal z) => Some z | VI VUndet => None end.
(** the determined function [F] as the integer function [phi] *)
Definition is_phi (vars : list (string * nat)) (F : mfn) (phi : menv → Z) : Prop :=
  ∀ e, states vars e → score (F e) = Some (phi e).
Definition monotone (vars : list (string * nat)) (phi : menv → Z) : Prop :=
  ∀ e e', states vars e → states vars e' → below_on vars e e' → (phi e <= phi e')%Z.
(** [e] is a minimal / maximal vector of a set of state vectors *)
Definition minimal (vars : list (string * nat)) (P : menv → Prop) (e : menv) : Prop :=
  states vars e ∧ P e ∧ ∀ e', states vars e' → P e' → below_on vars e' e → same_on vars e' e.
Definition maximal (vars : list (string * nat)) (P : menv → Prop) (e : menv) : Prop :=
  states vars e ∧ P e ∧ ∀ e', states vars e' → P e' → below_on vars e e' → same_on vars e' e.

(** ** Histories of MssMgr calls
    Besides handles the user holds families, each with the structure function and the direction it came from,
    or the operation that combined them. *)
Definition family := (nat → nat) → Z → Prop. (* recorded vectors (by level) with their labels *)
(** what a path / cut family records: the minimal vectors, and the distances of the maximal ones from the top *)
Definition offset (rev : bool) (vars : list (string * nat)) (e : menv) : nat → nat := λ l,
  match vars !! l with Some (s, n) => if rev then n - 1 - e s else e s | None => 0 end.
Definition extremal (rev : bool) (vars : list (string * nat)) (phi : menv → Z) : family := λ x z,
  ∃ e, (if rev then maximal else minimal) vars (λ e, phi e = z) e ∧ ∀ l, x l = offset rev vars e l.

(** [M] is a minimal / maximal vector of the level [v] of [phi] *)
Definition lists (rev : bool) (vars : list (string * nat)) (phi : menv → Z) (v : Z) (M : gmap string nat) : Prop :=
  ∃ e, (if rev then maximal else minimal) vars (λ e, phi e = v) e ∧ M = dense vars e.

Definition s_sol (I : vint) (rev : bool) : mss → mnode → option (mss * option zmnode) :=
  if rev then s_mincut I else s_minpath I.
Definition families := list (zmnode * option family).
(** [mss_step I s H Q s' H' Q']: one call takes the manager from [s] to [s'], and the handles and families
    held from [H], [Q] to [H'], [Q']. *)
Inductive mss_step (I : vint) : mss → handles → families → mss → handles → families → Prop :=
  | qs_mdd w q H Q w' H' : mdd_step I w H w' H' → mss_step I (Mss w q) H Q (Mss w' q) H' Q
  | qs_none rev s H Q x F s' : (x, Some F) ∈ H → s_sol I rev s x = Some (s', None) → mss_step I s H Q s' H Q
  | qs_sol rev s H Q x F s' r R : (x, Some F) ∈ H → s_sol I rev s x = Some (s', Some r) →
      (∀ R', R = Some R' → ∃ vars phi, g_varorder (s_m s) = Some vars ∧ is_phi vars F phi ∧ R' = extremal rev vars phi) →
      mss_step I s H Q s' H ((r, R) :: Q)
  | qs_intersect w q H Q x R y S q' r : (x, R) ∈ Q → (y, S) ∈ Q → q_intersect q x y = Some (q', r) →
      mss_step I (Mss w q) H Q (Mss w q') H ((r, R ← R; S ← S; Some (λ v z, R v z ∧ S v z)) :: Q)
  | qs_setdiff w q H Q x R y S q' r : (x, R) ∈ Q → (y, S) ∈ Q → q_setdiff q x y = Some (q', r) →
      mss_step I (Mss w q) H Q (Mss w q') H ((r, R ← R; S ← S; Some (λ v z, R v z ∧ ¬ S v z)) :: Q)
  | qs_clone w q H Q x R : (x, R) ∈ Q → mss_step I (Mss w q) H Q (Mss w (q_clone q x)) H ((x, R) :: Q)
  | qs_drop w q H Q x R Q' : Q ≡ₚ (x, R) :: Q' → mss_step I (Mss w q) H Q (Mss w (q_drop q x)) H Q'
  | qs_clear s H Q : mss_step I s H Q (s_clear_cache s) H Q.
Inductive mss_held (I : vint) : mss → handles → families → Prop :=
  | ms_new : mss_held I s_new [] []
  | ms_step s H Q s' H' Q' : mss_held I s H Q → mss_step I s H Q s' H' Q' → mss_held I s' H' Q'.
(** an MddMgr on its own *)
Inductive mdd_held (I : vint) : mmgr → handles → Prop :=
  | dh_new : mdd_held I g_new []
  | dh_step w H w' H' : mdd_held I w H → mdd_step I w H w' H' → mdd_held I w' H'.
