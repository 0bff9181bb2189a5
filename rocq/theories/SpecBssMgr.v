(** Specification vocabulary for the BddMgr wrapper: boolean functions of named variables, what the user
    holds, and direct evaluation of RPN expressions. *)
From stdpp Require Import strings.
From Verif Require Import Prelude ComputeCache Arena Bdd BssAlg BssMgr SpecBdd.

(** A truth assignment by variable name, and a boolean function of named variables. *)
Definition env := string → bool.
Definition nfun := env → bool.
Definition env_set (e : env) (x : string) (b : bool) : env := λ y, if decide (y = x) then b else e y.

(** The value of node [id] under [e]: follow the edge chosen by the variable's name. *)
Inductive bss_value (m : bdd) (e : env) : nat → tv → Prop :=
  | sv_term id t : ar_nodes (b_ar m) !! id = Some (Term t) → bss_value m e id t
  | sv_node id h lo hi hd t :
      ar_nodes (b_ar m) !! id = Some (NT h [lo; hi]) →
      ar_headers (b_ar m) !! h = Some hd →
      bss_value m e (if e (h_label hd) then hi else lo) t →
      bss_value m e id t.

(** ** Direct evaluation of RPN (the grammar table of bss/src/bdd.rs:229-246) *)
Inductive rtok :=
  | RLit (b word : bool) | RAnd | ROr | RXor | RNot | RIte
  | RSave (x : string) | RLoad (x : string) | RVar (x : string).
Definition rprint (t : rtok) : string :=
  match t with
  | RLit false false => "0" | RLit false true => "False"
  | RLit true false => "1" | RLit true true => "True"
  | RAnd => "&" | ROr => "|" | RXor => "^" | RNot => "~" | RIte => "?"
  | RSave x => "save(" +:+ x +:+ ")" | RLoad x => "load(" +:+ x +:+ ")"
  | RVar x => x
  end.
(** a variable name is any word that is no other token *)
Definition rtok_ok (t : rtok) : Prop :=
  match t with RVar x => ∀ t', rprint t' = x → t' = RVar x | _ => True end.

(** [separated s ws]: [s] consists of the words [ws], each a non-empty run of non-white characters,
    separated by white space (with optional white space at both ends). *)
Fixpoint all_chars (P : Ascii.ascii → Prop) (s : string) : Prop :=
  match s with EmptyString => True | String c s => P c ∧ all_chars P s end.
Definition white (c : Ascii.ascii) : Prop := c ∈ Ascii.ascii_of_nat <$> [9; 10; 11; 12; 13; 32].
Definition starts_white (s : string) : Prop :=
  match s with EmptyString => True | String c _ => white c end.
Inductive separated : string → list string → Prop :=
  | sep_nil s : all_chars white s → separated s []
  | sep_cons sp w rest ws : all_chars white sp → w ≠ EmptyString → all_chars (λ c, ¬ white c) w →
      starts_white rest → separated rest ws → separated (sp +:+ w +:+ rest) (w :: ws).

(** What evaluation can come to: a value, a reported error, or popping an empty stack. *)
Inductive outcome (A : Type) := Value (a : A) | Reported | Underflow.
Arguments Value {A}.
Arguments Reported {A}.
Arguments Underflow {A}.

Definition rstate : Type := list nfun * gmap string nfun.
Definition reval_step (s : rstate) (t : rtok) : outcome rstate :=
  let '(st, saved) := s in
  match t, st with
  | RLit b _, _ => Value ((λ _, b) :: st, saved)
  | RAnd, G :: F :: st => Value ((λ e, F e && G e) :: st, saved)
  | ROr, G :: F :: st => Value ((λ e, F e || G e) :: st, saved)
  | RXor, G :: F :: st => Value ((λ e, xorb (F e) (G e)) :: st, saved)
  | RNot, F :: st => Value ((λ e, negb (F e)) :: st, saved)
  | RIte, K :: G :: F :: st => Value ((λ e, if F e then G e else K e) :: st, saved)
  | RSave x, F :: _ => Value (st, <[x := F]> saved)
  | RSave _, [] => Reported
  | RLoad x, _ => match saved !! x with Some F => Value (F :: st, saved) | None => Reported end
  | RVar x, _ => Value ((λ e, e x) :: st, saved)
  | _, _ => Underflow
  end.
Fixpoint reval_go (s : rstate) (ts : list rtok) : outcome rstate :=
  match ts with
  | [] => Value s
  | t :: ts => match reval_step s t with Value s => reval_go s ts | Reported => Reported | Underflow => Underflow end
  end.
(** The expression denotes a function iff exactly one is left at the end. *)
Definition reval (ts : list rtok) : outcome nfun :=
  match reval_go ([], ∅) ts with
  | Value ([F], _) => Value F
  | Value _ | Reported => Reported
  | Underflow => Underflow
  end.

(** ** Histories of wrapper calls
    [bss_step w H w' H']: one call takes the wrapper from [w] to [w'], and what the user holds from [H] to [H'].
    [bss_held w H]: the wrapper state [w] can be reached while the user holds the handles [H] (a handle
    held twice is listed twice), each with the function it was created to denote.  The automatic
    collector runs inside the calls, with whatever threshold is set. *)
Inductive bop2 := BAnd | BOr | BXor.
Definition bop2_fun (o : bop2) : bool → bool → bool :=
  match o with BAnd => andb | BOr => orb | BXor => xorb end.
Definition w_bin (o : bop2) : bmgr → nat → nat → option (bmgr * nat) :=
  match o with BAnd => w_and | BOr => w_or | BXor => w_xor end.

Inductive bss_step : bmgr → list (nat * nfun) → bmgr → list (nat * nfun) → Prop :=
  | st_defvar w H x w' r : w_defvar w x = (w', r) → bss_step w H w' ((r, λ e, e x) :: H)
  | st_zero w H w' r : w_zero w = Some (w', r) → bss_step w H w' ((r, λ _, false) :: H)
  | st_one w H w' r : w_one w = Some (w', r) → bss_step w H w' ((r, λ _, true) :: H)
  | st_node w H h hd f F g G w' r : (f, F) ∈ H → (g, G) ∈ H →
      ar_headers (b_ar (w_bdd w)) !! h = Some hd →
      bdd_below (w_bdd w) f (h_level hd) → bdd_below (w_bdd w) g (h_level hd) →
      w_create_node w h f g = Some (w', r) →
      bss_step w H w' ((r, λ e : env, if e (h_label hd) then G e else F e) :: H)
  | st_not w H f (F : nfun) w' r : (f, F) ∈ H → w_not w f = Some (w', r) →
      bss_step w H w' ((r, λ e : env, negb (F e)) :: H)
  | st_bin o w H f (F : nfun) g (G : nfun) w' r : (f, F) ∈ H → (g, G) ∈ H →
      w_bin o w f g = Some (w', r) → bss_step w H w' ((r, λ e : env, bop2_fun o (F e) (G e)) :: H)
  | st_ite w H f F g G h (K : nfun) w' r : (f, F) ∈ H → (g, G) ∈ H → (h, K) ∈ H →
      w_ite w f g h = Some (w', r) → bss_step w H w' ((r, λ e : env, if F e : bool then G e else K e) :: H)
  | st_and_list w H (L : list (nat * nfun)) w' r : (∀ x, x ∈ L → x ∈ H) →
      w_and_list w L.*1 = Some (w', r) →
      bss_step w H w' ((r, λ e : env, forallb (λ x, x.2 e) L) :: H)
  | st_or_list w H (L : list (nat * nfun)) w' r : (∀ x, x ∈ L → x ∈ H) →
      w_or_list w L.*1 = Some (w', r) →
      bss_step w H w' ((r, λ e : env, existsb (λ x, x.2 e) L) :: H)
  | st_kofn w H k (L : list (nat * nfun)) w' r : (∀ x, x ∈ L → x ∈ H) →
      w_kofn w k L.*1 = Some (w', r) →
      bss_step w H w' ((r, λ e : env, k <=? length (filter (λ x, x.2 e = true) L)) :: H)
  | st_dual w H f F w' r : (f, F) ∈ H → w_dual w f = Some (w', r) →
      bss_step w H w' ((r, λ e : env, negb (F (λ x, negb (e x)))) :: H)
  | st_children w H f F x w' f0 f1 : (f, F) ∈ H → w_label w f = Some x →
      w_children w f = Some (w', Some (f0, f1)) →
      bss_step w H w' ((f0, λ e, F (env_set e x false)) :: (f1, λ e, F (env_set e x true)) :: H)
  | st_clone w H f F : (f, F) ∈ H → bss_step w H (w_clone w f) ((f, F) :: H)
  | st_drop w H f F H' : H ≡ₚ (f, F) :: H' → bss_step w H (w_drop w f) H'
  | st_gc w H keep w' n : Forall (λ f, f ∈ H.*1) keep → w_gc w keep = Some (w', n) → bss_step w H w' H
  | st_threshold w H t : bss_step w H (w_set_threshold w t) H
  | st_clear w H : bss_step w H (w_clear_cache w) H
  | st_rpn w H expr ts F w' r : Forall rtok_ok ts → separated expr (rprint <$> ts) →
      reval ts = Value F → w_rpn w expr = Some (w', RpnOk r) → bss_step w H w' ((r, F) :: H)
  | st_rpn_err w H expr w' : w_rpn w expr = Some (w', RpnErr) → bss_step w H w' H.

Inductive bss_held : bmgr → list (nat * nfun) → Prop :=
  | sh_new : bss_held w_new []
  | sh_step w H w' H' : bss_held w H → bss_step w H w' H' → bss_held w' H'.
