(** Specification vocabulary for the multi-valued managers: what a node denotes, what a legal call is, which
    managers are reachable.  Nothing here refers to the operations' algorithms. *)
From Verif Require Import Prelude ComputeCache Arena Bdd Mdd MtMdd MtMdd2 SpecBdd.

(** ** Diagrams *)

(** The value of node [id] under the assignment [rho] (variable level |-> state number): follow the edge
    chosen by [rho] until a terminal. *)
Inductive node_value {T} (a : arena T) (rho : nat → nat) : nat → T → Prop :=
  | nv_term id t : ar_nodes a !! id = Some (Term t) → node_value a rho id t
  | nv_node id h cs hd c t :
      ar_nodes a !! id = Some (NT h cs) → ar_headers a !! h = Some hd →
      cs !! rho (h_level hd) = Some c → node_value a rho c t →
      node_value a rho id t.

(** [rho] gives every variable a state below its number of states. *)
Definition in_range {T} (a : arena T) (rho : nat → nat) : Prop :=
  ∀ hd, hd ∈ ar_headers a → rho (h_level hd) < h_edges hd.

(** An id the user may use: an allocated slot that has not been reclaimed. *)
Definition node_valid {T} (a : arena T) (id : nat) : Prop := id < length (ar_nodes a) ∧ id ∉ ar_free a.
(** The top level of [id] is strictly below [l] (terminals are below everything). *)
Definition node_below {T} (a : arena T) (id l : nat) : Prop :=
  match ar_node_level a id with Some (Some l') => l' < l | Some None => True | None => False end.
(** Nodes reachable through edges from a list of roots. *)
Inductive node_reaches {T} (a : arena T) (roots : list nat) : nat → Prop :=
  | nrs_root r : r ∈ roots → node_reaches a roots r
  | nrs_edge id h cs c : node_reaches a roots id → ar_nodes a !! id = Some (NT h cs) → c ∈ cs →
      node_reaches a roots c.
(** No two variables share a level. *)
Definition levels_distinct {T} (a : arena T) : Prop := NoDup (h_level <$> ar_headers a).

(** What the caller of create_header owes: at least one state, and the same number of states as any variable
    already at that level. *)
Definition header_fits {T} (a : arena T) (level edges : nat) : Prop :=
  0 < edges ∧ Forall (λ hd, h_level hd = level → h_edges hd = edges) (ar_headers a).
(** What the caller of create_node owes: an existing header, one child per state, children valid and below. *)
Definition node_fits {T} (a : arena T) (h : nat) (cs : list nat) : Prop :=
  match ar_headers a !! h with
  | Some hd => length cs = h_edges hd ∧ Forall (λ c, node_valid a c ∧ node_below a c (h_level hd)) cs
  | None => False
  end.

Global Instance node_valid_dec {T} (a : arena T) id : Decision (node_valid a id).
Proof. unfold node_valid. apply _. Defined.
Global Instance node_below_dec {T} (a : arena T) id l : Decision (node_below a id l).
Proof. unfold node_below. destruct (ar_node_level _ _) as [[]|]; apply _. Defined.
Global Instance header_fits_dec {T} (a : arena T) l e : Decision (header_fits a l e).
Proof. unfold header_fits. apply _. Defined.
Global Instance node_fits_dec {T} (a : arena T) h cs : Decision (node_fits a h cs).
Proof. unfold node_fits. destruct (ar_headers a !! h); apply _. Defined.
Global Instance levels_distinct_dec {T} (a : arena T) : Decision (levels_distinct a).
Proof. unfold levels_distinct. apply _. Defined.

(** ** The boolean MDD manager *)
Definition mdd_conn (c : conn) : mdd → nat → nat → option (mdd * nat) :=
  match c with
  | And => mdd_and | Or => mdd_or | Xor => mdd_xor | Imp => mdd_imp
  | Nand => mdd_nand | Nor => mdd_nor | Xnor => mdd_xnor
  end.

Inductive mdd_call :=
  | DHeader (level : nat) (label : String.string) (edges : nat)
  | DNode (h : nat) (cs : list nat)
  | DNot (f : nat)
  | DConn (c : conn) (f g : nat)
  | DReplace (f g : nat)
  | DIte (f g h : nat)
  | DGc (roots : list nat)
  | DClear.
Definition mdd_exec (m : mdd) (c : mdd_call) : option (mdd * nat) :=
  match c with
  | DHeader l s e => Some (mdd_create_header m l s e)
  | DNode h cs => Some (mdd_create_node m h cs)
  | DNot f => mdd_not m f
  | DConn c f g => mdd_conn c m f g
  | DReplace f g => mdd_replace m f g
  | DIte f g h => mdd_ite m f g h
  | DGc roots => mdd_gc m roots
  | DClear => Some (mdd_clear_cache m, 0)
  end.
Definition mdd_legal (m : mdd) (c : mdd_call) : Prop :=
  match c with
  | DHeader l _ e => header_fits (d_ar m) l e
  | DNode h cs => node_fits (d_ar m) h cs
  | DNot f => node_valid (d_ar m) f
  | DConn _ f g | DReplace f g => node_valid (d_ar m) f ∧ node_valid (d_ar m) g
  | DIte f g h => node_valid (d_ar m) f ∧ node_valid (d_ar m) g ∧ node_valid (d_ar m) h
  | DGc roots => Forall (node_valid (d_ar m)) roots
  | DClear => True
  end.
Global Instance mdd_legal_dec m c : Decision (mdd_legal m c).
Proof. destruct c; cbn; apply _. Defined.
Fixpoint mdd_run (m : mdd) (cs : list mdd_call) : option mdd :=
  match cs with
  | [] => Some m
  | c :: cs => if decide (mdd_legal m c) then '(m', _) ← mdd_exec m c; mdd_run m' cs else None
  end.
Definition mdd_reachable (m : mdd) : Prop := ∃ cs, mdd_run mdd_new cs = Some m.

(** ** The value MTMDD manager *)

(** Integer arithmetic: truncating division, division by zero undetermined *)
Definition arith (o : vop) (x y : Z) : vt :=
  match o with
  | VAdd => VVal (x + y) | VSub => VVal (x - y) | VMul => VVal (x * y)
  | VDiv => if decide (y = 0%Z) then VUndet else VVal (Z.quot x y)
  | VRem => if decide (y = 0%Z) then VUndet else VVal (Z.rem x y)
  | VMin => VVal (Z.min x y) | VMax => VVal (Z.max x y)
  | VReplace => VVal x
  end.
(** Lifted to undetermined operands *)
Definition arith_vt (o : vop) (a b : vt) : vt :=
  match o, a, b with
  | VReplace, VUndet, b => b
  | VReplace, a, _ => a
  | _, VVal x, VVal y => arith o x y
  | _, _, _ => VUndet
  end.
(** The machine integer type represents the exact result of the operation. *)
Definition no_overflow (I : vint) (o : vop) (a b : vt) : Prop :=
  match o, a, b with
  | VAdd, VVal x, VVal y => vi_ovf I (x + y) = Some (x + y)%Z
  | VSub, VVal x, VVal y => vi_ovf I (x - y) = Some (x - y)%Z
  | VMul, VVal x, VVal y => vi_ovf I (x * y) = Some (x * y)%Z
  | (VDiv | VRem), VVal x, VVal y => ¬ (x = vi_min I ∧ y = (-1)%Z)
  | _, _, _ => True
  end.

(** The library is used with [V = i32] (mss/tests/test_mss.rs).  Overflowing [+], [-], [*]
    panic in a build with overflow checks and wrap otherwise; overflowing [/], [%] panic in both. *)
Definition i32_min : Z := (-2147483648)%Z.
Definition i32_max : Z := 2147483647%Z.
Definition in_i32 (z : Z) : Prop := (i32_min <= z <= i32_max)%Z.
Definition i32_checked : vint := VInt i32_min (λ z, if decide (in_i32 z) then Some z else None).
Definition i32_wrapping : vint := VInt i32_min (λ z, Some ((z - i32_min) mod (i32_max - i32_min + 1) + i32_min)%Z).
(** the exact result (for a remainder: the quotient) is a 32-bit integer *)
Definition fits_i32 (o : vop) (a b : vt) : Prop :=
  match arith_vt (match o with VRem => VDiv | _ => o end) a b with VVal z => in_i32 z | VUndet => True end.

(** Walk from a node along the edges chosen by [rho] (to show values in examples) *)
Fixpoint walk {T} (a : arena T) (rho : nat → nat) (n : nat) (id : nat) : option T :=
  match n with
  | 0 => None
  | S n =>
      match ar_nodes a !! id with
      | Some (Term t) => Some t
      | Some (NT h cs) => hd ← ar_headers a !! h; c ← cs !! rho (h_level hd); walk a rho n c
      | None => None
      end
  end.

Inductive mt_call :=
  | THeader (level : nat) (label : String.string) (edges : nat)
  | TValue (z : Z)
  | TNode (h : nat) (cs : list nat)
  | TBin (o : vop) (f g : nat)
  | TGc (roots : list nat)
  | TClear.
Definition mt_exec (I : vint) (m : mt) (c : mt_call) : option (mt * nat) :=
  match c with
  | THeader l s e => Some (mt_create_header m l s e)
  | TValue z => Some (mt_value m z)
  | TNode h cs => Some (mt_create_node m h cs)
  | TBin o f g => mt_bin I o m f g
  | TGc roots => mt_gc m roots
  | TClear => Some (mt_clear_cache m, 0)
  end.
Definition mt_legal (m : mt) (c : mt_call) : Prop :=
  match c with
  | THeader l _ e => header_fits (t_ar m) l e
  | TNode h cs => node_fits (t_ar m) h cs
  | TBin _ f g => node_valid (t_ar m) f ∧ node_valid (t_ar m) g
  | TGc roots => Forall (node_valid (t_ar m)) roots
  | TValue _ | TClear => True
  end.
Global Instance mt_legal_dec m c : Decision (mt_legal m c).
Proof. destruct c; cbn; apply _. Defined.
Fixpoint mt_run (I : vint) (m : mt) (cs : list mt_call) : option mt :=
  match cs with
  | [] => Some m
  | c :: cs => if decide (mt_legal m c) then '(m', _) ← mt_exec I m c; mt_run I m' cs else None
  end.
Definition mt_reachable (I : vint) (m : mt) : Prop := ∃ cs, mt_run I mt_new cs = Some m.

(** ** The combined manager *)
Inductive cmp := Eq | Neq | Lt | Lte | Gt | Gte.
Definition cmp_z (c : cmp) (x y : Z) : bool :=
  match c with
  | Eq => bool_decide (x = y) | Neq => bool_decide (x ≠ y)
  | Lt => bool_decide (x < y)%Z | Lte => bool_decide (x <= y)%Z
  | Gt => bool_decide (x > y)%Z | Gte => bool_decide (x >= y)%Z
  end.
Definition mm_cmp (c : cmp) : mm → mnode → mnode → option (mm * mnode) :=
  match c with
  | Eq => mm_eq | Neq => mm_neq | Lt => mm_lt | Lte => mm_lte | Gt => mm_gt | Gte => mm_gte
  end.
Inductive gate := GAnd | GOr | GXor.
Definition gate_bool (o : gate) : bool → bool → bool :=
  match o with GAnd => andb | GOr => orb | GXor => xorb end.
Definition mm_gate (o : gate) : mm → mnode → mnode → option (mm * mnode) :=
  match o with GAnd => mm_and | GOr => mm_or | GXor => mm_xor end.

Definition mm_valid (m : mm) (x : mnode) : Prop :=
  match x with NVal f => node_valid (t_ar (mm_v m)) f | NBool f => node_valid (d_ar (mm_b m)) f end.
(** all children from the same forest *)
Definition mm_fits (m : mm) (h : nat) (xs : list mnode) : Prop :=
  (Forall (λ x, ∃ f, x = NVal f) xs ∧ node_fits (t_ar (mm_v m)) h (map node_id xs)) ∨
  (Forall (λ x, ∃ f, x = NBool f) xs ∧ node_fits (d_ar (mm_b m)) h (map node_id xs)).
Definition same_kind (x y : mnode) : Prop :=
  match x, y with NVal _, NVal _ | NBool _, NBool _ => True | _, _ => False end.

Global Instance is_nval_dec x : Decision (∃ f, x = NVal f).
Proof. destruct x as [f|f]; [left; eauto|right; intros [? [=]]]. Defined.
Global Instance is_nbool_dec x : Decision (∃ f, x = NBool f).
Proof. destruct x as [f|f]; [right; intros [? [=]]|left; eauto]. Defined.
Global Instance mm_valid_dec m x : Decision (mm_valid m x).
Proof. destruct x; cbn; apply _. Defined.
Global Instance mm_fits_dec m h xs : Decision (mm_fits m h xs).
Proof. unfold mm_fits. apply _. Defined.
Global Instance same_kind_dec x y : Decision (same_kind x y).
Proof. destruct x, y; cbn; apply _. Defined.

Inductive mm_call :=
  | XHeader (level : nat) (label : String.string) (edges : nat)
  | XValue (z : Z)
  | XNode (h : nat) (xs : list mnode)
  | XNot (f : mnode)
  | XGate (o : gate) (f g : mnode)
  | XArith (o : vop) (f g : mnode)
  | XCmp (c : cmp) (f g : mnode)
  | XIte (f g h : mnode)
  | XVif (f g : nat)
  | XGc (roots : list mnode)
  | XClear.
Definition mm_exec (I : vint) (m : mm) (c : mm_call) : option mm :=
  match c with
  | XHeader l s e => fst <$> mm_create_header m l s e
  | XValue z => Some (mm_value m z).1
  | XNode h xs => fst <$> mm_create_node m h xs
  | XNot f => fst <$> mm_not m f
  | XGate o f g => fst <$> mm_gate o m f g
  | XArith o f g => fst <$> mm_arith I o m f g
  | XCmp c f g => fst <$> mm_cmp c m f g
  | XIte f g h => fst <$> mm_ite m f g h
  | XVif f g => fst <$> mm_vif m f g
  | XGc roots => fst <$> mm_gc m roots
  | XClear => Some (mm_clear_cache m)
  end.
Definition mm_legal (m : mm) (c : mm_call) : Prop :=
  match c with
  | XHeader l _ e => header_fits (d_ar (mm_b m)) l e
  | XValue _ | XClear => True
  | XNode h xs => mm_fits m h xs
  | XNot f => mm_valid m f
  | XGate _ f g | XArith _ f g | XCmp _ f g => mm_valid m f ∧ mm_valid m g
  | XIte f g h => mm_valid m f ∧ mm_valid m g ∧ mm_valid m h ∧ same_kind g h
  | XVif f g => node_valid (d_ar (mm_b m)) f ∧ node_valid (t_ar (mm_v m)) g
  | XGc roots => Forall (mm_valid m) roots
  end.
Global Instance mm_legal_dec m c : Decision (mm_legal m c).
Proof. destruct c; cbn; apply _. Defined.
Fixpoint mm_run (I : vint) (m : mm) (cs : list mm_call) : option mm :=
  match cs with
  | [] => Some m
  | c :: cs => if decide (mm_legal m c) then m' ← mm_exec I m c; mm_run I m' cs else None
  end.
Definition mm_reachable (I : vint) (m : mm) : Prop := ∃ cs, mm_run I mm_new cs = Some m.

(** Values: [mm_bool m rho x b] - the boolean node [x] is true / false / undetermined at [rho]; [mm_int] likewise. *)
Definition mm_range (m : mm) (rho : nat → nat) : Prop := in_range (d_ar (mm_b m)) rho.
Definition mm_bool (m : mm) (rho : nat → nat) (x : mnode) (t : tv) : Prop :=
  ∃ f, x = NBool f ∧ node_value (d_ar (mm_b m)) rho f t.
Definition mm_int (m : mm) (rho : nat → nat) (x : mnode) (t : vt) : Prop :=
  ∃ f, x = NVal f ∧ node_value (t_ar (mm_v m)) rho f t.

(** Histories in which the user holds nodes together with the function each is meant to denote.  The
    meaning of a new node is computed from the operands' meanings by truth tables and integer arithmetic. *)
Inductive mfun := FB (F : (nat → nat) → bool) | FV (F : (nat → nat) → vt).
Definition mm_denotes (m : mm) (x : mnode) (F : mfun) : Prop :=
  mm_valid m x ∧ ∀ rho, mm_range m rho →
    match F with FB F => mm_bool m rho x (tvb (F rho)) | FV F => mm_int m rho x (F rho) end.
(** a comparison with an undetermined side counts as "not equal" and "not less" *)
Definition cmp_vt (c : cmp) (a b : vt) : bool :=
  match a, b with
  | VVal x, VVal y => cmp_z c x y
  | _, _ => match c with Neq | Gte => true | _ => false end
  end.
Definition mm_reaches (m : mm) (roots : list mnode) (x : mnode) : Prop :=
  match x with
  | NVal f => node_reaches (t_ar (mm_v m)) (vroots roots) f
  | NBool f => node_reaches (d_ar (mm_b m)) (broots roots) f
  end.

(** [mux l Fs rho]: the function of the list [Fs] selected by the state of the variable at level [l] *)
Definition mux {A} (dflt : A) (l : nat) (Fs : list ((nat → nat) → A)) (rho : nat → nat) : A :=
  match Fs !! rho l with Some F => F rho | None => dflt end.

Inductive mm_held (I : vint) : mm → list (mnode * mfun) → Prop :=
  | mh_new : mm_held I mm_new []
  | mh_zero m H : mm_held I m H → mm_held I m ((mm_zero, FB (λ _, false)) :: H)
  | mh_one m H : mm_held I m H → mm_held I m ((mm_one, FB (λ _, true)) :: H)
  | mh_undet_value m H : mm_held I m H → mm_held I m ((mm_undet_value, FV (λ _, VUndet)) :: H)
  | mh_value m H z m' r : mm_held I m H → mm_value m z = (m', r) → mm_held I m' ((r, FV (λ _, VVal z)) :: H)
  | mh_header m H l s e m' h : mm_held I m H → header_fits (d_ar (mm_b m)) l e →
      mm_create_header m l s e = Some (m', h) → mm_held I m' H
  | mh_bnode m H h hd xs Fs m' r : mm_held I m H → mm_fits m h xs →
      Forall2 (λ x F, (x, FB F) ∈ H) xs Fs → ar_headers (d_ar (mm_b m)) !! h = Some hd →
      mm_create_node m h xs = Some (m', r) →
      mm_held I m' ((r, FB (mux false (h_level hd) Fs)) :: H)
  | mh_vnode m H h hd xs Fs m' r : mm_held I m H → mm_fits m h xs →
      Forall2 (λ x F, (x, FV F) ∈ H) xs Fs → ar_headers (d_ar (mm_b m)) !! h = Some hd →
      mm_create_node m h xs = Some (m', r) →
      mm_held I m' ((r, FV (mux VUndet (h_level hd) Fs)) :: H)
  | mh_not m H f F m' r : mm_held I m H → (f, FB F) ∈ H → mm_not m f = Some (m', r) →
      mm_held I m' ((r, FB (λ rho, negb (F rho))) :: H)
  | mh_gate o m H f g F G m' r : mm_held I m H → (f, FB F) ∈ H → (g, FB G) ∈ H →
      mm_gate o m f g = Some (m', r) →
      mm_held I m' ((r, FB (λ rho, gate_bool o (F rho) (G rho))) :: H)
  | mh_arith o m H f g F G m' r : mm_held I m H → (f, FV F) ∈ H → (g, FV G) ∈ H →
      (∀ rho, mm_range m rho → no_overflow I o (F rho) (G rho)) →
      mm_arith I o m f g = Some (m', r) →
      mm_held I m' ((r, FV (λ rho, arith_vt o (F rho) (G rho))) :: H)
  | mh_cmp c m H f g F G m' r : mm_held I m H → (f, FV F) ∈ H → (g, FV G) ∈ H → c ≠ Lte →
      mm_cmp c m f g = Some (m', r) →
      mm_held I m' ((r, FB (λ rho, cmp_vt c (F rho) (G rho))) :: H)
  | mh_other m H c m' : mm_held I m H → mm_legal m c → (∀ roots, c ≠ XGc roots) → mm_exec I m c = Some m' →
      mm_held I m' H (* any other legal call, its result not held *)
  | mh_vite m H f g h F G K m' r : mm_held I m H → (f, FB F) ∈ H → (g, FV G) ∈ H → (h, FV K) ∈ H →
      mm_ite m f g h = Some (m', r) →
      mm_held I m' ((r, FV (λ rho, if F rho then G rho else K rho)) :: H)
  | mh_bite m H f g h F G K m' r : mm_held I m H → (f, FB F) ∈ H → (g, FB G) ∈ H → (h, FB K) ∈ H →
      mm_ite m f g h = Some (m', r) →
      mm_held I m' ((r, FB (λ rho, if F rho then G rho else K rho)) :: H)
  | mh_clear m H : mm_held I m H → mm_held I (mm_clear_cache m) H
  | mh_gc m H roots H' m' n : mm_held I m H → Forall (mm_valid m) roots → mm_gc m roots = Some (m', n) →
      (∀ x, x ∈ H' → x ∈ H ∧ mm_reaches m roots x.1) →
      mm_held I m' H'.
