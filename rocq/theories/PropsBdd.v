(** C02 - C07: the BDD manager. *)
From Coq Require Import String.
From Verif Require Import Prelude ComputeCache Arena Bdd SpecBdd BddProofs BddMain.

(** ** C02 *)
Theorem c02_connectives m c f g : bdd_reachable m → bdd_valid m f → bdd_valid m g →
  ∃ m' r, bdd_conn c m f g = Some (m', r) ∧ bdd_valid m' r ∧
    ∀ rho x y, bdd_value m rho f (tvb x) → bdd_value m rho g (tvb y) →
      bdd_value m' rho r (tvb (conn_bool c x y)).
Proof. exact (conn_correct_l m c f g). Qed.
Print Assumptions c02_connectives.

(** negation, at every point (an undetermined value stays undetermined) *)
Theorem c02_not m f : bdd_reachable m → bdd_valid m f →
  ∃ m' r, bdd_not m f = Some (m', r) ∧ bdd_valid m' r ∧
    ∀ rho a, bdd_value m rho f a →
      bdd_value m' rho r match a with TZero => TOne | TOne => TZero | TUndet => TUndet end.
Proof. exact (not_correct_l m f). Qed.
Print Assumptions c02_not.

(** Kleene's three-valued conjunction and disjunction *)
Definition kleene_and (a b : tv) : tv :=
  match a, b with
  | TZero, _ | _, TZero => TZero
  | TOne, TOne => TOne
  | _, _ => TUndet
  end.
Definition kleene_or (a b : tv) : tv :=
  match a, b with
  | TOne, _ | _, TOne => TOne
  | TZero, TZero => TZero
  | _, _ => TUndet
  end.
Theorem c02_undetermined m f g : bdd_reachable m → bdd_valid m f → bdd_valid m g →
  (∃ m' r, bdd_and m f g = Some (m', r) ∧ ∀ rho a b, bdd_value m rho f a → bdd_value m rho g b →
     bdd_value m' rho r (kleene_and a b) ∨
     ((a = TUndet ∨ b = TUndet) ∧ bdd_value m' rho r TUndet)) ∧
  (∃ m' r, bdd_or m f g = Some (m', r) ∧ ∀ rho a b, bdd_value m rho f a → bdd_value m rho g b →
     bdd_value m' rho r (kleene_or a b) ∨
     ((a = TUndet ∨ b = TUndet) ∧ bdd_value m' rho r TUndet)).
Proof.
  exact (λ Hm Hf Hg, and_or_undet_l m f g Hm Hf Hg).
Qed.
Print Assumptions c02_undetermined.

(** every valid node has exactly one value under every assignment *)
Theorem c02_value_unique m rho id : bdd_reachable m → bdd_valid m id →
  ∃ t, bdd_value m rho id t ∧ ∀ t', bdd_value m rho id t' → t' = t.
Proof.
  exact (λ Hm Hv, let '(ex_intro _ t Ht) := value_total m rho id Hm Hv in
         ex_intro _ t (conj Ht (λ t' Ht', value_fun m rho id t' t Ht' Ht))).
Qed.
Print Assumptions c02_value_unique.

(** ** C03 *)
Theorem c03_ite m f g h : bdd_reachable m → bdd_valid m f → bdd_valid m g → bdd_valid m h →
  ∃ m' r, bdd_ite m f g h = Some (m', r) ∧ bdd_valid m' r ∧
    ∀ rho a b c, bdd_value m rho f a → bdd_value m rho g b → bdd_value m rho h c →
      match a with
      | TOne => bdd_value m' rho r b
      | TZero => bdd_value m' rho r c
      | TUndet => bdd_value m' rho r TUndet ∨ (b = c ∧ bdd_value m' rho r b)
      end.
Proof. exact (ite_correct_l m f g h). Qed.
Print Assumptions c03_ite.

(** ** C04 *)
Theorem c04_canonical m f g : bdd_reachable m → bdd_levels_distinct m → bdd_valid m f → bdd_valid m g →
  (f = g ↔ ∀ rho t, bdd_value m rho f t ↔ bdd_value m rho g t).
Proof. exact (canonical_l m f g). Qed.
Print Assumptions c04_canonical.

(** ** C05 *)
Theorem c05_no_panic_no_disturbance m c : bdd_reachable m → bdd_legal m c → (∀ roots, c ≠ CGc roots) →
  ∃ m' r, bdd_exec m c = Some (m', r) ∧
    (∀ id, bdd_valid m id → bdd_valid m' id ∧
       ∀ rho t, bdd_value m rho id t ↔ bdd_value m' rho id t).
Proof. exact (frame_l m c). Qed.
Print Assumptions c05_no_panic_no_disturbance.

(** ** C06 *)
Theorem c06_gc_exact m roots : bdd_reachable m → Forall (bdd_valid m) roots →
  ∃ m' n, bdd_gc m roots = Some (m', n) ∧
    (∀ id, bdd_valid m' id ↔ id ∈ [bdd_zero; bdd_one; bdd_undet] ∨ bdd_reaches m roots id) ∧
    (∀ id rho t, bdd_valid m' id → bdd_value m' rho id t ↔ bdd_value m rho id t) ∧
    (∀ l, NoDup l → (∀ id, id ∈ l ↔ bdd_valid m' id) →
       bdd_live_node_count m' = length l ∧ n + length l = length (ar_nodes (b_ar m))).
Proof. exact (gc_exact_l m roots). Qed.
Print Assumptions c06_gc_exact.

Theorem c06_gc_again m roots m' n : bdd_reachable m → Forall (bdd_valid m) roots →
  bdd_gc m roots = Some (m', n) →
  ∃ m'', bdd_gc m' roots = Some (m'', n) ∧ ∀ id, bdd_valid m'' id ↔ bdd_valid m' id.
Proof. exact (gc_again_l m roots m' n). Qed.
Print Assumptions c06_gc_again.

(** ** C07 *)
Theorem c07_held_handles m H f F : bdd_held m H → (f, F) ∈ H →
  bdd_valid m f ∧ ∀ rho, bdd_value m rho f (tvb (F rho)).
Proof. exact (λ Hh Hin, proj2 (held_ok m H Hh) f F Hin). Qed.
Print Assumptions c07_held_handles.

Theorem c07_held_canonical m H f F g G : bdd_held m H → bdd_levels_distinct m →
  (f, F) ∈ H → (g, G) ∈ H → (∀ rho, F rho = G rho) → f = g.
Proof. exact (λ Hh Hd Hf Hg He, held_canonical m H Hh Hd f F g G Hf Hg He). Qed.
Print Assumptions c07_held_canonical.

(** ** Examples: a manager with x0 (level 0), x1, x2; f = x0 & x1, g = f | x2 *)
Definition ex_calls : list bdd_call :=
  [CHeader 0 "x0"; CHeader 1 "x1"; CHeader 2 "x2";
   CNode 0 0 1; CNode 1 0 1; CNode 2 0 1;    (* ids 3 4 5 *)
   CConn And 3 4;                            (* id 6 *)
   CConn Or 6 5;                             (* id 7 *)
   CConn Xor 7 3]%string.                    (* more *)
(** follow an assignment (used only to display examples) *)
Fixpoint follow (n : nat) (m : bdd) (rho : nat → bool) (id : nat) : option tv :=
  match n with
  | 0 => None
  | S n => match ar_nodes (b_ar m) !! id with
           | Some (Term t) => Some t
           | Some (NT h [lo; hi]) =>
               hd ← ar_headers (b_ar m) !! h; follow n m rho (if rho (h_level hd) then hi else lo)
           | _ => None
           end
  end.
Definition on (l : list nat) : nat → bool := λ i, bool_decide (i ∈ l).
Example ex_reachable : bool_decide (is_Some (bdd_run bdd_new ex_calls)) = true.
Proof. vm_compute. done. Qed.
Example c02_ex : option_map (λ m, (length (ar_nodes (b_ar m)),
    (λ s, follow 9 m (on s) 7) <$> [[]; [0]; [0; 1]; [2]; [1; 2]])) (bdd_run bdd_new ex_calls)
  = Some (11, [Some TZero; Some TZero; Some TOne; Some TOne; Some TOne]).
Proof. vm_compute. done. Qed.
Example c02_ex_hyp : option_map (λ m, bool_decide (bdd_valid m 7 ∧ bdd_valid m 6))
    (bdd_run bdd_new ex_calls) = Some true.
Proof. vm_compute. done. Qed.
(** (x0 & x1) | x2 built another way is the same id *)
Example c04_ex : (m ← bdd_run bdd_new ex_calls;
    '(m, a) ← bdd_or m 5 3; '(m, b) ← bdd_or m 5 4; '(m, c) ← bdd_and m a b;
    Some (c, bool_decide (bdd_levels_distinct m))) = Some (7, true).
Proof. vm_compute. done. Qed.
Example c03_ex : (m ← bdd_run bdd_new ex_calls; '(m, a) ← bdd_ite m 4 3 5;
    Some ((λ s, follow 9 m (on s) a) <$> [[1]; [0; 1]; [2]; [0]])) =
  Some [Some TZero; Some TOne; Some TOne; Some TZero].
Proof. vm_compute. done. Qed.
(** gc keeping 6 only: 3 terminals + node 6 and its child; the memo survives and gives the same id *)
Example c06_ex : (m ← bdd_run bdd_new ex_calls; '(m', n) ← bdd_gc m [6];
    '(m2, r) ← bdd_not m' 6; '(m2, r') ← bdd_not m2 r;
    Some (n, bdd_live_node_count m', bool_decide (bdd_valid m' 7), bool_decide (bdd_valid m' 6), r'))
  = Some (6, 5, false, true, 6).
Proof. vm_compute. done. Qed.
Example c05_ex : option_map (λ m, bool_decide (bdd_legal m (CConn Xor 7 6))) (bdd_run bdd_new ex_calls)
  = Some true.
Proof. vm_compute. done. Qed.
(** a held history with a collection in the middle *)
Example c07_ex : ∃ m H r, bdd_held m ((r, λ rho : nat → bool, negb (if rho 0 then true else false)) :: H).
Proof.
  destruct (bdd_create_header bdd_new 0 "x"%string) as [m1 h] eqn:E1.
  destruct (bdd_create_node m1 0 0 1) as [m2 x] eqn:E2.
  assert (H2 : bdd_held m2 ((x, λ rho : nat → bool, if rho 0 then true else false)
                 :: [(bdd_one, λ _, true); (bdd_zero, λ _, false)])).
  { eapply (bh_node m1 _ 0 (Header 0 0 "x"%string 2) bdd_zero bdd_one (λ _, false) (λ _, true)).
    - eapply bh_header; [|exact E1]. apply bh_one, bh_zero, bh_new.
    - apply elem_of_list_further, elem_of_list_here.
    - apply elem_of_list_here.
    - injection E1 as <- <-. done.
    - injection E1 as <- <-. cbn. done.
    - injection E1 as <- <-. cbn. done.
    - exact E2. }
  destruct (held_ok _ _ H2) as [Hw Hh]. destruct (Hh x _ (elem_of_list_here _ _)) as [Vx _].
  destruct (gc_ok m2 [x] Hw) as (m3 & n & E3 & Hw3 & _ & _ & Hl & _).
  { intros r Hr. by apply elem_of_list_singleton in Hr as ->. }
  assert (H3 : bdd_held m3 [(x, λ rho : nat → bool, if rho 0 then true else false)]).
  { eapply (bh_gc m2 _ [x]); [exact H2|by constructor|exact E3|].
    intros y Hy%elem_of_list_singleton. subst y. split; [apply elem_of_list_here|].
    constructor. by apply elem_of_list_singleton. }
  destruct (held_ok _ _ H3) as [_ Hh3]. destruct (Hh3 x _ (elem_of_list_here _ _)) as [Vx3 _].
  destruct (valid_repr _ _ Hw3 Vx3) as [d Hd].
  destruct (not_tree m3 x d Hw3 Hd) as (m4 & r & dr & E4 & _).
  exists m4, [(x, λ rho : nat → bool, if rho 0 then true else false)], r.
  eapply bh_not; [exact H3|apply elem_of_list_here|exact E4].
Qed.
