(** Properties of the EV+MDD manager of evmdd_core. *)
From stdpp Require Import strings.
From Verif Require Import Prelude Arena Mdd EvMdd SpecEv EvProofs.
Local Open Scope string_scope.

(** ** C84: the four operations *)
Theorem c84_operations m o fv f gv g : ev_reachable m → ev_valid m f → ev_valid m g →
  ∃ m' v r, ev_bin o m fv f gv g = Some (m', (v, r)) ∧ ev_reachable m' ∧ ev_valid m' r ∧
    e_headers m' = e_headers m ∧
    (∀ rho w id x, ev_valid m id → edge_value m' rho w id x ↔ edge_value m rho w id x) ∧
    ∀ rho, ev_in_range m rho → ∃ a b,
      (∀ x, edge_value m rho fv f x ↔ x = a) ∧ (∀ x, edge_value m rho gv g x ↔ x = b) ∧
      ∀ x, edge_value m' rho v r x ↔ x = ev_op o a b.
Proof. exact (ev_bin_correct m o fv f gv g). Qed.
Print Assumptions c84_operations.

(** The diagrams of [test_min2], evplus_mdd.rs:1070-1119: f is edge (0, 6), g is edge (0, 10). *)
Definition ex_node (m : evm) (h : nat) (es : list evedge) : evm := default ev_new (fst <$> ev_create_node m h es).
Definition ex_h : evm :=
  (ev_create_header (ev_create_header (ev_create_header ev_new 0 "x" 2).1 1 "y" 2).1 2 "z" 3).1.
Definition ed (v : Z) (n : nat) : evedge := (v, n).
Definition ex_f : evm :=
  ex_node (ex_node (ex_node (ex_node (ex_node ex_h 0 [ed 0 0; ed 0 1]) 0 [ed 0 1; ed 0 0])
    1 [ed 0 2; ed 2 2]) 1 [ed 1 2; ed 0 3]) 2 [ed 0 4; ed 1 5; ed 2 5].
Definition ex_g : evm :=
  ex_node (ex_node (ex_node (ex_node ex_f 0 [ed 0 0; ed 2 0]) 1 [ed 0 7; ed 0 1])
    1 [ed 0 7; ed 2 3]) 2 [ed 0 8; ed 2 8; ed 1 9].
Lemma ex_node_reachable m h es : ev_reachable m → ev_node_fits m h es → bool_decide (is_Some (ev_create_node m h es)) = true →
  ev_reachable (ex_node m h es).
Proof.
  intros Hm Hf [[m' e] E]%bool_decide_eq_true. unfold ex_node. rewrite E. cbn. by eapply er_node.
Qed.
Lemma ex_g_reachable : ev_reachable ex_g.
Proof.
  unfold ex_g, ex_f. repeat (apply ex_node_reachable; [| |vm_compute; reflexivity]); cycle 1.
  1-9: (vm_compute; split; [reflexivity|repeat (apply Forall_cons; split; [split; repeat constructor|]); constructor]).
  unfold ex_h. repeat (apply er_header; [|vm_compute; split; [lia|repeat constructor; discriminate]]). apply er_new.
Qed.
Example c84_ex_hyps : ev_valid ex_g 6 ∧ ev_valid ex_g 10 ∧ length (e_nodes ex_g) = 11.
Proof. repeat split; vm_compute; repeat constructor. Qed.

(** The value table, computed; outermost z, then y, then x *)
Fixpoint ev_eval (n : nat) (m : evm) (rho : nat → nat) (v : Z) (f : nat) : option (option Z) :=
  match n with
  | O => None
  | S n =>
      match e_nodes m !! f with
      | Some EInfinity => Some None
      | Some EOmega => Some (Some v)
      | Some (ENt h es) =>
          hd ← e_headers m !! h;
          '(w, c) ← es !! rho (h_level hd);
          ev_eval n m rho (v + w)%Z c
      | None => None
      end
  end.
Lemma ev_eval_sound n : ∀ m rho v f r, ev_eval n m rho v f = Some r → edge_value m rho v f r.
Proof.
  induction n as [|n IH]; intros m rho v f r; cbn; [done|]. destruct (e_nodes m !! f) as [[h es| |]|] eqn:Hn; [| | |done].
  - destruct (e_headers m !! h) as [hd|] eqn:Hh; cbn; [|done]. destruct (es !! _) as [[w c]|] eqn:Hi; cbn; [|done].
    intros H%IH. by eapply ev_nt.
  - intros [= <-]. by apply ev_om.
  - intros [= <-]. by apply ev_inf.
Qed.
Definition ex_rhos : list (nat → nat) :=
  flat_map (λ z, flat_map (λ y, map (λ x l, match l with 0 => x | 1 => y | _ => z end) [0; 1]) [0; 1]) [0; 1; 2].
Definition ex_table (r : option (evm * evedge)) : list (option (option Z)) :=
  match r with Some (m, e) => map (λ rho, ev_eval 4 m rho e.1 e.2) ex_rhos | None => [] end.
Definition fin (z : Z) : option (option Z) := Some (Some z).
Definition inf : option (option Z) := Some None.
Example c84_ex_f : ex_table (Some (ex_g, (0%Z, 6))) =
  [fin 0; inf; fin 2; inf;  fin 2; inf; inf; fin 1;  fin 3; inf; inf; fin 2].
Proof. vm_compute. reflexivity. Qed.
Example c84_ex_g : ex_table (Some (ex_g, (0%Z, 10))) =
  [fin 0; fin 2; inf; inf;  fin 2; fin 4; inf; inf;  fin 1; fin 3; inf; fin 3].
Proof. vm_compute. reflexivity. Qed.
Example c84_ex_min : ex_table (ev_min ex_g 0 6 0 10) =
  [fin 0; fin 2; fin 2; inf;  fin 2; fin 4; inf; fin 1;  fin 1; fin 3; inf; fin 2].
Proof. vm_compute. reflexivity. Qed.
Example c84_ex_max : ex_table (ev_max ex_g 0 6 0 10) =
  [fin 0; inf; inf; inf;  fin 2; inf; inf; inf;  fin 3; inf; inf; fin 3].
Proof. vm_compute. reflexivity. Qed.
Example c84_ex_add : ex_table (ev_add ex_g 5 6 7 10) =
  [fin 12; inf; inf; inf;  fin 16; inf; inf; inf;  fin 16; inf; inf; fin 17].
Proof. vm_compute. reflexivity. Qed.
Example c84_ex_sub : ex_table (ev_sub ex_g 5 6 7 10) =
  [fin (-2); inf; inf; inf;  fin (-2); inf; inf; inf;  fin 0; inf; inf; fin (-3)].
Proof. vm_compute. reflexivity. Qed.

(** ** C85: create_node *)
Theorem c85_create_node m h es hd : ev_reachable m → ev_node_fits m h es → e_headers m !! h = Some hd →
  ∃ m' v r, ev_create_node m h es = Some (m', (v, r)) ∧ ev_reachable m' ∧ ev_valid m' r ∧
    e_headers m' = e_headers m ∧
    (∀ rho w id x, ev_valid m id → edge_value m' rho w id x ↔ edge_value m rho w id x) ∧
    length (e_nodes m') ≤ S (length (e_nodes m)) ∧
    ev_create_node m' h es = Some (m', (v, r)) ∧
    ∀ rho, ev_in_range m rho → ∃ w c, es !! rho (h_level hd) = Some (w, c) ∧
      ∀ x, edge_value m' rho v r x ↔ edge_value m rho w c x.
Proof. exact (ev_create_node_correct m h es hd). Qed.
Print Assumptions c85_create_node.
(** In [ex_h]: edges (3, omega), (5, omega) give the node with edges 0 and 2 and the value 3; equal edges give no
    node; edges that differ by a constant share the node. *)
Example c85_ex_hyps : ev_node_fits ex_h 0 [ed 3 0; ed 5 0].
Proof. vm_compute. split; [reflexivity|repeat (apply Forall_cons; split; [split; repeat constructor|]); constructor]. Qed.
Example c85_ex : option_map snd (ev_create_node ex_h 0 [ed 3 0; ed 5 0]) = Some (3%Z, 2) ∧
  option_map snd (ev_create_node ex_h 0 [ed 3 0; ed 3 0]) = Some (3%Z, 0) ∧
  option_map snd (ev_create_node (ex_node ex_h 0 [ed 3 0; ed 5 0]) 0 [ed (-1) 0; ed 1 0]) = Some ((-1)%Z, 2).
Proof. repeat split; vm_compute; reflexivity. Qed.

(** ** C86: an edge is determined by its function; proved without infinity *)
Theorem c86_unique_partial m v f w g : ev_reachable m → ev_distinct m → ev_valid m f → ev_valid m g →
  ev_finite m f → ev_finite m g →
  (∀ rho r, ev_in_range m rho → edge_value m rho v f r ↔ edge_value m rho w g r) → v = w ∧ f = g.
Proof. exact (ev_unique m v f w g). Qed.
Print Assumptions c86_unique_partial.
(** x + y computed as a sum of two one-variable diagrams, in both orders, is the same edge (0, 4) *)
Definition ex_xy : evm := ex_node (ex_node ex_h 0 [ed 0 0; ed 1 0]) 1 [ed 0 0; ed 1 0].
Example c86_ex : option_map snd (ev_add ex_xy 0 2 0 3) = Some (0%Z, 4) ∧
  (match ev_add ex_xy 0 2 0 3 with Some (m, _) => option_map snd (ev_add m 0 3 0 2) | None => None end) = Some (0%Z, 4) ∧
  ev_distinct ex_xy.
Proof.
  split; [vm_compute; reflexivity|]. split; [vm_compute; reflexivity|].
  unfold ev_distinct. vm_compute. repeat constructor; intros H; repeat (apply elem_of_cons in H as [H|H]; [discriminate|]); by apply elem_of_nil in H.
Qed.
Example c86_ex_finite : ev_finite ex_xy 3.
Proof.
  assert (H : ∀ id, ev_reaches ex_xy 3 id → id = 3 ∨ id = 0).
  { induction 1 as [|id h es e H IH Hn He]; [by left|]. destruct IH as [->| ->]; vm_compute in Hn; [|discriminate]. injection Hn as <- <-.
    repeat (apply elem_of_cons in He as [->|He]; [by right|]). by apply elem_of_nil in He. }
  intros [?|?]%H; discriminate.
Qed.

(** ** C86, general statement: false with infinity *)
Definition c86_statement : Prop := ∀ m v f w g, ev_reachable m → ev_distinct m → ev_valid m f → ev_valid m g →
  (∀ rho r, ev_in_range m rho → edge_value m rho v f r ↔ edge_value m rho w g r) → v = w ∧ f = g.

(** Adding the constant 1 to f(x) = (x = 0: 0, x = 1: infinity) *)
Definition ex_inf : evm := (ev_create_header ev_new 0 "x" 2).1.
Definition ex_inf1 : evm := default ev_new (fst <$> ev_create_node ex_inf 0 [(0%Z, ev_omega); (0%Z, ev_infinity)]).
Definition ex_inf2 : evm := default ev_new (fst <$> ev_add ex_inf1 1%Z ev_omega 0%Z 2).
Example c86_witness_edges : snd <$> ev_create_node ex_inf 0 [(0%Z, ev_omega); (0%Z, ev_infinity)] = Some (0%Z, 2) ∧
  snd <$> ev_add ex_inf1 1%Z ev_omega 0%Z 2 = Some (0%Z, 3).
Proof. split; vm_compute; reflexivity. Qed.
Lemma ex_inf2_reachable : ev_reachable ex_inf2.
Proof.
  assert (R0 : ev_reachable ex_inf).
  { apply er_header; [apply er_new|]. split; [lia|constructor]. }
  assert (R1 : ev_reachable ex_inf1).
  { eapply (er_node ex_inf 0 [(0%Z, ev_omega); (0%Z, ev_infinity)]); [exact R0| |reflexivity].
    split; [done|]. repeat constructor. }
  eapply (er_op ex_inf1 EAdd 1%Z ev_omega 0%Z 2); [exact R1|unfold ev_valid; vm_compute; repeat constructor..|reflexivity].
Qed.
Theorem c86_refuted : ∃ m v f w g, ev_reachable m ∧ ev_distinct m ∧ ev_valid m f ∧ ev_valid m g ∧
  (∀ rho r, ev_in_range m rho → edge_value m rho v f r ↔ edge_value m rho w g r) ∧ (v, f) ≠ (w, g).
Proof.
  exists ex_inf2, 1%Z, 2, 0%Z, 3. split; [exact ex_inf2_reachable|].
  split; [apply NoDup_singleton|]. split; [unfold ev_valid; vm_compute; repeat constructor|]. split; [unfold ev_valid; vm_compute; repeat constructor|].
  split; [|done]. intros rho r Hr. specialize (Hr (Header 0 0 "x" 2) (elem_of_list_here _ _)). cbn in Hr.
  assert (N2 : e_nodes ex_inf2 !! 2 = Some (ENt 0 [(0%Z, 0); (0%Z, 1)])) by reflexivity.
  assert (N3 : e_nodes ex_inf2 !! 3 = Some (ENt 0 [(1%Z, 0); (0%Z, 1)])) by reflexivity.
  assert (H0 : e_headers ex_inf2 !! 0 = Some (Header 0 0 "x" 2)) by reflexivity.
  assert (Hr' : rho 0 = 0 ∨ rho 0 = 1) by lia.
  split; intros Hv; inversion Hv; simplify_eq; destruct Hr' as [E|E]; cbn in *; rewrite E in *; cbn in *; simplify_eq.
  - eapply ev_nt; [exact N3|exact H0|cbn; by rewrite E|done].
  - eapply ev_nt; [exact N3|exact H0|cbn; by rewrite E|].
    match goal with H : edge_value _ _ _ 1 _ |- _ => inversion H; simplify_eq end. by apply ev_inf.
  - eapply ev_nt; [exact N2|exact H0|cbn; by rewrite E|done].
  - eapply ev_nt; [exact N2|exact H0|cbn; by rewrite E|].
    match goal with H : edge_value _ _ _ 1 _ |- _ => inversion H; simplify_eq end. by apply ev_inf.
Qed.
Print Assumptions c86_refuted.
Lemma c86_not_statement : ¬ c86_statement.
Proof.
  intros H. destruct c86_refuted as (m & v & f & w & g & H1 & H2 & H3 & H4 & H5 & H6). apply H6.
  destruct (H m v f w g H1 H2 H3 H4 H5) as [-> ->]. done.
Qed.
