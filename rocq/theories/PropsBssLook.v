(** Properties C59, C60: what the methods of a BddNode tell about its function. *)
From Coq Require Import Ring_theory ZArith.
From stdpp Require Import strings.
From Verif Require Import Prelude ComputeCache Arena Bdd BssAlg BssMgr SpecBdd SpecBss SpecBssMgr BssLook SpecBssLook BssLookProofs BssLookMain BssMgrMain PropsBssMgr.

(** ** C59 *)
(** is_zero and is_one decide whether the function is constantly false, constantly true; is_undet never holds. *)
Theorem c59_constants w H f F : bss_held w H → (f, F) ∈ H →
  ∃ z o, w_is_zero w f = Some z ∧ w_is_one w f = Some o ∧ w_is_undet w f = Some false ∧
    (z = true ↔ ∀ e, F e = false) ∧ (o = true ↔ ∀ e, F e = true).
Proof. exact (held_constants w H f F). Qed.
Print Assumptions c59_constants.

(** get_level and get_label give the variable the function depends on that is last in the order, and nothing
    exactly for a constant; get_header gives the same number as get_level. *)
Theorem c59_top w H f F names : bss_held w H → (f, F) ∈ H → w_varorder w = Some names →
  (∀ l, w_level w f = Some l ↔ ∃ x, top_var names F l x) ∧
  (∀ x, w_label w f = Some x ↔ ∃ l, top_var names F l x) ∧
  (w_level w f = None ↔ constant F) ∧ (w_label w f = None ↔ constant F) ∧ w_header w f = w_level w f.
Proof. exact (held_top w H f F names). Qed.
Print Assumptions c59_top.

(** A function depends on declared variables only. *)
Theorem c59_declared w H f F names x : bss_held w H → (f, F) ∈ H → w_varorder w = Some names → needs F x → x ∈ names.
Proof. exact (held_needs w H f F names x). Qed.
Print Assumptions c59_declared.

(** get_children gives the two cofactors by the top variable, which differ; creating a node from the header
    and the children gives the handle back. *)
Theorem c59_children w H f F : bss_held w H → (f, F) ∈ H →
  (constant F → w_children w f = Some (w, None)) ∧
  ∀ x, w_label w f = Some x → ∃ w' f0 f1, w_children w f = Some (w', Some (f0, f1)) ∧ f0 ≠ f1 ∧
    bss_held w' ((f0, λ e, F (env_set e x false)) :: (f1, λ e, F (env_set e x true)) :: H) ∧
    ∃ h w'', w_header w f = Some h ∧ w_create_node w' h f0 f1 = Some (w'', f).
Proof. exact (held_children w H f F). Qed.
Print Assumptions c59_children.

(** eq decides equality of the functions *)
Theorem c59_eq w H f F g G : bss_held w H → (f, F) ∈ H → (g, G) ∈ H → w_eq f g = true ↔ ∀ e, F e = G e.
Proof. exact (λ Hh Hf Hg, iff_trans (Nat.eqb_eq f g) (held_eq w H f F g G Hh Hf Hg)). Qed.
Print Assumptions c59_eq.

(** f = (x & y) | z, g = f ^ x: the order is x, y, z *)
Example c59_ex : (r ← ex_w; let '(w, f, g) := r in '(w, z) ← w_xor w f f;
    Some (w_level w f, w_label w f, w_header w f, (w_is_zero w f, w_is_one w f), (w_is_zero w z, w_level w z),
          (r ← w_children w f; let '(w', c) := r in '(f0, f1) ← c; '(w'', f') ← w_create_node w' 2 f0 f1; Some (f0, f1, w_eq f f')))) =
  Some (Some 2, Some "z"%string, Some 2, (Some false, Some false), (Some true, None), Some (6, 1, true)).
Proof. vm_compute. done. Qed.
Example c59_ex_needs : top_var ["x"; "y"; "z"]%string (λ e : env, (e "x" && e "y") || e "z")%string 2 "z".
Proof.
  unfold top_var. sp; [done|exists (λ _, false); by vm_compute|]. intros l' y Hl _.
  apply lookup_lt_Some in Hl. cbn in Hl. lia.
Qed.

(** ** C60 *)
(** bdd_count counts the assignments to the variables up to the top one whose value is selected by [ss]. *)
Theorem c60_count w H f F names ss n L : bss_held w H → (f, F) ∈ H → w_varorder w = Some names →
  n = match w_level w f with Some l => S l | None => 0 end →
  NoDup L → (∀ v, v ∈ L ↔ length v = n ∧ F (vec_env names v) ∈ ss) → w_count w ss f = Some (N.of_nat (length L)).
Proof. exact (λ Hh Hf Hn, held_count w H f F names Hh Hf Hn ss n L). Qed.
Print Assumptions c60_count.

(** bdd_extract lists these assignments, each once, as literals. *)
Theorem c60_extract w H f F names (ss : list bool) n : bss_held w H → (f, F) ∈ H → w_varorder w = Some names →
  n = match w_level w f with Some l => S l | None => 0 end →
  ∃ L k0, NoDup L ∧ (∀ v, v ∈ L ↔ length v = n ∧ F (vec_env names v) ∈ ss) ∧
    (∀ fuel, k0 ≤ fuel → w_extract fuel w ss f = Some (render names <$> L)) ∧
    w_count w ss f = Some (N.of_nat (length L)).
Proof. exact (λ Hh Hf Hn, held_extract w H f F names Hh Hf Hn ss n). Qed.
Print Assumptions c60_extract.

(** prob is the total weight of the assignments, to all variables, whose value is selected by [ss]. *)
Theorem c60_prob {R : Type} (rO rI : R) (radd rmul rsub : R → R → R) (ropp : R → R) :
  ring_theory rO rI radd rmul rsub ropp eq →
  ∀ w H f F names pv ss L, bss_held w H → (f, F) ∈ H → w_varorder w = Some names →
  NoDup L → (∀ v, v ∈ L ↔ length v = length names ∧ F (vec_env names v) ∈ ss) →
  w_prob rO rI radd rmul rsub w pv ss f = Some (ring_sum rO radd (weight rO rI rmul rsub pv names <$> L)).
Proof.
  exact (λ Rth w H f F names pv ss L Hh Hf Hn, held_prob w H f F names Hh Hf Hn rO rI radd rmul rsub ropp Rth pv ss L).
Qed.
Print Assumptions c60_prob.

(** bmeas gives, for exactly the variables the function depends on, the difference of the two conditional
    probabilities; for every other variable that difference is zero. *)
Theorem c60_bmeas {R : Type} (rO rI : R) (radd rmul rsub : R → R → R) (ropp : R → R) :
  ring_theory rO rI radd rmul rsub ropp eq →
  ∀ w H f F pv ss, bss_held w H → (f, F) ∈ H →
  ∃ g, w_bmeas rO rI radd rmul rsub w pv ss f = Some g ∧
    (∀ x, is_Some (g !! x) ↔ needs F x) ∧
    ∀ x, ∃ p1 p0, w_prob rO rI radd rmul rsub w (<[x := rI]> pv) ss f = Some p1 ∧
      w_prob rO rI radd rmul rsub w (<[x := rO]> pv) ss f = Some p0 ∧ default rO (g !! x) = rsub p1 p0.
Proof.
  exact (λ Rth w H f F pv ss Hh Hf, let '(ex_intro _ names (conj Hn _)) := held_order w H Hh in
    held_bmeas w H f F names Hh Hf Hn rO rI radd rmul rsub ropp Rth pv ss).
Qed.
Print Assumptions c60_bmeas.

(** size counts the nodes, terminals and edges of the diagram. *)
Theorem c60_size w H f F ln lt : bss_held w H → (f, F) ∈ H →
  NoDup ln → (∀ id, id ∈ ln ↔ bdd_reaches (w_bdd w) [f] id ∧ ∃ h cs, ar_nodes (b_ar (w_bdd w)) !! id = Some (NT h cs)) →
  NoDup lt → (∀ id, id ∈ lt ↔ bdd_reaches (w_bdd w) [f] id ∧ ∃ t, ar_nodes (b_ar (w_bdd w)) !! id = Some (Term t)) →
  w_size w f = Some (N.of_nat (length ln), N.of_nat (length lt), (2 * N.of_nat (length ln))%N).
Proof. exact (λ Hh Hf, held_size w H f F Hh Hf ln lt). Qed.
Print Assumptions c60_size.

(** [g] = ((x & y) | z) ^ x with weights 2, 3, 5 in the integers *)
Example c60_ex : (r ← ex_w; let '(w, f, g) := r in
    let pv := list_to_map [("x", 2); ("y", 3); ("z", 5)]%string%Z : gmap string Z in
    p ← w_prob 0%Z 1%Z Z.add Z.mul Z.sub w pv [true] g;
    b ← w_bmeas 0%Z 1%Z Z.add Z.mul Z.sub w pv [true] f;
    Some (p, map_to_list b, w_count w [true] f, w_size w f)) =
  Some (11%Z, [("x", -12); ("z", -5); ("y", -8)]%string%Z, Some 5%N, Some (3, 2, 6)%N).
Proof. vm_compute. done. Qed.
