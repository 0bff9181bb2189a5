(** Property C65: the minimal path vectors, or the minimal cut vectors, of a multi-state system determine it. *)
From Coq Require Import ZArith.
From stdpp Require Import strings.
From Verif Require Import Prelude ComputeCache Arena Bdd Mdd MtMdd MtMdd2 Zmdd ZmddAlg BssMgr MssMgr SpecBdd SpecMdd
  SpecZmdd SpecZmddAlg SpecBssMgr SpecMss SpecCover MssMgrProofs MssSolMgr MssFam MssExtract MCover PropsMss PropsMssSol.

(** The level is at least [v] exactly for the state vectors above one listed by extract_level(v) on the minpath family. *)
Theorem c65_paths I s H Q x F vars phi s' p v :
  mss_held I s H Q → (x, Some F) ∈ H → g_varorder (s_m s) = Some vars → is_phi vars F phi →
  s_minpath I s x = Some (s', Some p) →
  ∃ L k, (∀ fuel, k ≤ fuel → zm_extract_level fuel (q_z (s_z s')) v p = Some L) ∧
    ∀ e, states vars e → (v <= phi e)%Z ↔ ∃ M, M ∈ L ∧ ∀ y i, M !! y = Some i → i ≤ e y.
Proof. exact (λ Hh Hx Hv Hp, api_paths I s H Q x F vars phi Hh Hx Hv Hp s' p v). Qed.
Print Assumptions c65_paths.

(** The level is at most [v] exactly for the state vectors below one listed by extract_level(v) on the mincut family. *)
Theorem c65_cuts I s H Q x F vars phi s' p v :
  mss_held I s H Q → (x, Some F) ∈ H → g_varorder (s_m s) = Some vars → is_phi vars F phi →
  s_mincut I s x = Some (s', Some p) →
  ∃ L k, (∀ fuel, k ≤ fuel → zm_extract_level fuel (q_z (s_z s')) v p = Some L) ∧
    ∀ e, states vars e → (phi e <= v)%Z ↔ ∃ M, M ∈ L ∧ ∀ y i, M !! y = Some i → e y ≤ i.
Proof. exact (λ Hh Hx Hv Hp, api_cuts I s H Q x F vars phi Hh Hx Hv Hp s' p v). Qed.
Print Assumptions c65_cuts.

(** The function depends on exactly the variables listed above their first state at some level of the paths,
    and on exactly those listed below their last state at some level of the cuts. *)
Theorem c65_paths_needs I s H Q x F vars phi s' p y n :
  mss_held I s H Q → (x, Some F) ∈ H → g_varorder (s_m s) = Some vars → is_phi vars F phi →
  s_minpath I s x = Some (s', Some p) → (y, n) ∈ vars →
  phi_needs vars phi y ↔ ∃ v L k M i, (∀ fuel, k ≤ fuel → zm_extract_level fuel (q_z (s_z s')) v p = Some L) ∧
    M ∈ L ∧ M !! y = Some i ∧ 0 < i.
Proof. exact (λ Hh Hx Hv Hp, api_paths_needs I s H Q x F vars phi Hh Hx Hv Hp s' p y n). Qed.
Print Assumptions c65_paths_needs.
Theorem c65_cuts_needs I s H Q x F vars phi s' p y n :
  mss_held I s H Q → (x, Some F) ∈ H → g_varorder (s_m s) = Some vars → is_phi vars F phi →
  s_mincut I s x = Some (s', Some p) → (y, n) ∈ vars →
  phi_needs vars phi y ↔ ∃ v L k M i, (∀ fuel, k ≤ fuel → zm_extract_level fuel (q_z (s_z s')) v p = Some L) ∧
    M ∈ L ∧ M !! y = Some i ∧ S i < n.
Proof. exact (λ Hh Hx Hv Hp, api_cuts_needs I s H Q x F vars phi Hh Hx Hv Hp s' p y n). Qed.
Print Assumptions c65_cuts_needs.

(** x + y over x : 3, y : 2 ([c36_ex_held]): the lists at every level 0..3 put back together *)
Example c65_ex : ('(s, a, f) ← ex_s; '(s, r) ← s_minpath i32_checked s a; p ← r;
    l0 ← zm_extract_level 100 (q_z (s_z s)) 0 p; l1 ← zm_extract_level 100 (q_z (s_z s)) 1 p;
    l2 ← zm_extract_level 100 (q_z (s_z s)) 2 p; l3 ← zm_extract_level 100 (q_z (s_z s)) 3 p;
    let le (vx vy : nat) (M : gmap string nat) := (default 0 (M !! "x"%string) <=? vx) && (default 0 (M !! "y"%string) <=? vy) in
    Some (map (λ v : nat * nat, length (filter (λ L, existsb (le v.1 v.2) L = true) [l1; l2; l3])) [(0,0); (1,0); (2,0); (0,1); (1,1); (2,1)]))
  = Some [0; 1; 2; 1; 2; 3].
Proof. vm_compute. done. Qed.
Example c65_ex_needs : phi_needs [("x", 3); ("y", 2)]%string ex_add "y".
Proof.
  exists (λ _, 0), 0, 1. unfold ex_add, states, menv_set. sp; try (by vm_compute).
  all: intros s n [[= -> ->]|[[= -> ->]|[]%elem_of_nil]%elem_of_cons]%elem_of_cons; vm_compute; lia.
Qed.
