(** Property C64: the minimal paths, or the minimal cuts, of a system determine it. *)
From stdpp Require Import strings.
From Verif Require Import Prelude ComputeCache Arena Bdd BssAlg BssMgr SpecBdd SpecBssMgr SpecBssLook Zdd ZddAlg SpecZdd ZddMgr SpecZddMgr
  BssJoint ZddMgrMain Cover PropsZddMgr.

(** The sets listed by extract on a minpath family: the system works exactly if all components of one of them
    work, and the components listed are exactly those the function depends on. *)
Theorem c64_paths s HB HZ f F s' z : bssm_held s HB HZ → (f, F) ∈ HB → s_minpath s f = Some (s', Some z) →
  ∃ L k0, (∀ fuel, k0 ≤ fuel → y_extract fuel (s_zdd s') [true] z = Some L) ∧
    (∀ e, F e = true ↔ ∃ l, l ∈ L ∧ ∀ x, x ∈ l → e x = true) ∧ (∀ x, needs F x ↔ ∃ l, l ∈ L ∧ x ∈ l).
Proof. exact (joint_paths s HB HZ f F s' z). Qed.
Print Assumptions c64_paths.

(** The sets listed on a mincut family: the system fails exactly if all components of one of them fail. *)
Theorem c64_cuts s HB HZ f F s' z : bssm_held s HB HZ → (f, F) ∈ HB → s_mincut s f = Some (s', Some z) →
  ∃ L k0, (∀ fuel, k0 ≤ fuel → y_extract fuel (s_zdd s') [true] z = Some L) ∧
    (∀ e, F e = false ↔ ∃ l, l ∈ L ∧ ∀ x, x ∈ l → e x = false) ∧ (∀ x, needs F x ↔ ∃ l, l ∈ L ∧ x ∈ l).
Proof. exact (joint_cuts s HB HZ f F s' z). Qed.
Print Assumptions c64_cuts.

(** (x & y) | z: [c53_ex_run] shows the lists; under x = z = false the system fails, by the cut {x, z} *)
Example c64_ex : (λ r : bssmgr * option nat * option nat * option nat, let '(s, p, c, q) := r in
    let e := λ x, negb (String.eqb x "x" || String.eqb x "z")%string in
    (existsb (forallb e) <$> (p ≫= y_extract 100 (s_zdd s) [true]),
     existsb (forallb (λ x, negb (e x))) <$> (c ≫= y_extract 100 (s_zdd s) [true]))) <$> ex_s
  = Some (Some false, Some true).
Proof. vm_compute. done. Qed.
