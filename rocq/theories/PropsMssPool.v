(** Property C102: minpath and mincut of an MssMgr on nodes of other managers. *)
From stdpp Require Import strings.
From Verif Require Import Prelude ComputeCache Arena Bdd Mdd MtMdd MtMdd2 Zmdd ZmddAlg BssMgr MddMinsol MssConv MssMgr MssPool
  SpecBdd SpecMdd SpecZmdd SpecZmddAlg SpecBssMgr SpecMss SpecMssPool MssPoolProofs PropsMss PropsMssSol.

(** ** C102 *)
(** A node of a manager that lists the same variables: the call does not panic, returns None exactly for functions that are not
    monotone, and otherwise a family from which extract lists, each once, the minimal vectors of the chosen levels. *)
Theorem c102_minpath I P s H Q i w HW x F vars phi : mpool_held I P s H Q → P !! i = Some (w, HW) → (x, Some F) ∈ HW →
  g_varorder w = Some vars → g_varorder (s_m s) = Some vars → is_phi vars F phi →
  ∃ s' m r, s_sol_of I false s (g_mm w) x = Some (s', m, r) ∧ (r = None ↔ ¬ monotone vars phi) ∧
    ∀ p, r = Some p →
      mpool_held I (<[i := (with_mm w m, HW)]> P) s' H ((p, Some (extremal false vars phi)) :: Q) ∧
      ∀ ss, ∃ L k, NoDup L ∧
        (∀ M, M ∈ L ↔ ∃ v, v ∈ ss ∧ ∃ e, minimal vars (λ e, phi e = v) e ∧ M = dense vars e) ∧
        (∀ fuel, k ≤ fuel → zm_extract fuel (q_z (s_z s')) ss p = Some L) ∧
        zm_count (q_z (s_z s')) ss (zn_id p) = Some (N.of_nat (length L)).
Proof. exact (mpool_sol I false P s H Q i w HW x F vars phi). Qed.
Print Assumptions c102_minpath.
Theorem c102_mincut I P s H Q i w HW x F vars phi : mpool_held I P s H Q → P !! i = Some (w, HW) → (x, Some F) ∈ HW →
  g_varorder w = Some vars → g_varorder (s_m s) = Some vars → is_phi vars F phi →
  ∃ s' m r, s_sol_of I true s (g_mm w) x = Some (s', m, r) ∧ (r = None ↔ ¬ monotone vars phi) ∧
    ∀ p, r = Some p →
      mpool_held I (<[i := (with_mm w m, HW)]> P) s' H ((p, Some (extremal true vars phi)) :: Q) ∧
      ∀ ss, ∃ L k, NoDup L ∧
        (∀ M, M ∈ L ↔ ∃ v, v ∈ ss ∧ ∃ e, maximal vars (λ e, phi e = v) e ∧ M = dense vars e) ∧
        (∀ fuel, k ≤ fuel → zm_extract fuel (q_z (s_z s')) ss p = Some L) ∧
        zm_count (q_z (s_z s')) ss (zn_id p) = Some (N.of_nat (length L)).
Proof. exact (mpool_sol I true P s H Q i w HW x F vars phi). Qed.
Print Assumptions c102_mincut.

(** Families, wherever they came from, list the same vectors after any further history, in either reading. *)
Theorem c102_family I P s H Q p phi ss : mpool_held I P s H Q → (p, Some (extremal (zn_rev p) (zn_vars p) phi)) ∈ Q →
  ∃ L k, NoDup L ∧ (∀ M, M ∈ L ↔ ∃ v, v ∈ ss ∧ lists (zn_rev p) (zn_vars p) phi v M) ∧
    (∀ fuel, k ≤ fuel → zm_extract fuel (q_z (s_z s)) ss p = Some L) ∧
    zm_count (q_z (s_z s)) ss (zn_id p) = Some (N.of_nat (length L)).
Proof. exact (mpool_lists I P s H Q p phi ss). Qed.
Print Assumptions c102_family.
Theorem c102_level I P s H Q p phi v : mpool_held I P s H Q → (p, Some (extremal (zn_rev p) (zn_vars p) phi)) ∈ Q →
  ∃ L k, NoDup L ∧
    (∀ M, M ∈ L ↔ ∃ e, M = dense (zn_vars p) e ∧
       if zn_rev p then maximal (zn_vars p) (λ e, phi e <= v)%Z e else minimal (zn_vars p) (λ e, v <= phi e)%Z e) ∧
    ∀ fuel, k ≤ fuel → zm_extract_level fuel (q_z (s_z s)) v p = Some L.
Proof. exact (mpool_levels I P s H Q p phi v). Qed.
Print Assumptions c102_level.

(** Two path families, or two cut families, over the same variables may be combined even if they came from different managers:
    intersect and setdiff list the vectors that are (are not) also listed by the other at the same level. *)
Theorem c102_intersect I P s H Q p q phi psi ss : mpool_held I P s H Q → zn_rev q = zn_rev p → zn_vars q = zn_vars p →
  (p, Some (extremal (zn_rev p) (zn_vars p) phi)) ∈ Q → (q, Some (extremal (zn_rev q) (zn_vars q) psi)) ∈ Q →
  ∃ z' r, q_intersect (s_z s) p q = Some (z', r) ∧ ∃ L k, NoDup L ∧
    (∀ M, M ∈ L ↔ ∃ v, v ∈ ss ∧ lists (zn_rev p) (zn_vars p) phi v M ∧ lists (zn_rev p) (zn_vars p) psi v M) ∧
    (∀ fuel, k ≤ fuel → zm_extract fuel (q_z z') ss r = Some L) ∧
    zm_count (q_z z') ss (zn_id r) = Some (N.of_nat (length L)).
Proof. exact (mpool_bin I P s H Q p q phi psi false ss). Qed.
Print Assumptions c102_intersect.
Theorem c102_setdiff I P s H Q p q phi psi ss : mpool_held I P s H Q → zn_rev q = zn_rev p → zn_vars q = zn_vars p →
  (p, Some (extremal (zn_rev p) (zn_vars p) phi)) ∈ Q → (q, Some (extremal (zn_rev q) (zn_vars q) psi)) ∈ Q →
  ∃ z' r, q_setdiff (s_z s) p q = Some (z', r) ∧ ∃ L k, NoDup L ∧
    (∀ M, M ∈ L ↔ ∃ v, v ∈ ss ∧ lists (zn_rev p) (zn_vars p) phi v M ∧ ¬ lists (zn_rev p) (zn_vars p) psi v M) ∧
    (∀ fuel, k ≤ fuel → zm_extract fuel (q_z z') ss r = Some L) ∧
    zm_count (q_z z') ss (zn_id r) = Some (N.of_nat (length L)).
Proof. exact (mpool_bin I P s H Q p q phi psi true ss). Qed.
Print Assumptions c102_setdiff.

(** Handles of the other managers, and of the MssMgr itself, keep their functions. *)
Theorem c102_handles I P s H Q i w HW x F : mpool_held I P s H Q → P !! i = Some (w, HW) → (x, Some F) ∈ HW →
  mm_valid (g_mm w) x ∧ ∀ e, mrange (g_mm w) e → mvalue (g_mm w) e x (F e).
Proof. exact (mpool_value I P s H Q i w HW x F). Qed.
Print Assumptions c102_handles.
Theorem c102_handles_own I P s H Q x F : mpool_held I P s H Q → (x, Some F) ∈ H →
  mm_valid (g_mm (s_m s)) x ∧ ∀ e, mrange (g_mm (s_m s)) e → mvalue (g_mm (s_m s)) e x (F e).
Proof. exact (mpool_value_own I P s H Q x F). Qed.
Print Assumptions c102_handles_own.

(** A node of the MssMgr's own manager: the same result as the call of C36 and C37, which is the same code. *)
Theorem c102_own I rev s H Q x F : mss_held I s H Q → (x, Some F) ∈ H →
  (if rev : bool then s_mincut I s x else s_minpath I s x) =
  ('((s', m), r) ← s_sol_of I rev s (g_mm (s_m s)) x; Some (Mss (with_mm (s_m s) m) (s_z s'), r)).
Proof. intros Hh Hx. rewrite <- (sol_of_own I rev s H Q x F Hh Hx). by destruct rev. Qed.
Print Assumptions c102_own.

(** ** Examples *)
(** phi = x over x : 3 in another manager; the MssMgr has the forest of [own] *)
Definition ex_src : option (mmgr * mnode) := g_defvar g_new "x" 3.
Definition ex_of (own : mmgr) (rev : bool) : option (mss * zmnode) :=
  '(w, x) ← ex_src; '(s, _, r) ← s_sol_of i32_checked rev (Mss own q_new) (g_mm w) x; p ← r; Some (s, p).
Definition ex_phi (e : menv) : Z := Z.of_nat (e "x"%string).
Notation ex_F := (λ e : menv, VI (VVal (Z.of_nat (e "x"%string)))).
Example c102_ex : ('(own, _) ← g_defvar g_new "x" 3; '(s, p) ← ex_of own false; show (zm_extract 100 (q_z (s_z s)) [0%Z; 2%Z] p))
  = Some [[("x", 0)]; [("x", 2)]]%string.
Proof. vm_compute. done. Qed.
Lemma ex_src_held own HO : mss_held i32_checked (Mss own q_new) HO [] → ∀ w x, ex_src = Some (w, x) →
  mpool_held i32_checked [(w, [(x, Some ex_F)])] (Mss own q_new) HO [].
Proof.
  intros Hown w x Hsrc.
  assert (Hgen : ∀ s H Q, mss_held i32_checked s H Q → mpool_held i32_checked [] s H Q).
  { induction 1 as [|s H Q s' H' Q' _ IH Hst]; [apply mp_new|]. by eapply mp_own. }
  pose proof (mp_add _ _ _ _ _ (Hgen _ _ _ Hown)) as Ha.
  exact (mp_src _ _ _ _ _ 0 _ _ _ _ Ha eq_refl (ds_defvar _ _ _ _ _ _ _ Hsrc)).
Qed.
(** the hypotheses of [c102_minpath] and [c102_mincut] hold there *)
Example c102_ex_held : ∃ own HO w x, mpool_held i32_checked [(w, [(x, Some ex_F)])] (Mss own q_new) HO [] ∧
  g_varorder w = Some [("x", 3)]%string ∧ g_varorder own = Some [("x", 3)]%string ∧ is_phi [("x", 3)]%string ex_F ex_phi.
Proof.
  assert (Hvo : ('(w, x) ← g_defvar g_new "x" 3; g_varorder w) = Some [("x", 3)]%string) by (vm_compute; reflexivity).
  destruct (g_defvar g_new "x" 3) as [[w x]|] eqn:E1; [|done]. cbn [mbind option_bind] in Hvo.
  eexists w, _, w, x. split; [|done]. eapply ex_src_held; [|exact E1].
  exact (MssFam.ms_mdd i32_checked _ _ _ _ _ _ (ms_new _) (ds_defvar _ _ _ _ _ _ _ E1)).
Qed.

(** two families from two managers, as [c102_intersect] and [c102_setdiff] ask *)
Example c102_ex_two : ∃ P s H Q p q, mpool_held i32_checked P s H Q ∧ zn_rev q = zn_rev p ∧ zn_vars q = zn_vars p ∧
  (p, Some (extremal (zn_rev p) (zn_vars p) ex_phi)) ∈ Q ∧ (q, Some (extremal (zn_rev q) (zn_vars q) ex_phi)) ∈ Q.
Proof.
  assert (Hvo : ('(w, x) ← g_defvar g_new "x" 3; g_varorder w) = Some [("x", 3)]%string) by (vm_compute; reflexivity).
  destruct (g_defvar g_new "x" 3) as [[w x]|] eqn:E1; [|done]. cbn [mbind option_bind] in Hvo.
  pose proof (MssFam.ms_mdd i32_checked _ _ _ _ _ _ (ms_new _) (ds_defvar _ _ _ _ _ _ _ E1)) as H0.
  pose proof (mp_add _ _ _ _ _ (ex_src_held _ _ H0 _ _ E1)) as H1.
  pose proof (mp_src _ _ _ _ _ 1 _ _ _ _ H1 eq_refl (ds_defvar _ _ _ _ _ _ _ E1)) as H2. clear H0 H1 E1.
  set (vars := [("x", 3)]%string) in *.
  assert (Hphi : is_phi vars ex_F ex_phi) by done.
  assert (Hm : monotone vars ex_phi). { intros e e' _ _ Hb. specialize (Hb "x"%string ltac:(by left)). unfold ex_phi. lia. }
  destruct (c102_minpath _ _ _ _ _ 0 w _ x _ vars ex_phi H2 eq_refl (elem_of_list_here _ _) Hvo Hvo Hphi) as (s1 & m1 & r1 & E1 & Hn1 & Hr1).
  destruct (sol_of_frame _ _ _ _ _ _ _ _ E1) as [Hs1 Hf1]. cbn [s_m] in Hs1, Hf1.
  destruct r1 as [p|]; [|by destruct (proj1 Hn1 eq_refl)]. destruct (Hf1 p eq_refl) as [Hp1 Hp2]. destruct (Hr1 p eq_refl) as [H3 _].
  rewrite <- Hs1 in Hvo at 1.
  assert (Hw : g_varorder w = Some vars) by (by rewrite <- Hvo, Hs1).
  destruct (c102_minpath _ _ _ _ _ 1 w _ x _ vars ex_phi H3 eq_refl (elem_of_list_here _ _) Hw Hvo Hphi) as (s2 & m2 & r2 & E2 & Hn2 & Hr2).
  destruct (sol_of_frame _ _ _ _ _ _ _ _ E2) as [_ Hf2].
  destruct r2 as [q|]; [|by destruct (proj1 Hn2 eq_refl)]. destruct (Hf2 q eq_refl) as [Hq1 Hq2]. destruct (Hr2 q eq_refl) as [H4 _].
  assert (zn_vars p = vars) as Hpv by congruence. assert (zn_vars q = vars) as Hqv by congruence.
  eexists _, s2, _, _, p, q. split; [exact H4|]. rewrite Hp1, Hq1, Hpv, Hqv. sp; [done|done|right; left|left].
Qed.
(** x and x >= 2, from two managers: both list x = 0 at level 0, and differ at the other levels *)
Definition ex_two : option (mss * zmnode * zmnode) :=
  '(own, _) ← g_defvar g_new "x" 3;
  '(w1, x) ← g_defvar g_new "x" 3;
  '(w2, y) ← g_defvar g_new "x" 3; '(w2, c) ← g_value w2 2; '(w2, g) ← g_bin (mm_bin i32_checked (OCmp Gte)) w2 y c;
  '(s, _, p) ← s_sol_of i32_checked false (Mss own q_new) (g_mm w1) x;
  '(s, _, q) ← s_sol_of i32_checked false s (g_mm w2) g;
  p ← p; q ← q; Some (s, p, q).
Example c102_ex_intersect : ('(s, p, q) ← ex_two; '(z, r) ← q_intersect (s_z s) p q; show (zm_extract 100 (q_z z) [0%Z; 1%Z; 2%Z] r))
  = Some [[("x", 0)]]%string.
Proof. vm_compute. done. Qed.
Example c102_ex_setdiff : ('(s, p, q) ← ex_two; '(z, r) ← q_setdiff (s_z s) p q; show (zm_extract 100 (q_z z) [0%Z; 1%Z; 2%Z] r))
  = Some [[("x", 1)]; [("x", 2)]]%string.
Proof. vm_compute. done. Qed.

(** With other variables the listed vectors are not state vectors of the function.  For phi = x, asked of an MssMgr that declares
    no variable, level 0 lists the empty vector in place of x = 0: the list of components is taken from the MssMgr. *)
Theorem c102_dense_refuted : ∃ I P s H Q i w HW x F vars phi s' m p v L M k,
  mpool_held I P s H Q ∧ P !! i = Some (w, HW) ∧ (x, Some F) ∈ HW ∧ g_varorder w = Some vars ∧ is_phi vars F phi ∧
  is_Some (g_varorder (s_m s)) ∧
  s_sol_of I false s (g_mm w) x = Some (s', m, Some p) ∧ zm_extract k (q_z (s_z s')) [v] p = Some L ∧
  (∃ e, minimal vars (λ e, phi e = v) e ∧ M = dense vars e) ∧ M ∉ L ∧
  ∃ M', M' ∈ L ∧ ¬ ∃ e, M' = dense vars e.
Proof.
  assert (Hvo : ('(w, x) ← ex_src; g_varorder w) = Some [("x", 3)]%string) by (vm_compute; reflexivity).
  assert (Hr : ('(s, p) ← ex_of g_new false; zm_extract 100 (q_z (s_z s)) [0%Z] p) = Some [∅]) by (vm_compute; reflexivity).
  unfold ex_of in Hr. destruct ex_src as [[w x]|] eqn:E1; [|done]. cbn [mbind option_bind] in Hr, Hvo.
  destruct (s_sol_of i32_checked false (Mss g_new q_new) (g_mm w) x) as [[[s' m] [p|]]|] eqn:E2; [|done|done].
  cbn [mbind option_bind] in Hr.
  assert (Hne : ∀ e : menv, dense [("x", 3)]%string e ≠ ∅).
  { intros e He. assert (Hl : dense [("x", 3)]%string e !! "x"%string = Some (e "x"%string)) by (unfold dense; cbn; apply lookup_insert).
    rewrite He in Hl. done. }
  exists i32_checked, [(w, [(x, Some ex_F)])], (Mss g_new q_new), [], [], 0, w, [(x, Some ex_F)], x, ex_F, [("x", 3)]%string, ex_phi,
    s', m, p, 0%Z, [∅], (dense [("x", 3)]%string (λ _, 0)), 100.
  split; [exact (ex_src_held _ _ (ms_new _) _ _ E1)|]. split; [done|]. split; [by left|]. split; [done|]. split; [done|].
  split; [by exists []|]. split; [exact E2|]. split; [exact Hr|]. split; [|split].
  - exists (λ _, 0). split; [|done]. unfold minimal. sp; [|done|].
    + intros s n [= -> ->]%elem_of_list_singleton. lia.
    + intros e _ He _ s Hs. apply elem_of_list_singleton in Hs as ->. unfold ex_phi in He. cbn. lia.
  - intros Hin%elem_of_list_singleton. by eapply Hne.
  - exists ∅. split; [by left|]. intros [e He]. by eapply Hne.
Qed.
Print Assumptions c102_dense_refuted.
