(** Properties C36, C37, C38, C51: minimal path and cut vectors of multi-state structure functions. *)
From stdpp Require Import strings.
From Verif Require Import Prelude ComputeCache Arena Bdd Mdd MtMdd MtMdd2 Zmdd ZmddAlg BssMgr MssMgr SpecBdd SpecMdd
  SpecZmdd SpecZmddAlg SpecBssMgr SpecMss MssMgrProofs MssSolMgr MssFam MssExtract PropsMss.

(** ** C36 *)
(** [get_varorder] lists the variables (C50: it does whenever each has at least two states).  minpath does not panic, returns
    None exactly for functions that are not monotone, and otherwise a family from which extract lists, each once, the
    minimal vectors of the chosen levels. *)
Theorem c36_minpath I s H Q x F vars phi :
  mss_held I s H Q → (x, Some F) ∈ H → g_varorder (s_m s) = Some vars → is_phi vars F phi →
  ∃ s' r, s_minpath I s x = Some (s', r) ∧ (r = None ↔ ¬ monotone vars phi) ∧
    ∀ p, r = Some p →
      mss_held I s' H ((p, Some (extremal false vars phi)) :: Q) ∧
      ∀ ss, ∃ L k, NoDup L ∧
        (∀ M, M ∈ L ↔ ∃ e, (∃ v, v ∈ ss ∧ minimal vars (λ e, phi e = v) e) ∧ M = dense vars e) ∧
        (∀ fuel, k ≤ fuel → zm_extract fuel (q_z (s_z s')) ss p = Some L) ∧
        zm_count (q_z (s_z s')) ss (zn_id p) = Some (N.of_nat (length L)).
Proof. exact (sol_extract I false s H Q x F vars phi). Qed.
Print Assumptions c36_minpath.

(** ** C37 *)
Theorem c37_mincut I s H Q x F vars phi :
  mss_held I s H Q → (x, Some F) ∈ H → g_varorder (s_m s) = Some vars → is_phi vars F phi →
  ∃ s' r, s_mincut I s x = Some (s', r) ∧ (r = None ↔ ¬ monotone vars phi) ∧
    ∀ p, r = Some p →
      mss_held I s' H ((p, Some (extremal true vars phi)) :: Q) ∧
      ∀ ss, ∃ L k, NoDup L ∧
        (∀ M, M ∈ L ↔ ∃ e, (∃ v, v ∈ ss ∧ maximal vars (λ e, phi e = v) e) ∧ M = dense vars e) ∧
        (∀ fuel, k ≤ fuel → zm_extract fuel (q_z (s_z s')) ss p = Some L) ∧
        zm_count (q_z (s_z s')) ss (zn_id p) = Some (N.of_nat (length L)).
Proof. exact (sol_extract I true s H Q x F vars phi). Qed.
Print Assumptions c37_mincut.

(** ** C38 *)
Theorem c38_path_level I s H Q x F vars phi s' p v :
  mss_held I s H Q → (x, Some F) ∈ H → g_varorder (s_m s) = Some vars → is_phi vars F phi →
  s_minpath I s x = Some (s', Some p) →
  ∃ L k, NoDup L ∧ (∀ M, M ∈ L ↔ ∃ e, minimal vars (λ e, v <= phi e)%Z e ∧ M = dense vars e) ∧
    ∀ fuel, k ≤ fuel → zm_extract_level fuel (q_z (s_z s')) v p = Some L.
Proof. exact (sol_level I false s H Q x F vars phi s' p v). Qed.
Print Assumptions c38_path_level.
Theorem c38_cut_level I s H Q x F vars phi s' p v :
  mss_held I s H Q → (x, Some F) ∈ H → g_varorder (s_m s) = Some vars → is_phi vars F phi →
  s_mincut I s x = Some (s', Some p) →
  ∃ L k, NoDup L ∧ (∀ M, M ∈ L ↔ ∃ e, maximal vars (λ e, phi e <= v)%Z e ∧ M = dense vars e) ∧
    ∀ fuel, k ≤ fuel → zm_extract_level fuel (q_z (s_z s')) v p = Some L.
Proof. exact (sol_level I true s H Q x F vars phi s' p v). Qed.
Print Assumptions c38_cut_level.

(** ** C51 *)
(** Handles and families share one history.  Handles keep their functions (C42 for the joint manager). *)
Theorem c51_handles I s H Q x F : mss_held I s H Q → (x, Some F) ∈ H →
  mm_valid (g_mm (s_m s)) x ∧ ∀ e, mrange (g_mm (s_m s)) e → mvalue (g_mm (s_m s)) e x (F e).
Proof. exact (mss_value I s H Q x F). Qed.
Print Assumptions c51_handles.

(** A family still held lists the same vectors after any further history, at any level and in either reading. *)
Theorem c51_family I s H Q p phi ss : mss_held I s H Q → (p, Some (extremal (zn_rev p) (zn_vars p) phi)) ∈ Q →
  ∃ L k, NoDup L ∧ (∀ M, M ∈ L ↔ ∃ v, v ∈ ss ∧ lists (zn_rev p) (zn_vars p) phi v M) ∧
    (∀ fuel, k ≤ fuel → zm_extract fuel (q_z (s_z s)) ss p = Some L) ∧
    zm_count (q_z (s_z s)) ss (zn_id p) = Some (N.of_nat (length L)).
Proof. exact (held_lists I s H Q p phi ss). Qed.
Print Assumptions c51_family.
Theorem c51_level I s H Q p phi v : mss_held I s H Q → (p, Some (extremal (zn_rev p) (zn_vars p) phi)) ∈ Q →
  ∃ L k, NoDup L ∧
    (∀ M, M ∈ L ↔ ∃ e, M = dense (zn_vars p) e ∧
       if zn_rev p then maximal (zn_vars p) (λ e, phi e <= v)%Z e else minimal (zn_vars p) (λ e, v <= phi e)%Z e) ∧
    ∀ fuel, k ≤ fuel → zm_extract_level fuel (q_z (s_z s)) v p = Some L.
Proof. exact (held_levels I s H Q p phi v). Qed.
Print Assumptions c51_level.

(** intersect and setdiff of two path families, or of two cut families, over the same variables do not panic and list the vectors
    that are (are not) also listed by the other at the same level *)
Theorem c51_intersect I s H Q p q phi psi ss : mss_held I s H Q → zn_rev q = zn_rev p → zn_vars q = zn_vars p →
  (p, Some (extremal (zn_rev p) (zn_vars p) phi)) ∈ Q → (q, Some (extremal (zn_rev q) (zn_vars q) psi)) ∈ Q →
  ∃ z' r, q_intersect (s_z s) p q = Some (z', r) ∧ ∃ L k, NoDup L ∧
    (∀ M, M ∈ L ↔ ∃ v, v ∈ ss ∧ lists (zn_rev p) (zn_vars p) phi v M ∧ lists (zn_rev p) (zn_vars p) psi v M) ∧
    (∀ fuel, k ≤ fuel → zm_extract fuel (q_z z') ss r = Some L) ∧
    zm_count (q_z z') ss (zn_id r) = Some (N.of_nat (length L)).
Proof. exact (held_bin I s H Q p q phi psi false ss). Qed.
Print Assumptions c51_intersect.
Theorem c51_setdiff I s H Q p q phi psi ss : mss_held I s H Q → zn_rev q = zn_rev p → zn_vars q = zn_vars p →
  (p, Some (extremal (zn_rev p) (zn_vars p) phi)) ∈ Q → (q, Some (extremal (zn_rev q) (zn_vars q) psi)) ∈ Q →
  ∃ z' r, q_setdiff (s_z s) p q = Some (z', r) ∧ ∃ L k, NoDup L ∧
    (∀ M, M ∈ L ↔ ∃ v, v ∈ ss ∧ lists (zn_rev p) (zn_vars p) phi v M ∧ ¬ lists (zn_rev p) (zn_vars p) psi v M) ∧
    (∀ fuel, k ≤ fuel → zm_extract fuel (q_z z') ss r = Some L) ∧
    zm_count (q_z z') ss (zn_id r) = Some (N.of_nat (length L)).
Proof. exact (held_bin I s H Q p q phi psi true ss). Qed.
Print Assumptions c51_setdiff.

(** ** Example history *)
(** phi = x + y over x : 3, y : 2, once as an integer and once as the boolean x + y >= 2 *)
Definition ex_s : option (mss * mnode * mnode) :=
  let w := g_set_threshold g_new 1 in
  '(w, x) ← g_defvar w "x" 3;
  '(w, y) ← g_defvar w "y" 2;
  '(w, a) ← g_bin (mm_bin i32_checked (OArith VAdd)) w x y;
  '(w, c) ← g_value w 2;
  '(w, f) ← g_bin (mm_bin i32_checked (OCmp Gte)) w a c;
  Some (Mss w q_new, a, f).
Example c36_ex_held s a f : ex_s = Some (s, a, f) → ∃ H, mss_held i32_checked s H [] ∧ g_varorder (s_m s) = Some [("x", 3); ("y", 2)]%string ∧
  (a, Some (λ e, VI (VVal (ex_add e)))) ∈ H ∧ (f, Some (λ e, VB (bool_decide (ex_add e >= 2)%Z))) ∈ H.
Proof.
  intros Hex.
  assert (Hvo : ('(s, _, _) ← ex_s; g_varorder (s_m s)) = Some [("x", 3); ("y", 2)]%string) by (vm_compute; reflexivity).
  assert (Hhd : (w ← '(w, x) ← g_defvar (g_set_threshold g_new 1) "x" 3; '(w, y) ← g_defvar w "y" 2; Some w;
     Some (map (λ hd, (h_label hd, h_edges hd)) (hdrs (g_mm w)))) = Some [("x", 3); ("y", 2)]%string) by (vm_compute; reflexivity).
  rewrite Hex in Hvo. cbn [mbind option_bind] in Hvo.
  unfold ex_s in Hex. pose proof (ms_mdd i32_checked _ _ _ _ _ _ (ms_new _) (ds_threshold _ _ _ 1)) as H0.
  revert Hex Hhd H0. generalize (g_set_threshold g_new 1). intros w0 Hex Hhd H0.
  destruct (g_defvar w0 "x" 3) as [[w1 x]|] eqn:E1; [|done]. cbn [mbind option_bind] in Hex, Hhd.
  pose proof (ms_mdd _ _ _ _ _ _ _ H0 (ds_defvar _ _ _ _ _ _ _ E1)) as H1.
  destruct (g_defvar w1 "y" 2) as [[w2 y]|] eqn:E2; [|done]. cbn [mbind option_bind] in Hex, Hhd. injection Hhd as Hhd.
  pose proof (ms_mdd _ _ _ _ _ _ _ H1 (ds_defvar _ _ _ _ _ _ _ E2)) as H2.
  destruct (g_bin (mm_bin i32_checked (OArith VAdd)) w2 x y) as [[w3 b]|] eqn:E3; [|done]. cbn [mbind option_bind] in Hex.
  assert (H3 : mss_held i32_checked (Mss w3 q_new) ((b, Some (λ e, VI (VVal (ex_add e)))) :: (y, Some ex_y) :: (x, Some ex_x) :: []) []).
  { eapply ms_mdd; [exact H2|]. eapply ds_bin; [| |exact E3| |done].
    - right. left.
    - left.
    - intros e He. destruct (vars_xy _ e Hhd He). apply val_add. unfold in_i32, i32_min, i32_max. lia. }
  destruct (g_value w3 2) as [[w4 c]|] eqn:E4; [|done]. cbn [mbind option_bind] in Hex.
  pose proof (ms_mdd _ _ _ _ _ _ _ H3 (ds_value _ _ _ _ _ _ E4)) as H4.
  destruct (g_bin (mm_bin i32_checked (OCmp Gte)) w4 b c) as [[w5 g]|] eqn:E5; [|done]. cbn [mbind option_bind] in Hex.
  assert (Mss w5 q_new = s ∧ b = a ∧ g = f) as (<- & <- & <-) by (by injection Hex as -> -> ->).
  eexists. sp; [|exact Hvo| |].
  - eapply ms_mdd; [exact H4|]. eapply (ds_bin _ (OCmp Gte) _ _ _ _ _ _ _ _ (Some (λ e, VB (bool_decide (ex_add e >= 2)%Z)))); [| |exact E5| |done].
    + right. left.
    + left.
    + intros e _. done.
  - right. right. left.
  - left.
Qed.
Definition show (o : option (list (gmap string nat))) : option (list (list (string * nat))) := map (λ M, map_to_list M) <$> o.
(** the integer function: paths of level 2 are (2,0) and (1,1); cuts of level 1 are (1,0) and (0,1) *)
Example c36_ex : ('(s, a, f) ← ex_s; '(s, r) ← s_minpath i32_checked s a; p ← r; show (zm_extract 100 (q_z (s_z s)) [2%Z] p))
  = Some [[("x", 2); ("y", 0)]; [("x", 1); ("y", 1)]]%string.
Proof. vm_compute. done. Qed.
Example c36_ex_bool : ('(s, a, f) ← ex_s; '(s, r) ← s_minpath i32_checked s f; p ← r; show (zm_extract 100 (q_z (s_z s)) [0%Z; 1%Z] p))
  = Some [[("x", 0); ("y", 0)]; [("x", 2); ("y", 0)]; [("x", 1); ("y", 1)]]%string.
Proof. vm_compute. done. Qed.
Example c37_ex : ('(s, a, f) ← ex_s; '(s, r) ← s_mincut i32_checked s a; p ← r; show (zm_extract 100 (q_z (s_z s)) [1%Z] p))
  = Some [[("x", 0); ("y", 1)]; [("x", 1); ("y", 0)]]%string.
Proof. vm_compute. done. Qed.
Example c38_ex : ('(s, a, f) ← ex_s; '(s, r) ← s_minpath i32_checked s a; p ← r; show (zm_extract_level 100 (q_z (s_z s)) 2 p))
  = Some [[("x", 2); ("y", 0)]; [("x", 1); ("y", 1)]]%string.
Proof. vm_compute. done. Qed.

(** The directions must agree: a path family records states, a cut family distances from the top, and intersect compares the
    records.  For phi = x over x : 3 both families list x = 0 at level 0, but their intersection does not. *)
Definition ex_mixed : option (mss * zmnode * zmnode) :=
  '(w, x) ← g_defvar g_new "x" 3;
  '(s, p) ← s_sol i32_checked false (Mss w q_new) x;
  '(s, q) ← s_sol i32_checked true s x;
  p ← p; q ← q; Some (s, p, q).
Theorem c51_mixed_refuted : ∃ I s H Q p q phi psi ss,
  mss_held I s H Q ∧ zn_vars q = zn_vars p ∧
  (p, Some (extremal (zn_rev p) (zn_vars p) phi)) ∈ Q ∧ (q, Some (extremal (zn_rev q) (zn_vars q) psi)) ∈ Q ∧
  ∃ z' r L M v k, q_intersect (s_z s) p q = Some (z', r) ∧ zm_extract k (q_z z') ss r = Some L ∧
    v ∈ ss ∧ lists (zn_rev p) (zn_vars p) phi v M ∧ lists (zn_rev q) (zn_vars q) psi v M ∧ M ∉ L.
Proof.
  assert (Hr : ('(s, p, q) ← ex_mixed; '(z', r) ← q_intersect (s_z s) p q; zm_extract 100 (q_z z') [0%Z] r) = Some []) by (vm_compute; reflexivity).
  assert (Hvo : ('(w, x) ← g_defvar g_new "x" 3; g_varorder w) = Some [("x", 3)]%string) by (vm_compute; reflexivity).
  unfold ex_mixed in Hr.
  destruct (g_defvar g_new "x" 3) as [[w x]|] eqn:E1; [|done]. cbn [mbind option_bind] in Hr, Hvo.
  pose proof (ms_mdd i32_checked _ _ _ _ _ _ (ms_new _) (ds_defvar _ _ _ _ _ _ _ E1)) as H1. clear E1.
  set (phi := λ e : menv, Z.of_nat (e "x"%string)). set (vars := [("x", 3)]%string) in *.
  assert (Hphi : is_phi vars (λ e, VI (VVal (Z.of_nat (e "x"%string)))) phi) by done.
  destruct (held_sol i32_checked false _ _ _ x _ vars phi H1 (elem_of_list_here _ _) Hvo Hphi) as (s1 & r1 & E2 & _ & Hr1).
  rewrite E2 in Hr. cbn [mbind option_bind] in Hr.
  assert (Hvo1 : g_varorder (s_m s1) = Some vars).
  { destruct (mss_held_ok _ _ _ _ H1) as [Hk Hq]. pose proof (s_sol_ok i32_checked false w q_new _ _ x _ Hk Hq (elem_of_list_here _ _)) as Hs.
    rewrite Hvo in Hs. destruct Hs as (w' & q' & r & E & _ & _ & Hv & _). rewrite E2 in E. apply (inj Some) in E.
    apply pair_equal_spec in E as [-> _]. exact Hv. }
  assert (∃ Q1, mss_held i32_checked s1 [(x, Some (λ e, VI (VVal (Z.of_nat (e "x"%string)))))] Q1 ∧
    ∀ p, r1 = Some p → zn_rev p = false ∧ zn_vars p = vars ∧ (p, Some (extremal false vars phi)) ∈ Q1) as (Q1 & H2 & Hp).
  { destruct r1 as [p|]; [|by exists []]. destruct Hr1 as (? & ? & ?). eexists. split; [done|]. intros p' [= <-]. sp; [done|done|left]. }
  clear Hr1 E2.
  destruct (held_sol i32_checked true _ _ _ x _ vars phi H2 (elem_of_list_here _ _) Hvo1 Hphi) as (s2 & r2 & E3 & _ & Hr2).
  rewrite E3 in Hr. cbn [mbind option_bind] in Hr. clear E3.
  destruct r1 as [p|]; [|done]. destruct r2 as [q|]; [|done]. cbn [mbind option_bind] in Hr.
  destruct (Hp p eq_refl) as (Hp1 & Hp2 & Hp3). destruct Hr2 as (Hq1 & Hq2 & Hh).
  exists i32_checked, s2, [(x, Some (λ e, VI (VVal (Z.of_nat (e "x"%string)))))], ((q, Some (extremal true vars phi)) :: Q1), p, q, phi, phi, [0%Z].
  rewrite Hp1, Hp2, Hq1, Hq2. sp; [exact Hh|done|by right|by left|].
  destruct (q_intersect (s_z s2) p q) as [[z' r]|]; [|done]. cbn [mbind option_bind] in Hr.
  exists z', r, [], (dense vars (λ _, 0)), 0%Z, 100. sp; [done|exact Hr|by left| | |by apply not_elem_of_nil].
  - exists (λ _, 0). split; [|done]. unfold minimal, maximal. sp; [|done|].
    + intros s n [= -> ->]%elem_of_list_singleton. lia.
    + intros e _ He _ s Hs. apply elem_of_list_singleton in Hs as ->. unfold phi in He. cbn. lia.
  - exists (λ _, 0). split; [|done]. unfold minimal, maximal. sp; [|done|].
    + intros s n [= -> ->]%elem_of_list_singleton. lia.
    + intros e _ He _ s Hs. apply elem_of_list_singleton in Hs as ->. unfold phi in He. cbn. lia.
Qed.
Print Assumptions c51_mixed_refuted.

(** With a single-state variable declared, minpath and mincut panic (get_varorder does, C50). *)
Theorem c36_single_state_refuted : ∃ I w H x F, mdd_held I w H ∧ (x, Some F) ∈ H ∧
  (∃ phi, ∀ e, mrange (g_mm w) e → score (F e) = Some (phi e)) ∧
  s_minpath I (Mss w q_new) x = None ∧ s_mincut I (Mss w q_new) x = None.
Proof.
  assert (Hr : ('(w, x) ← g_defvar g_new "x" 1;
      Some (match s_minpath i32_checked (Mss w q_new) x, s_mincut i32_checked (Mss w q_new) x with None, None => true | _, _ => false end))
    = Some true) by (vm_compute; reflexivity).
  destruct (g_defvar g_new "x" 1) as [[w x]|] eqn:E; [|done]. cbn [mbind option_bind] in Hr.
  set (F := λ e : menv, VI (VVal (Z.of_nat (e "x"%string)))).
  exists i32_checked, w, [(x, Some F)], x, F.
  assert (mdd_held i32_checked w [(x, Some F)]) as Hh by exact (dh_step _ _ _ _ _ (dh_new _) (ds_defvar _ _ _ _ _ _ _ E)).
  clear E. sp; [exact Hh|left|by exists (λ e, Z.of_nat (e "x"%string))|..];
    destruct (s_minpath i32_checked (Mss w q_new) x); [done| |done|];
    (destruct (s_mincut i32_checked (Mss w q_new) x); [done|done]).
Qed.
Print Assumptions c36_single_state_refuted.
(** a function that is not monotone: 2 - x *)
Example c36_ex_none : ('(w, x) ← g_defvar g_new "x" 3; '(w, c) ← g_value w 2; '(w, f) ← g_bin (mm_bin i32_checked (OArith VSub)) w c x;
    '(_, r) ← s_minpath i32_checked (Mss w q_new) f; '(_, r') ← s_mincut i32_checked (Mss w q_new) f; Some (r, r')) = Some (None, None).
Proof. vm_compute. done. Qed.
