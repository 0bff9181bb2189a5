(** Property C58: multi-state iterators keep their promise while the manager goes on working. *)
From stdpp Require Import strings.
From Verif Require Import Prelude ComputeCache Arena Bdd Mdd MtMdd MtMdd2 Zmdd ZmddAlg BssMgr MssMgr MssAlg
  SpecMdd SpecZmdd SpecZmddAlg SpecBss SpecMss SpecMssAlg Iter SpecIter MIter SpecMIter MIterProofs.

(** ** MddPath *)
(** At every moment of every history there is a list [L] of exactly the state vectors whose value is asked
    for, each once; what the iterator has yielded is a prefix of [L], [next] gives the following entry ([None]
    at the end) and never panics. [len] is the length of [L] for an integer-valued function that is not
    constant, and for a truth-valued one when every node is entered from one level only (C35). *)
Theorem c58_mdd I w H its r F : mdd_iter I w H its → r ∈ its → gr_fun r = Some F →
  let x := gi_node (gr_it r) in
  ∃ L, solutions (declared w) (scope w x) F (gi_ss (gr_it r)) L ∧
    gr_out r `prefix_of` L ∧
    (∃ k0, ∀ k, k0 ≤ k → ∃ it', giter_next k w (gr_it r) = Some (it', L !! length (gr_out r))) ∧
    (g_level w x ≠ None → match x with NVal _ => True | NBool f => one_entry (d_ar (mm_b (g_mm w))) f end →
      giter_len w (gr_it r) = Some (N.of_nat (length L))).
Proof. exact (λ Hi, giters_exact I w H its r F (mdd_iter_ok I w H its Hi)). Qed.
Print Assumptions c58_mdd.
(** Starting an iterator on a held handle never panics, and iterators do not disturb the handles. *)
Theorem c58_mdd_start I w H its x F ss : mdd_iter I w H its → (x, F) ∈ H → is_Some (giter_start w x ss).
Proof. exact (mdd_iter_start I w H its x F ss). Qed.
Print Assumptions c58_mdd_start.
Theorem c58_mdd_handles I w H its x F : mdd_iter I w H its → (x, Some F) ∈ H →
  ∀ e, mrange (g_mm w) e → mvalue (g_mm w) e x (F e).
Proof. exact (mdd_iter_handles I w H its x F). Qed.
Print Assumptions c58_mdd_handles.

(** ** both kinds in an MssMgr *)
Theorem c58_mss_mdd I s H Q IG IQ r F : mss_iter I s H Q IG IQ → r ∈ IG → gr_fun r = Some F →
  let w := s_m s in
  let x := gi_node (gr_it r) in
  ∃ L, solutions (declared w) (scope w x) F (gi_ss (gr_it r)) L ∧
    gr_out r `prefix_of` L ∧
    (∃ k0, ∀ k, k0 ≤ k → ∃ it', giter_next k w (gr_it r) = Some (it', L !! length (gr_out r))) ∧
    (g_level w x ≠ None → match x with NVal _ => True | NBool f => one_entry (d_ar (mm_b (g_mm w))) f end →
      giter_len w (gr_it r) = Some (N.of_nat (length L))).
Proof. exact (λ Hi, giters_exact I (s_m s) H IG r F (proj1 (mss_iter_ok I s H Q IG IQ Hi))). Qed.
Print Assumptions c58_mss_mdd.
(** An iterator over any family yields the recorded vectors with the labels asked for, each once. *)
Theorem c58_mss_family I s H Q IG IQ r R : mss_iter I s H Q IG IQ → r ∈ IQ → qr_fam r = Some R →
  let p := qi_node (qr_it r) in
  ∃ L, NoDup L ∧
    (∀ M, M ∈ L ↔ ∃ y v, length y = length (zn_vars p) ∧ v ∈ qi_ss (qr_it r) ∧ R (vec y) v ∧ M = report (zn_rev p) (zn_vars p) y) ∧
    qr_out r `prefix_of` L ∧
    ∃ k0, ∀ k, k0 ≤ k → ∃ it', qiter_next k (s_z s) (qr_it r) = Some (it', L !! length (qr_out r)).
Proof.
  exact (λ Hi Hr HR, match qiters_exact _ _ _ _ r R (proj2 (mss_iter_ok I s H Q IG IQ Hi)) Hr HR with
    | conj _ (ex_intro _ L (conj (conj H1 H2) (conj H3 H4))) => ex_intro _ L (conj H1 (conj H2 (conj H3 H4))) end).
Qed.
Print Assumptions c58_mss_family.
(** Over a path (cut) family of [phi] it yields the minimal (maximal) vectors of the levels asked for. *)
Theorem c58_mss_extremal I s H Q IG IQ r phi : mss_iter I s H Q IG IQ → r ∈ IQ →
  let p := qi_node (qr_it r) in
  qr_fam r = Some (extremal (zn_rev p) (zn_vars p) phi) →
  ∃ L, NoDup L ∧ (∀ M, M ∈ L ↔ ∃ v, v ∈ qi_ss (qr_it r) ∧ lists (zn_rev p) (zn_vars p) phi v M) ∧
    qr_out r `prefix_of` L ∧
    ∃ k0, ∀ k, k0 ≤ k → ∃ it', qiter_next k (s_z s) (qr_it r) = Some (it', L !! length (qr_out r)).
Proof.
  exact (λ Hi Hr HR, match qiters_exact _ _ _ _ r _ (proj2 (mss_iter_ok I s H Q IG IQ Hi)) Hr HR with
    | conj Hv (ex_intro _ L (conj HM (conj H3 H4))) => match qmembers_lists _ phi _ L Hv HM with
      | conj H1 H2 => ex_intro _ L (conj H1 (conj H2 (conj H3 H4))) end end).
Qed.
Print Assumptions c58_mss_extremal.
Theorem c58_mss_start I s H Q IG IQ : mss_iter I s H Q IG IQ →
  (∀ x F ss, (x, F) ∈ H → is_Some (giter_start (s_m s) x ss)) ∧ ∀ p R ss, (p, R) ∈ Q → is_Some (qiter_start (s_z s) p ss).
Proof. exact (mss_iter_start I s H Q IG IQ). Qed.
Print Assumptions c58_mss_start.
Theorem c58_mss_handles I s H Q IG IQ : mss_iter I s H Q IG IQ →
  (∀ x F, (x, Some F) ∈ H → ∀ e, mrange (g_mm (s_m s)) e → mvalue (g_mm (s_m s)) e x (F e)) ∧
  ∀ p R, (p, Some R) ∈ Q → ∀ y z, zmember (t_ar (q_z (s_z s))) (zn_id p) y z ↔ R y z.
Proof. exact (λ Hi, conj (λ x F, mss_iter_handles I s H Q IG IQ x F Hi) (λ p R, mss_iter_families I s H Q IG IQ p R Hi)). Qed.
Print Assumptions c58_mss_handles.

(** ** Examples *)
(** [max(x, y)] over x : 3, y : 2 at threshold 1: an iterator over the level 1 is started and the handle
    dropped; between the calls of [next] the manager collects, builds and gets another variable. *)
Definition ex_mit1 : option (mmgr * mnode * giter) :=
  '(w, x) ← g_defvar (g_set_threshold g_new 1) "x" 3;
  '(w, y) ← g_defvar w "y" 2;
  '(w, a) ← g_bin (mm_bin i32_checked (OArith VMax)) w x y;
  '(w, it) ← giter_start w a [1]%Z;
  Some (g_drop w a, x, it).
Definition ex_mit2 : option (mmgr * giter * list (gmap string nat)) :=
  '(w, x, it) ← ex_mit1;
  '(it, o1) ← giter_next 100 w it;
  '(w, b) ← g_bin (mm_bin i32_checked (OArith VMul)) w x x;
  '(it, o2) ← giter_next 100 w it;
  '(w, u) ← g_defvar w "u" 2;
  '(w, c) ← g_bin (mm_bin i32_checked (OArith VAdd)) w b u;
  '(w, n) ← g_gc w [];
  '(it, o3) ← giter_next 100 w it;
  '(w, d) ← g_bin (mm_bin i32_checked (OArith VAdd)) w c x;
  Some (w, it, yield (yield (yield [] o1) o2) o3).
Example c58_ex_run : match ex_mit2 with
  | Some (w, it, out) => Some (map_to_list <$> out, giter_len w it, match giter_next 100 w it with Some (_, o) => Some (bool_decide (o = None)) | None => None end)
  | None => None end
  = Some ([[("x", 1); ("y", 0)]; [("x", 0); ("y", 1)]; [("x", 1); ("y", 1)]], Some 3%N, Some true)%string.
Proof. vm_compute. reflexivity. Qed.
(** the history behind it: the handle of the maximum is gone, the iterator remains *)
Definition ex_max : menv → Z := λ e, Z.max (Z.of_nat (e "x"%string)) (Z.of_nat (e "y"%string)).
Lemma val_max a b : val2 i32_checked (OArith VMax) (VI (VVal a)) (VI (VVal b)) = Some (VI (VVal (Z.max a b))).
Proof. unfold val2. by rewrite decide_True. Qed.
Example c58_ex_history w x it : ex_mit1 = Some (w, x, it) →
  ∃ H, mdd_iter i32_checked w H [GRun it (Some (λ e, VI (VVal (ex_max e)))) []] ∧ gi_ss it = [1]%Z ∧ x ∈ H.*1.
Proof.
  unfold ex_mit1. pose proof (gi_call i32_checked _ _ _ _ _ (gi_new _) (ds_threshold _ _ _ 1)) as H0. revert H0.
  generalize (g_set_threshold g_new 1). intros w0 H0.
  destruct (g_defvar w0 "x" 3) as [[w1 x1]|] eqn:E1; [|done]. cbn [mbind option_bind].
  apply (ds_defvar i32_checked _ []) in E1. eapply gi_call in E1; [|exact H0].
  destruct (g_defvar w1 "y" 2) as [[w2 y1]|] eqn:E2; [|done]. cbn [mbind option_bind].
  eapply (ds_defvar i32_checked) in E2. eapply gi_call in E2; [|exact E1].
  destruct (g_bin _ w2 x1 y1) as [[w3 a]|] eqn:E3; [|done]. cbn [mbind option_bind].
  match type of E2 with mdd_iter _ _ ?H _ => assert (H3 : mdd_iter i32_checked w3 ((a, Some (λ e, VI (VVal (ex_max e)))) :: H) []) end.
  { eapply gi_call; [exact E2|]. eapply (ds_bin _ (OArith VMax)); [right; left|left|exact E3|intros e _; exact (val_max _ _)|done]. }
  clear E3.
  destruct (giter_start w3 a [1]%Z) as [[w4 it']|] eqn:E4; [|done]. cbn [mbind option_bind].
  assert (Hss : gi_ss it' = [1]%Z).
  { clear -E4. unfold giter_start in E4. destruct (match a with NVal _ => _ | NBool _ => _ end); [|done]. cbn in E4. by injection E4 as <- <-. }
  eapply gi_start in E4; [|exact H3|by left]. eapply gi_call in E4; [|eapply (ds_drop _ _ _ a); reflexivity].
  intros [= <- <- <-]. eexists. split; [exact E4|]. split; [done|]. right; left.
Qed.

(** its minimal vectors: an iterator over the path family survives the drop of the family handle while the
    cut family is built and dropped *)
Definition ex_qit1 : option (mss * mnode * qiter) :=
  '(w, x) ← g_defvar g_new "x" 3;
  '(w, y) ← g_defvar w "y" 2;
  '(w, a) ← g_bin (mm_bin i32_checked (OArith VMax)) w x y;
  '(s, p) ← s_sol i32_checked false (Mss w q_new) a;
  p ← p;
  '(q, it) ← qiter_start (s_z s) p [1; 2]%Z;
  Some (Mss (s_m s) (q_drop q p), a, it).
Definition ex_qit2 : option (mss * qiter * list (gmap string nat)) :=
  '(s, a, it) ← ex_qit1;
  '(it, o1) ← qiter_next 100 (s_z s) it;
  '(s, c) ← s_sol i32_checked true s a;
  c ← c;
  '(it, o2) ← qiter_next 100 (s_z s) it;
  '(q, d) ← q_setdiff (s_z s) c c;
  '(it, o3) ← qiter_next 100 (q_drop q c) it;
  Some (Mss (s_m s) (q_drop q c), it, yield (yield (yield [] o1) o2) o3).
Example c58_ex_zmdd_run : match ex_qit2 with
  | Some (s, it, out) => Some (map_to_list <$> out, match qiter_next 100 (s_z s) it with Some (_, o) => Some (bool_decide (o = None)) | None => None end)
  | None => None end
  = Some ([[("x", 1); ("y", 0)]; [("x", 2); ("y", 0)]; [("x", 0); ("y", 1)]], Some true)%string.
Proof. vm_compute. reflexivity. Qed.
Example c58_ex_zmdd_history s a it : ex_qit1 = Some (s, a, it) →
  ∃ H r, mss_iter i32_checked s H [] [] [r] ∧ qr_it r = it ∧ qi_ss it = [1; 2]%Z ∧
    zn_rev (qi_node it) = false ∧ zn_vars (qi_node it) = [("x", 3); ("y", 2)]%string ∧
    qr_fam r = Some (extremal (zn_rev (qi_node it)) (zn_vars (qi_node it)) ex_max).
Proof.
  assert (Hvo : ('(w, x) ← g_defvar g_new "x" 3; '(w, y) ← g_defvar w "y" 2;
    '(w, a) ← g_bin (mm_bin i32_checked (OArith VMax)) w x y; g_varorder w) = Some [("x", 3); ("y", 2)]%string) by (vm_compute; reflexivity).
  assert (Hsh : ('(w, x) ← g_defvar g_new "x" 3; '(w, y) ← g_defvar w "y" 2;
    '(w, a) ← g_bin (mm_bin i32_checked (OArith VMax)) w x y; '(s, p) ← s_sol i32_checked false (Mss w q_new) a;
    p ← p; Some (zn_rev p, zn_vars p)) = Some (false, [("x", 3); ("y", 2)])%string) by (vm_compute; reflexivity).
  unfold ex_qit1.
  destruct (g_defvar g_new "x" 3) as [[w1 x1]|] eqn:E1; [|done]. cbn [mbind option_bind] in *.
  apply (ds_defvar i32_checked _ []) in E1. eapply qs_mdd in E1. eapply mi_call in E1; [|exact (mi_new _)].
  destruct (g_defvar w1 "y" 2) as [[w2 y1]|] eqn:E2; [|done]. cbn [mbind option_bind] in *.
  eapply (ds_defvar i32_checked) in E2. eapply qs_mdd in E2. eapply mi_call in E2; [|exact E1].
  destruct (g_bin _ w2 x1 y1) as [[w3 b]|] eqn:E3; [|done]. cbn [mbind option_bind] in *.
  match type of E2 with mss_iter _ _ ?H _ _ _ =>
    assert (H3 : mss_iter i32_checked (Mss w3 q_new) ((b, Some (λ e, VI (VVal (ex_max e)))) :: H) [] [] []) end.
  { eapply mi_call; [exact E2|]. apply qs_mdd. eapply (ds_bin _ (OArith VMax)); [right; left|left|exact E3|intros e _; exact (val_max _ _)|done]. }
  clear E3.
  destruct (s_sol i32_checked false (Mss w3 q_new) b) as [[s4 [p|]]|] eqn:E4; [|done..]. cbn [mbind option_bind] in *.
  injection Hsh as Hrv Hvars.
  match type of H3 with mss_iter _ _ ?H _ _ _ =>
    assert (H4 : mss_iter i32_checked s4 H [(p, Some (extremal false [("x", 3); ("y", 2)]%string ex_max))] [] []) end.
  { eapply mi_call; [exact H3|]. eapply (qs_sol _ false); [left|exact E4|]. intros R' [= <-]. exists [("x", 3); ("y", 2)]%string, ex_max. done. }
  clear E4. destruct s4 as [w4 q4]. cbn [s_m s_z] in *.
  destruct (qiter_start q4 p [1; 2]%Z) as [[q5 it']|] eqn:E5; [|done]. cbn [mbind option_bind].
  assert (Hit : qi_ss it' = [1; 2]%Z ∧ qi_node it' = p).
  { clear -E5. unfold qiter_start in E5. destruct (zm_baseline _ _); [|done]. cbn in E5. by injection E5 as <- <-. }
  eapply mi_qstart in E5; [|exact H4|by left]. eapply mi_call in E5; [|eapply (qs_drop _ _ _ _ _ p); reflexivity].
  intros [= <- _ <-]. destruct Hit as [Hss ->]. rewrite Hrv, Hvars. eexists _, _. split; [exact E5|]. done.
Qed.
