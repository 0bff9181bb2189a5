(** Properties C08, C09, C10, C44: the handle-counting wrapper BddMgr. *)
From stdpp Require Import strings.
From Verif Require Import Prelude ComputeCache Arena Bdd BssAlg BssMgr SpecBdd SpecBss SpecBssMgr BssMgrProofs BssMgrMain.

(** ** Example history *)
(** threshold 1 makes the collector run at every wrapped result: the collector removes the
    intermediate [x & y] once its handle is gone *)
Definition ex_w : option (bmgr * nat * nat) :=
  let w := w_set_threshold w_new 1 in
  let '(w, x) := w_defvar w "x" in
  let '(w, y) := w_defvar w "y" in
  let '(w, z) := w_defvar w "z" in
  '(w, a) ← w_and w x y;
  '(w, f) ← w_or w a z;
  let w := w_drop w a in
  '(w, g) ← w_xor w f x;
  Some (w, f, g).

(** ** C08 *)
(** After every history of wrapper calls, at every threshold, every handle still held denotes the
    function it was created to denote. *)
Theorem c08_handles w H f F : bss_held w H → (f, F) ∈ H →
  bdd_valid (w_bdd w) f ∧ ∀ e, bss_value (w_bdd w) e f (tvb (F e)).
Proof. exact (λ Hh Hf, wk_held _ _ (held_wok w H Hh) f F Hf). Qed.
Print Assumptions c08_handles.

(** Two handles are equal exactly when they denote the same function. *)
Theorem c08_equal w H f F g G : bss_held w H → (f, F) ∈ H → (g, G) ∈ H →
  f = g ↔ ∀ e, F e = G e.
Proof. exact (held_eq w H f F g G). Qed.
Print Assumptions c08_equal.

(** No wrapper call on held handles panics. *)
Theorem c08_no_panic w H : bss_held w H →
  is_Some (w_zero w) ∧ is_Some (w_one w) ∧
  (∀ keep, Forall (λ f, f ∈ H.*1) keep → is_Some (w_gc w keep)) ∧
  (∀ f, f ∈ H.*1 → is_Some (w_not w f) ∧ is_Some (w_dual w f) ∧ is_Some (w_children w f)) ∧
  (∀ o f g, f ∈ H.*1 → g ∈ H.*1 → is_Some (w_bin o w f g)) ∧
  (∀ f g h, f ∈ H.*1 → g ∈ H.*1 → h ∈ H.*1 → is_Some (w_ite w f g h)) ∧
  (∀ fs, Forall (λ f, f ∈ H.*1) fs →
     is_Some (w_and_list w fs) ∧ is_Some (w_or_list w fs) ∧ ∀ k, is_Some (w_kofn w k fs)).
Proof. exact (held_progress w H). Qed.
Print Assumptions c08_no_panic.

(** the history as a derivation: afterwards five handles are held *)
Example c08_ex_held w f g : ex_w = Some (w, f, g) → ∃ x y z, bss_held w
  [(g, λ e : env, xorb ((e "x" && e "y") || e "z") (e "x")); (f, λ e : env, (e "x" && e "y") || e "z");
   (z, λ e : env, e "z"); (y, λ e : env, e "y"); (x, λ e : env, e "x")]%string.
Proof.
  unfold ex_w. pose proof (sh_step _ _ _ _ sh_new (st_threshold _ _ 1)) as H0. revert H0. generalize (w_set_threshold w_new 1). intros w0 H0.
  destruct (w_defvar w0 "x") as [w1 x] eqn:E1. apply (st_defvar _ _), (sh_step _ _ _ _ H0) in E1.
  destruct (w_defvar w1 "y") as [w2 y] eqn:E2. apply (st_defvar _ _), (sh_step _ _ _ _ E1) in E2.
  destruct (w_defvar w2 "z") as [w3 z] eqn:E3. apply (st_defvar _ _), (sh_step _ _ _ _ E2) in E3.
  destruct (w_and w3 x y) as [[w4 a]|] eqn:E4; [|done]. cbn [mbind option_bind].
  eapply (st_bin BAnd _ _ x (λ e, e "x"%string) y (λ e, e "y"%string)), (sh_step _ _ _ _ E3) in E4; [|by repeat constructor..].
  destruct (w_or w4 a z) as [[w5 b]|] eqn:E5; [|done]. cbn [mbind option_bind].
  eapply (st_bin BOr _ _ a (λ e, e "x" && e "y")%string z (λ e, e "z"%string)), (sh_step _ _ _ _ E4) in E5; [|by repeat constructor..].
  eapply sh_step in E5; [|eapply (st_drop _ _ a); apply perm_swap].
  destruct (w_xor (w_drop w5 a) b x) as [[w6 c]|] eqn:E6; [|done]. cbn [mbind option_bind].
  eapply (st_bin BXor _ _ b (λ e, (e "x" && e "y") || e "z")%string x (λ e, e "x"%string)), (sh_step _ _ _ _ E5) in E6; [|by repeat constructor..].
  intros [= <- <- <-]. by exists x, y, z.
Qed.
Example c08_ex : (r ← ex_w; let '(w, f, g) := r in
    Some (f, g, w_thr w, size (w_roots w), bdd_live_node_count (w_bdd w))) = Some (7, 10, 14, 5, 11).
Proof. vm_compute. done. Qed.

(** ** C09 *)
Theorem c09_rpn w H expr ts : bss_held w H → Forall rtok_ok ts → separated expr (rprint <$> ts) →
  match reval ts with
  | Value F => ∃ w' r, w_rpn w expr = Some (w', RpnOk r) ∧ ∀ e, bss_value (w_bdd w') e r (tvb (F e))
  | Reported => ∃ w', w_rpn w expr = Some (w', RpnErr)
  | Underflow => w_rpn w expr = None
  end.
Proof. exact (held_rpn w H expr ts). Qed.
Print Assumptions c09_rpn.

(** Every string is the text of a token list, and only of one. *)
Theorem c09_total expr : ∃ ts, Forall rtok_ok ts ∧ separated expr (rprint <$> ts).
Proof. exact (expr_tokens expr). Qed.
Print Assumptions c09_total.
Theorem c09_unique expr ts ts' : Forall rtok_ok ts → separated expr (rprint <$> ts) →
  Forall rtok_ok ts' → separated expr (rprint <$> ts') → ts = ts'.
Proof. exact (expr_tokens_unique expr ts ts'). Qed.
Print Assumptions c09_unique.

Example c09_ex : (r ← w_rpn w_new "x y & save(a) load(a) | z ^"; let '(w, r) := r in
    match r with RpnOk f => Some (f, bdd_live_node_count (w_bdd w)) | RpnErr => None end) = Some (9, 10).
Proof. vm_compute. done. Qed.
Example c09_ex_eval : match reval [RVar "x"; RVar "y"; RAnd; RSave "a"; RLoad "a"; ROr; RVar "z"; RXor] with
  | Value F => Some (F (λ x, String.eqb x "x" || String.eqb x "y"), F (λ _, true)) | _ => None end = Some (true, false).
Proof. vm_compute. done. Qed.

(** ** C10 *)
(** Refuted: an operator on an empty stack aborts the program. *)
Theorem c10_reported_refuted : ∃ w expr ts, bss_held w [] ∧ Forall rtok_ok ts ∧ separated expr (rprint <$> ts) ∧
  (∀ F, reval ts ≠ Value F) ∧ w_rpn w expr = None.
Proof.
  exists w_new, "x &"%string, [RVar "x"; RAnd]. split_and!.
  - constructor.
  - constructor; [|by constructor]. apply var_ok; try done. by intros [] [].
  - apply (split_go_separated "x &" ""). done.
  - intros F. done.
  - vm_compute. done.
Qed.
Print Assumptions c10_reported_refuted.

(** What does hold: unless some operator finds too few operands, a malformed expression is reported. *)
Theorem c10_reported_partial w H expr ts : bss_held w H → Forall rtok_ok ts → separated expr (rprint <$> ts) →
  (∀ F, reval ts ≠ Value F) → reval ts ≠ Underflow → ∃ w', w_rpn w expr = Some (w', RpnErr) ∧ bss_held w' H.
Proof. exact (held_rpn_err w H expr ts). Qed.
Print Assumptions c10_reported_partial.

Example c10_ex : match w_rpn w_new "x load(a)" with Some (_, RpnErr) => true | _ => false end &&
  match w_rpn w_new "x y" with Some (_, RpnErr) => true | _ => false end &&
  match w_rpn w_new "" with Some (_, RpnErr) => true | _ => false end = true.
Proof. vm_compute. done. Qed.

(** ** C44 *)
(** get_varorder lists every variable, at the position of its level. *)
Theorem c44_order w H : bss_held w H → ∃ names, w_varorder w = Some names ∧ bdd_order (w_bdd w) names ∧ NoDup names.
Proof. exact (held_order w H). Qed.
Print Assumptions c44_order.

(** defvar: the node evaluates to the variable; a new variable goes above all existing ones, a known
    one leaves the order and the arena as they were. *)
Theorem c44_defvar w H x names w' r : bss_held w H → w_varorder w = Some names → w_defvar w x = (w', r) →
  (∀ e, bss_value (w_bdd w') e r (tvb (e x))) ∧
  w_varorder w' = Some (if decide (x ∈ names) then names else names ++ [x]) ∧
  (x ∈ names → w_bdd w' = w_bdd w).
Proof. exact (held_defvar w H x names w' r). Qed.
Print Assumptions c44_defvar.

(** defining the same label again, after any further calls that keep the handle, returns the same node *)
Theorem c44_same w H x r w' r' : bss_held w H → (r, λ e : env, e x) ∈ H → w_defvar w x = (w', r') → r' = r.
Proof. exact (held_same w H x r w' r'). Qed.
Print Assumptions c44_same.

Example c44_ex : (r ← ex_w; let '(w, _, _) := r in let '(w', y) := w_defvar w "y" in let '(w'', v) := w_defvar w' "v" in
   o ← w_varorder w'; o' ← w_varorder w''; Some (y, o, o')) =
  Some (4, ["x"; "y"; "z"]%string, ["x"; "y"; "z"; "v"]%string).
Proof. vm_compute. done. Qed.
