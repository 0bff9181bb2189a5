(** Properties C41, C42, C50: the handle-counting wrapper MddMgr. *)
From stdpp Require Import strings.
From Verif Require Import Prelude ComputeCache Arena Bdd Mdd MtMdd MtMdd2 BssMgr MssMgr SpecBdd SpecMdd SpecBssMgr SpecMss
  BssMgrMain MssMgrProofs MssMgrVar MssRpn.
Notation hdrs m := (ar_headers (d_ar (mm_b m))).

(** ** Example history *)
(** Threshold 1 makes the collector run at every wrapped result; the handle of [x + y] is dropped, so
    the collector removes that node. *)
Definition ex_w : option (mmgr * mnode * mnode) :=
  let w := g_set_threshold g_new 1 in
  '(w, x) ← g_defvar w "x" 3;
  '(w, y) ← g_defvar w "y" 2;
  '(w, a) ← g_bin (mm_bin i32_checked (OArith VAdd)) w x y;
  '(w, c) ← g_value w 1;
  '(w, f) ← g_bin (mm_bin i32_checked (OCmp Gte)) w a c;
  let w := g_drop w a in
  '(w, r) ← g_ite w f x y;
  Some (w, f, r).

(** ** C42 *)
(** After every history of wrapper calls, at every threshold, every handle still held denotes the function it
    was created to denote. *)
Theorem c42_handles I w H x F : mdd_held I w H → (x, Some F) ∈ H →
  mm_valid (g_mm w) x ∧ ∀ e, mrange (g_mm w) e → mvalue (g_mm w) e x (F e).
Proof. exact (held_value I w H x F). Qed.
Print Assumptions c42_handles.

(** Two handles are equal exactly when they denote the same function. *)
Theorem c42_equal I w H x F y G : mdd_held I w H → (x, Some F) ∈ H → (y, Some G) ∈ H →
  x = y ↔ ∀ e, mrange (g_mm w) e → F e = G e.
Proof. exact (held_meq I w H x F y G). Qed.
Print Assumptions c42_equal.

(** No wrapper call on held handles panics, except a variable without states, arithmetic that overflows, and a choice
    between a boolean and an integer. *)
Theorem c42_no_panic I w H : mdd_held I w H →
  (∀ b, is_Some (g_boolean w b)) ∧ (∀ z, is_Some (g_value w z)) ∧ is_Some (g_undet_value w) ∧ is_Some (g_undet_boolean w) ∧
  (∀ x n, 0 < n → is_Some (g_defvar w x n)) ∧
  (∀ h xs, mm_fits (g_mm w) h xs → Forall (λ x, x ∈ H.*1) xs → is_Some (g_create_node w h xs)) ∧
  (∀ f, f ∈ H.*1 → is_Some (g_not w f) ∧ is_Some (g_children w f)) ∧
  (∀ o f g, f ∈ H.*1 → g ∈ H.*1 → no_arith o → is_Some (g_bin (mm_bin I o) w f g)) ∧
  (∀ o f F g G, (f, Some F) ∈ H → (g, Some G) ∈ H →
     (∀ e, mrange (g_mm w) e → is_Some (val2 I (OArith o) (F e) (G e))) → is_Some (g_arith I o w f g)) ∧
  (∀ c f g, c ∈ H.*1 → f ∈ H.*1 → g ∈ H.*1 → same_kind f g → is_Some (g_ite w c f g)) ∧
  (∀ keep, Forall (λ x, x ∈ H.*1) keep → is_Some (g_gc w keep)).
Proof. exact (held_mprogress I w H). Qed.
Print Assumptions c42_no_panic.

(** the history as a derivation: afterwards five handles are held *)
Definition ex_add (e : menv) : Z := (Z.of_nat (e "x"%string) + Z.of_nat (e "y"%string))%Z.
Definition ex_x (e : menv) : mval := VI (VVal (Z.of_nat (e "x"%string))).
Definition ex_y (e : menv) : mval := VI (VVal (Z.of_nat (e "y"%string))).
Lemma vars_xy (m : mm) e : map (λ hd, (h_label hd, h_edges hd)) (hdrs m) = [("x", 3); ("y", 2)]%string → mrange m e →
  e "x"%string < 3 ∧ e "y"%string < 2.
Proof.
  intros Hm Hr. assert (Hin : ∀ s n, (s, n) ∈ map (λ hd, (h_label hd, h_edges hd)) (hdrs m) → e s < n).
  { intros s n. change (map ?f ?l) with (f <$> l). intros (hd & [= -> ->] & Hh)%elem_of_list_fmap. by apply Hr. }
  rewrite Hm in Hin. split; apply Hin; by repeat constructor.
Qed.
Lemma val_add a b : in_i32 (a + b)%Z → val2 i32_checked (OArith VAdd) (VI (VVal a)) (VI (VVal b)) = Some (VI (VVal (a + b)%Z)).
Proof.
  intros Hr. unfold val2. rewrite decide_True; [done|]. unfold no_overflow. cbn. by rewrite decide_True.
Qed.
Example c42_ex_held w f r : ex_w = Some (w, f, r) → ∃ c x y, mdd_held i32_checked w
  [(r, Some (λ e, if bool_decide (ex_add e >= 1)%Z then ex_x e else ex_y e)); (f, Some (λ e, VB (bool_decide (ex_add e >= 1)%Z)));
   (c, Some (λ _, VI (VVal 1))); (y, Some ex_y); (x, Some ex_x)].
Proof.
  intros Hex.
  assert (Hhd : (w ← '(w, x) ← g_defvar (g_set_threshold g_new 1) "x" 3; '(w, y) ← g_defvar w "y" 2; Some w;
     Some (map (λ hd, (h_label hd, h_edges hd)) (hdrs (g_mm w)))) = Some [("x", 3); ("y", 2)]%string) by (vm_compute; reflexivity).
  unfold ex_w in Hex.
  pose proof (dh_step i32_checked _ _ _ _ (dh_new _) (ds_threshold _ _ _ 1)) as H0. revert Hex Hhd H0. generalize (g_set_threshold g_new 1).
  intros w0 Hex Hhd H0.
  destruct (g_defvar w0 "x" 3) as [[w1 x]|] eqn:E1; [|done]. cbn [mbind option_bind] in Hex, Hhd.
  pose proof (dh_step _ _ _ _ _ H0 (ds_defvar _ _ _ _ _ _ _ E1)) as H1.
  destruct (g_defvar w1 "y" 2) as [[w2 y]|] eqn:E2; [|done]. cbn [mbind option_bind] in Hex, Hhd.
  injection Hhd as Hhd.
  pose proof (dh_step _ _ _ _ _ H1 (ds_defvar _ _ _ _ _ _ _ E2)) as H2.
  destruct (g_bin (mm_bin i32_checked (OArith VAdd)) w2 x y) as [[w3 a]|] eqn:E3; [|done]. cbn [mbind option_bind] in Hex.
  assert (H3 : mdd_held i32_checked w3 ((a, Some (λ e, VI (VVal (ex_add e)))) :: (y, Some ex_y) :: (x, Some ex_x) :: [])).
  { eapply dh_step; [exact H2|]. eapply ds_bin; [| |exact E3| |done].
    - right. left.
    - left.
    - intros e He. destruct (vars_xy _ e Hhd He). apply val_add. unfold in_i32, i32_min, i32_max. lia. }
  destruct (g_value w3 1) as [[w4 c]|] eqn:E4; [|done]. cbn [mbind option_bind] in Hex.
  pose proof (dh_step _ _ _ _ _ H3 (ds_value _ _ _ _ _ _ E4)) as H4.
  destruct (g_bin (mm_bin i32_checked (OCmp Gte)) w4 a c) as [[w5 g]|] eqn:E5; [|done]. cbn [mbind option_bind] in Hex.
  assert (H5 : mdd_held i32_checked w5 ((g, Some (λ e, VB (bool_decide (ex_add e >= 1)%Z))) :: (c, Some (λ _, VI (VVal 1))) ::
    (a, Some (λ e, VI (VVal (ex_add e)))) :: (y, Some ex_y) :: (x, Some ex_x) :: [])).
  { eapply dh_step; [exact H4|]. eapply (ds_bin _ (OCmp Gte)); [| |exact E5| |done].
    - right. left.
    - left.
    - intros e _. done. }
  assert (H6 : mdd_held i32_checked (g_drop w5 a) ((g, Some (λ e, VB (bool_decide (ex_add e >= 1)%Z))) :: (c, Some (λ _, VI (VVal 1))) ::
    (y, Some ex_y) :: (x, Some ex_x) :: [])).
  { eapply dh_step; [exact H5|]. eapply ds_drop. etrans; [apply Permutation_skip, perm_swap|]. apply perm_swap. }
  destruct (g_ite (g_drop w5 a) g x y) as [[w6 q]|] eqn:E6; [|done]. cbn [mbind option_bind] in Hex.
  assert (w6 = w ∧ g = f ∧ q = r) as (<- & <- & <-) by by injection Hex as -> -> ->.
  exists c, x, y. eapply dh_step; [exact H6|]. eapply ds_ite; [| | |exact E6|].
  - left.
  - do 3 right. left.
  - do 2 right. left.
  - intros e _. cbn. by destruct (bool_decide _).
Qed.
Example c42_ex : (r ← ex_w; let '(w, f, r) := r in
    Some (f, r, g_thr w, size (g_roots w), mm_live_node_count (g_mm w))) = Some (NBool 6, NVal 4, 24, 4, 16).
Proof. vm_compute. done. Qed.

(** ** C41 *)
(** The value of the result is that of direct evaluation; an evaluation that fails to leave one value is reported.
    A variable that is new to the manager gets the number of states given in [vars]. *)
Theorem c41_rpn_partial I w H expr ts vars w' out :
  mdd_held I w H → Forall mtok_ok ts → separated expr (mprint <$> ts) → no_lte ts →
  g_rpn I w expr vars = Some (w', out) →
  prefix (hdrs (g_mm w)) (hdrs (g_mm w')) ∧
  (∀ hd, hd ∈ hdrs (g_mm w') → hd ∈ hdrs (g_mm w) ∨ vars !! h_label hd = Some (h_edges hd)) ∧
  ∀ e, mrange (g_mm w') e →
    match meval I e ts with
    | Value v => ∃ r, out = RpnOk r ∧ mvalue (g_mm w') e r v
    | Reported => out = RpnErr
    | Underflow => True
    end.
Proof. exact (held_rpn_value I w H expr ts vars w' out). Qed.
Print Assumptions c41_rpn_partial.

(** There is no panic if [vars] lists every variable of the expression with at least one state and direct evaluation
    meets neither too few operands, nor operands of the wrong kind, nor an overflow. *)
Theorem c41_rpn_total_partial I w H expr ts vars :
  mdd_held I w H → Forall mtok_ok ts → separated expr (mprint <$> ts) → no_lte ts →
  (∀ x, MVar x ∈ ts → is_Some (vars !! x)) → (∀ x n, vars !! x = Some n → 0 < n) →
  (∀ e, mrange (g_mm w) e → (∀ x n, vars !! x = Some n → x ∉ h_label <$> hdrs (g_mm w) → e x < n) → meval I e ts ≠ Underflow) →
  is_Some (g_rpn I w expr vars).
Proof. exact (held_rpn_total I w H expr ts vars). Qed.
Print Assumptions c41_rpn_total_partial.

(** Every string is the text of a token list, and only of one. *)
Theorem c41_total expr : ∃ ts, Forall mtok_ok ts ∧ separated expr (mprint <$> ts).
Proof. exact (mexpr_tokens expr). Qed.
Print Assumptions c41_total.
Theorem c41_unique expr ts ts' : Forall mtok_ok ts → separated expr (mprint <$> ts) →
  Forall mtok_ok ts' → separated expr (mprint <$> ts') → ts = ts'.
Proof. exact (mexpr_unique expr ts ts'). Qed.
Print Assumptions c41_unique.

Definition ex_vars : gmap string nat := <["x"%string := 3]> (<["y"%string := 2]> ∅).
Example c41_ex : (r ← g_rpn i32_checked g_new "x y + save(a) 2 > load(a) -1 ?" ex_vars; let '(w, r) := r in
    match r with RpnOk f => Some (f, mm_live_node_count (g_mm w)) | RpnErr => None end) = Some (NVal 11, 17).
Proof. vm_compute. done. Qed.
Example c41_ex_eval : (λ e, meval i32_checked e
    [MVar "x"; MVar "y"; MOp (OArith VAdd); MSave "a"; MLit "2" 2; MOp (OCmp Gt); MLoad "a"; MLit "-1" (-1); MIte]) <$>
    [(λ x, if String.eqb x "x" then 2 else 1); (λ _, 0)] = [Value (VI (VVal 3)); Value (VI (VVal (-1)))].
Proof. vm_compute. done. Qed.
Lemma sep_text expr ts : split_whitespace expr = mprint <$> ts → separated expr (mprint <$> ts).
Proof. intros <-. by apply (split_go_separated expr ""). Qed.
Lemma var_tok x : parse_i32 x = None → x ∉ mprint <$> [MBool true; MBool false; MNot; MIte; MOp (OArith VAdd); MOp (OArith VSub);
     MOp (OArith VMul); MOp (OArith VDiv); MOp (OArith VMin); MOp (OArith VMax); MOp (OCmp Eq); MOp (OCmp Neq); MOp (OCmp Lt);
     MOp (OCmp Lte); MOp (OCmp Gt); MOp (OCmp Gte); MOp (OGate GAnd); MOp (OGate GOr)] →
  paren_arg "save(" x = None → paren_arg "load(" x = None → mtok_ok (MVar x).
Proof.
  intros Hp Hno Hs Hl. destruct (mtok_exists x) as (t & Ht & Hx). destruct t as [txt z|b|o| | |y|y|y]; cbn [mprint] in Hx; subst x.
  - destruct Ht as [Ht _]. cbn in Ht. apply parse_i32_ok in Ht. congruence.
  - exfalso. apply Hno. apply (elem_of_list_fmap_1 mprint _ (MBool b)). destruct b; rewrite !elem_of_cons; tauto.
  - exfalso. apply Hno. apply (elem_of_list_fmap_1 mprint _ (MOp o)). destruct Ht as [Ht _]. clear -Ht.
    destruct o as [[]|[]|[]]; try done; rewrite !elem_of_cons; tauto.
  - exfalso. apply Hno. apply (elem_of_list_fmap_1 mprint _ MNot). rewrite !elem_of_cons; tauto.
  - exfalso. apply Hno. apply (elem_of_list_fmap_1 mprint _ MIte). rewrite !elem_of_cons; tauto.
  - by rewrite paren_save in Hs.
  - by rewrite paren_load in Hl.
  - done.
Qed.
Lemma var_x : mtok_ok (MVar "x").
Proof. apply var_tok; [done| |done|done]. cbn. rewrite !elem_of_cons, elem_of_nil. naive_solver. Qed.
Lemma lit_1 : mtok_ok (MLit "1" 1).
Proof. split; [|done]. by apply parse_i32_ok. Qed.

(** [<=] is wrong (C28): [x 1 <=] is false at [x = 1]. *)
Theorem c41_lte_refuted : ∃ expr ts vars w' r e, Forall mtok_ok ts ∧ separated expr (mprint <$> ts) ∧
  g_rpn i32_checked g_new expr vars = Some (w', RpnOk r) ∧ mrange (g_mm w') e ∧
  meval i32_checked e ts = Value (VB true) ∧ mvalue (g_mm w') e r (VB false).
Proof.
  assert (H : (r ← g_rpn i32_checked g_new "x 1 <=" ex_vars; let '(w, r) := r in
    Some (r, ar_nodes (d_ar (mm_b (g_mm w))), hdrs (g_mm w))) =
    Some (RpnOk (NBool 4), [Term TZero; Term TOne; Term TUndet; NT 0 [0; 1; 0]; NT 0 [1; 0; 0]], [Header 0 0 "x" 3])) by (vm_compute; reflexivity).
  destruct (g_rpn i32_checked g_new "x 1 <=" ex_vars) as [[w r]|] eqn:E; [|done]. cbn [mbind option_bind] in H.
  apply (inj Some) in H. apply pair_equal_spec in H as [H Hh]. apply pair_equal_spec in H as [-> Hn].
  exists "x 1 <="%string, [MVar "x"; MLit "1" 1; MOp (OCmp Lte)], ex_vars, w, (NBool 4), (λ _, 1). split_and!.
  - clear E. constructor; [apply var_x|]. constructor; [apply lit_1|]. by constructor.
  - clear E. by apply sep_text.
  - exact E.
  - clear E. intros hd. rewrite Hh, elem_of_list_singleton. intros ->. cbn. lia.
  - clear E. done.
  - clear E. cbn. eapply (mv_node _ _ _ 0 [1; 0; 0] (Header 0 0 "x" 3) 0); [by rewrite Hn|by rewrite Hh|done|]. apply mv_term. by rewrite Hn.
Qed.
Print Assumptions c41_lte_refuted.

(** ** C50 *)
(** get_varorder lists every variable with its number of states, at the position of its level, if every variable has
    at least two states. *)
Theorem c50_order_partial I w H : mdd_held I w H → (∀ hd, hd ∈ hdrs (g_mm w) → 2 ≤ h_edges hd) →
  ∃ vars, g_varorder w = Some vars ∧ NoDup vars.*1 ∧ length vars = length (hdrs (g_mm w)) ∧
    ∀ hd, hd ∈ hdrs (g_mm w) → vars !! h_level hd = Some (h_label hd, h_edges hd).
Proof. exact (held_vorder I w H). Qed.
Print Assumptions c50_order_partial.
(** A variable with a single state is stored as a constant, and get_varorder panics on it. *)
Theorem c50_order_refuted : ∃ w w' r, mdd_held i32_checked w [] ∧ g_defvar w "x" 1 = Some (w', r) ∧ g_varorder w' = None.
Proof.
  assert (H : ('(w', r) ← g_defvar g_new "x" 1; Some (g_varorder w')) = Some None) by (vm_compute; reflexivity).
  destruct (g_defvar g_new "x" 1) as [[w' r]|] eqn:E; [|done]. exists g_new, w', r. split_and!; [constructor|done|].
  cbn in H. by injection H.
Qed.
Print Assumptions c50_order_refuted.

(** defvar: the node evaluates to the state of its variable; a known label leaves the manager as it is and returns the
    handle it had; a new one goes above all existing variables. *)
Theorem c50_defvar I w H x n w' r : mdd_held I w H → g_defvar w x n = Some (w', r) →
  (∀ e, mrange (g_mm w') e → mvalue (g_mm w') e r (VI (VVal (Z.of_nat (e x))))) ∧
  (x ∈ h_label <$> hdrs (g_mm w) → g_mm w' = g_mm w ∧ ∀ r0, (r0, Some (λ e, VI (VVal (Z.of_nat (e x))))) ∈ H → r = r0) ∧
  (x ∉ h_label <$> hdrs (g_mm w) → 0 < n ∧ ∃ hd, hdrs (g_mm w') = hdrs (g_mm w) ++ [hd] ∧
     h_level hd = length (hdrs (g_mm w)) ∧ h_label hd = x ∧ h_edges hd = n).
Proof. exact (held_mdefvar I w H x n w' r). Qed.
Print Assumptions c50_defvar.

Example c50_ex : (r ← ex_w; let '(w, _, _) := r in '(w', y) ← g_defvar w "y" 7; '(w'', v) ← g_defvar w' "v" 4;
   o ← g_varorder w'; o' ← g_varorder w''; Some (y, o, o')) =
  Some (NVal 5, [("x", 3); ("y", 2)]%string, [("x", 3); ("y", 2); ("v", 4)]%string).
Proof. vm_compute. done. Qed.
