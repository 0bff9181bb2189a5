(** Properties C32 - C35 and the multi-state side of C43: probability, importance, counting, enumeration and size. *)
From Coq Require Import ZArith Ring.
From stdpp Require Import strings.
From Verif Require Import Prelude ComputeCache Arena Bdd Mdd MtMdd MtMdd2 BssMgr MssMgr MssAlg SpecMdd SpecBss SpecMss SpecMssAlg MssMgrProofs MssRpn
  MssSolMgr MssAlgMain PropsMss.

(** ** C32 *)
(** Over any commutative ring: prob is the sum, over the state vectors of all declared variables whose value is in [ss], of the
    product of the weights of the states. *)
Theorem c32_prob {R} (rO rI : R) (radd rmul rsub : R → R → R) (ropp : R → R) I w H x F ss pv :
  ring_theory rO rI radd rmul rsub ropp eq → mdd_held I w H → (x, Some F) ∈ H →
  table_for (declared w) pv → sums_to_one rO rI radd (declared w) pv →
  (∃ L, solutions (declared w) (declared w) F ss L) ∧
  ∀ L, solutions (declared w) (declared w) F ss L →
    g_prob rO rI radd rmul w x pv ss = Some (ring_sum rO radd (mweight rO rI rmul pv (declared w) <$> L)).
Proof. intros Rth Hm Hx Ht. exact (held_prob I w H x F ss Hm Hx rO rI radd rmul rsub ropp Rth pv Ht). Qed.
Print Assumptions c32_prob.

(** ** C33 *)
(** bmeas returns an entry for each variable of the diagram; its k-th number is the success probability given state k+1 minus that
    given state k.  Given state j: all weight of the variable on j. *)
Theorem c33_bmeas {R} (rO rI : R) (radd rmul rsub : R → R → R) (ropp : R → R) I w H x F ss pv L :
  ring_theory rO rI radd rmul rsub ropp eq → mdd_held I w H → (x, Some F) ∈ H →
  table_for (declared w) pv → sums_to_one rO rI radd (declared w) pv → solutions (declared w) (declared w) F ss L →
  ∃ g, g_bmeas rO rI radd rmul rsub w x pv ss = Some g ∧ (∀ s, is_Some (g !! s) ↔ m_occurs w x s) ∧
  ∀ s n slot, g !! s = Some slot → (s, n) ∈ declared w → S (length slot) = n ∧
    ∀ k, S k < n → slot !! k = Some (rsub
      (ring_sum rO radd (mweight rO rI rmul (<[s := certain rO rI n (S k)]> pv) (declared w) <$> L))
      (ring_sum rO radd (mweight rO rI rmul (<[s := certain rO rI n k]> pv) (declared w) <$> L))).
Proof. intros Rth Hm Hx Ht H1 HL. exact (held_meas_sum I w H x F ss Hm Hx rO rI radd rmul rsub ropp Rth pv Ht H1 L HL). Qed.
Print Assumptions c33_bmeas.
(** The same in terms of prob, for rows that need not sum to one *)
Theorem c33_bmeas_prob {R} (rO rI : R) (radd rmul rsub : R → R → R) (ropp : R → R) I w H x F ss pv :
  ring_theory rO rI radd rmul rsub ropp eq → mdd_held I w H → (x, Some F) ∈ H → table_for (declared w) pv →
  ∃ g, g_bmeas rO rI radd rmul rsub w x pv ss = Some g ∧ (∀ s, is_Some (g !! s) ↔ m_occurs w x s) ∧
  ∀ s n slot, g !! s = Some slot → (s, n) ∈ declared w → S (length slot) = n ∧
    ∀ k, S k < n → ∃ p p', g_prob rO rI radd rmul w x (<[s := certain rO rI n k]> pv) ss = Some p ∧
      g_prob rO rI radd rmul w x (<[s := certain rO rI n (S k)]> pv) ss = Some p' ∧ slot !! k = Some (rsub p' p).
Proof. intros Rth Hm Hx Ht. exact (held_meas I w H x F ss Hm Hx rO rI radd rmul rsub ropp Rth pv Ht). Qed.
Print Assumptions c33_bmeas_prob.
(** a variable that does not occur has no entry; all its differences would be zero *)
Theorem c33_absent {R} (rO rI : R) (radd rmul rsub : R → R → R) (ropp : R → R) I w H x F ss pv s n k :
  ring_theory rO rI radd rmul rsub ropp eq → mdd_held I w H → (x, Some F) ∈ H → table_for (declared w) pv →
  (s, n) ∈ declared w → ¬ m_occurs w x s → S k < n → ∃ p,
  g_prob rO rI radd rmul w x (<[s := certain rO rI n k]> pv) ss = Some p ∧
  g_prob rO rI radd rmul w x (<[s := certain rO rI n (S k)]> pv) ss = Some p.
Proof. intros Rth Hm Hx Ht. exact (held_absent I w H x F ss Hm Hx rO rI radd rmul rsub ropp Rth pv Ht s n k). Qed.
Print Assumptions c33_absent.

(** ** C34 *)
(** Integer diagrams that are not constant: the number of state vectors over the variables at or below the top variable *)
Theorem c34_count_partial I w H f F ss l L : mdd_held I w H → (NVal f, Some F) ∈ H → g_level w (NVal f) = Some l →
  solutions (declared w) (scope w (NVal f)) F ss L → g_count w (NVal f) ss = Some (N.of_nat (length L)).
Proof. intros Hm Hx. exact (held_count I w H _ F ss Hm Hx f l L eq_refl). Qed.
Print Assumptions c34_count_partial.
(** Boolean diagrams: right if no node of the diagram is entered from two levels *)
Theorem c34_bool_partial I w H f F ss l L : mdd_held I w H → (NBool f, Some F) ∈ H → one_entry (d_ar (mm_b (g_mm w))) f →
  g_level w (NBool f) = Some l →
  solutions (declared w) (scope w (NBool f)) F ss L → g_count w (NBool f) ss = Some (N.of_nat (length L)).
Proof. intros Hm Hx. exact (held_count_bool I w H _ F ss Hm Hx f l L eq_refl). Qed.
Print Assumptions c34_bool_partial.
(** Constants: always 1, which is the number of (empty) vectors exactly when the value is in [ss]. *)
Theorem c34_const_partial I w H x F ss : mdd_held I w H → (x, Some F) ∈ H → g_level w x = None → g_count w x ss = Some 1%N.
Proof. intros Hm Hx. exact (held_count_const I w H x F ss Hm Hx). Qed.
Print Assumptions c34_const_partial.

(** ** C35 *)
(** The iterator yields, each once, exactly the state vectors over the variables at or below the top variable whose value is in
    [ss]; [fuel] bounds the number of loop iterations it may take in all. *)
Theorem c35_extract I w H x F ss : mdd_held I w H → (x, Some F) ∈ H →
  ∃ L k, solutions (declared w) (scope w x) F ss L ∧ ∀ fuel, k ≤ fuel → g_extract fuel w x ss = Some L.
Proof. exact (held_extract I w H x F ss). Qed.
Print Assumptions c35_extract.
(** len() is the number of vectors where C34 holds *)
Theorem c35_len_partial I w H f F ss l fuel L : mdd_held I w H → (NVal f, Some F) ∈ H → g_level w (NVal f) = Some l →
  g_extract fuel w (NVal f) ss = Some L → g_count w (NVal f) ss = Some (N.of_nat (length L)).
Proof.
  intros Hm Hx Hl He. eapply c34_count_partial; [done|done|done|]. by eapply held_extract_at.
Qed.
Print Assumptions c35_len_partial.
Theorem c35_len_bool_partial I w H f F ss l fuel L : mdd_held I w H → (NBool f, Some F) ∈ H → one_entry (d_ar (mm_b (g_mm w))) f →
  g_level w (NBool f) = Some l → g_extract fuel w (NBool f) ss = Some L → g_count w (NBool f) ss = Some (N.of_nat (length L)).
Proof.
  intros Hm Hx H1 Hl He. eapply c34_bool_partial; [done|done|done|done|]. by eapply held_extract_at.
Qed.
Print Assumptions c35_len_bool_partial.

(** ** C43 for MddNode::size *)
Theorem c43_mdd_size I w H x F ln lt : mdd_held I w H → (x, Some F) ∈ H → m_nodes_of w x ln lt →
  g_size w x = Some (N.of_nat (length ln), N.of_nat (length lt), N.of_nat (m_edges_of w x ln)).
Proof. exact (λ Hm Hx, held_size I w H x F [] Hm Hx ln lt). Qed.
Print Assumptions c43_mdd_size.

(** ** Findings *)
(** x + y >= 1 for two-state x and y: three of the four vectors satisfy it, and the iterator yields three, but mdd_count and len() say
    two.  The memo of the boolean copy is keyed by node alone: the count of the terminal at the lower level is reused above it. *)
Definition ex_or : option (mmgr * mnode) :=
  '(w, x) ← g_defvar g_new "x" 2;
  '(w, y) ← g_defvar w "y" 2;
  '(w, a) ← g_bin (mm_bin i32_checked (OArith VAdd)) w x y;
  '(w, c) ← g_value w 1;
  '(w, f) ← g_bin (mm_bin i32_checked (OCmp Gte)) w a c;
  Some (w, f).
Lemma ex_or_held w f : ex_or = Some (w, f) → ∃ H, mdd_held i32_checked w H ∧ (f, Some (λ e, VB (bool_decide (ex_add e >= 1)%Z))) ∈ H.
Proof.
  intros Hex.
  assert (Hhd : (w ← '(w, x) ← g_defvar g_new "x" 2; '(w, y) ← g_defvar w "y" 2; Some w;
     Some (map (λ hd, (h_label hd, h_edges hd)) (hdrs (g_mm w)))) = Some [("x", 2); ("y", 2)]%string) by (vm_compute; reflexivity).
  unfold ex_or in Hex. pose proof (dh_new i32_checked) as H0. revert Hex Hhd H0. generalize g_new. intros w0 Hex Hhd H0.
  destruct (g_defvar w0 "x" 2) as [[w1 x]|] eqn:E1; [|done]. cbn [mbind option_bind] in Hex, Hhd.
  pose proof (dh_step _ _ _ _ _ H0 (ds_defvar _ _ _ _ _ _ _ E1)) as H1.
  destruct (g_defvar w1 "y" 2) as [[w2 y]|] eqn:E2; [|done]. cbn [mbind option_bind] in Hex, Hhd. injection Hhd as Hhd.
  pose proof (dh_step _ _ _ _ _ H1 (ds_defvar _ _ _ _ _ _ _ E2)) as H2.
  destruct (g_bin (mm_bin i32_checked (OArith VAdd)) w2 x y) as [[w3 b]|] eqn:E3; [|done]. cbn [mbind option_bind] in Hex.
  assert (H3 : mdd_held i32_checked w3 ((b, Some (λ e, VI (VVal (ex_add e)))) :: (y, Some ex_y) :: (x, Some ex_x) :: [])).
  { eapply dh_step; [exact H2|]. eapply ds_bin; [| |exact E3| |done].
    - right. left.
    - left.
    - intros e He. assert (Hs : states (map (λ hd, (h_label hd, h_edges hd)) (hdrs (g_mm w2))) e) by exact (proj2 (MssSolMain.states_iff _ e) He).
      rewrite Hhd in Hs. pose proof (Hs "x"%string 2 ltac:(left)). pose proof (Hs "y"%string 2 ltac:(right; left)).
      apply val_add. unfold in_i32, i32_min, i32_max. lia. }
  destruct (g_value w3 1) as [[w4 c]|] eqn:E4; [|done]. cbn [mbind option_bind] in Hex.
  pose proof (dh_step _ _ _ _ _ H3 (ds_value _ _ _ _ _ _ E4)) as H4.
  destruct (g_bin (mm_bin i32_checked (OCmp Gte)) w4 b c) as [[w5 g]|] eqn:E5; [|done]. cbn [mbind option_bind] in Hex.
  assert (w5 = w ∧ g = f) as [<- <-] by (by injection Hex as -> ->).
  eexists. split.
  - eapply dh_step; [exact H4|]. eapply (ds_bin _ (OCmp Gte) _ _ _ _ _ _ _ _ (Some (λ e, VB (bool_decide (ex_add e >= 1)%Z)))); [| |exact E5| |done].
    + right. left.
    + left.
    + intros e _. done.
  - left.
Qed.
Theorem c34_bool_refuted : ∃ I w H x F ss L n, mdd_held I w H ∧ (x, Some F) ∈ H ∧
  solutions (declared w) (scope w x) F ss L ∧ g_count w x ss = Some n ∧ n ≠ N.of_nat (length L).
Proof.
  assert (Hr : ('(w, f) ← ex_or; L ← g_extract 100 w f [1%Z]; n ← g_count w f [1%Z]; Some (length L, n)) = Some (3, 2%N)) by (vm_compute; reflexivity).
  pose proof ex_or_held as Hh. destruct ex_or as [[w f]|]; [|done]. cbn [mbind option_bind] in Hr.
  destruct (Hh w f eq_refl) as (H & Hm & Hin). clear Hh.
  destruct (g_extract 100 w f [1%Z]) as [L|] eqn:HL; [|done]. cbn [mbind option_bind] in Hr.
  destruct (g_count w f [1%Z]) as [n|] eqn:Hn; [|done]. cbn [mbind option_bind] in Hr. apply (inj Some), pair_equal_spec in Hr as [Hl ->].
  eexists i32_checked, w, H, f, _, [1%Z], L, 2%N. sp; [exact Hm|exact Hin|by eapply held_extract_at|exact Hn|by rewrite Hl].
Qed.
Print Assumptions c34_bool_refuted.
(** so len() is not the number of vectors the iterator yields *)
Theorem c35_len_refuted : ∃ I w H x F ss L n fuel, mdd_held I w H ∧ (x, Some F) ∈ H ∧
  g_extract fuel w x ss = Some L ∧ g_count w x ss = Some n ∧ n ≠ N.of_nat (length L).
Proof.
  assert (Hr : ('(w, f) ← ex_or; L ← g_extract 100 w f [1%Z]; n ← g_count w f [1%Z]; Some (length L, n)) = Some (3, 2%N)) by (vm_compute; reflexivity).
  pose proof ex_or_held as Hh. destruct ex_or as [[w f]|]; [|done]. cbn [mbind option_bind] in Hr.
  destruct (Hh w f eq_refl) as (H & Hm & Hin). clear Hh.
  destruct (g_extract 100 w f [1%Z]) as [L|] eqn:HL; [|done]. cbn [mbind option_bind] in Hr.
  destruct (g_count w f [1%Z]) as [n|] eqn:Hn; [|done]. cbn [mbind option_bind] in Hr. apply (inj Some), pair_equal_spec in Hr as [Hl ->].
  eexists i32_checked, w, H, f, _, [1%Z], L, 2%N, 100. sp; [exact Hm|exact Hin|exact HL|exact Hn|by rewrite Hl].
Qed.
Print Assumptions c35_len_refuted.
(** A constant whose value is not in [ss] has no vector, but mdd_count returns 1 for every constant. *)
Theorem c34_const_refuted : ∃ I w H f F ss L n, mdd_held I w H ∧ (NVal f, Some F) ∈ H ∧
  solutions (declared w) (scope w (NVal f)) F ss L ∧ g_count w (NVal f) ss = Some n ∧ n ≠ N.of_nat (length L).
Proof.
  assert (Hr : ('(w, f) ← g_value g_new 5; L ← g_extract 100 w f [3%Z]; n ← g_count w f [3%Z];
    Some (length L, n, match f with NVal _ => true | _ => false end)) = Some (0, 1%N, true)) by (vm_compute; reflexivity).
  destruct (g_value g_new 5) as [[w x]|] eqn:E; [|done]. cbn [mbind option_bind] in Hr.
  pose proof (dh_step _ _ _ _ _ (dh_new i32_checked) (ds_value _ _ _ _ _ _ E)) as Hm. clear E.
  destruct (g_extract 100 w x [3%Z]) as [L|] eqn:HL; [|done]. cbn [mbind option_bind] in Hr.
  destruct (g_count w x [3%Z]) as [n|] eqn:Hn; [|done]. cbn [mbind option_bind] in Hr.
  apply (inj Some), pair_equal_spec in Hr as [[Hl ->]%pair_equal_spec Hx]. destruct x as [f|f]; [|done].
  eexists i32_checked, w, _, f, _, [3%Z], L, 1%N. sp; [exact Hm|left|eapply held_extract_at; [exact Hm|left|exact HL]|exact Hn|by rewrite Hl].
Qed.
Print Assumptions c34_const_refuted.

(** ** Examples *)
(** x + y over x : 3, y : 2, as an integer and as x + y >= 2; weights in Z *)
Definition ex_a : option (mmgr * mnode * mnode) :=
  let w := g_set_threshold g_new 1 in
  '(w, x) ← g_defvar w "x" 3;
  '(w, y) ← g_defvar w "y" 2;
  '(w, a) ← g_bin (mm_bin i32_checked (OArith VAdd)) w x y;
  '(w, c) ← g_value w 2;
  '(w, f) ← g_bin (mm_bin i32_checked (OCmp Gte)) w a c;
  Some (w, a, f).
Definition ex_pv : gmap string (list Z) := <["x"%string := [2; -3; 2]%Z]> (<["y"%string := [-4; 5]%Z]> ∅).
Example c32_ex_held w a f : ex_a = Some (w, a, f) → ∃ H, mdd_held i32_checked w H ∧
  table_for (declared w) ex_pv ∧ sums_to_one 0%Z 1%Z Z.add (declared w) ex_pv ∧
  (a, Some (λ e, VI (VVal (ex_add e)))) ∈ H ∧ (f, Some (λ e, VB (bool_decide (ex_add e >= 2)%Z))) ∈ H.
Proof.
  intros Hex.
  assert (Hvo : ('(w, _, _) ← ex_a; Some (declared w)) = Some [("x", 3); ("y", 2)]%string) by (vm_compute; reflexivity).
  assert (Hhd : (w ← '(w, x) ← g_defvar (g_set_threshold g_new 1) "x" 3; '(w, y) ← g_defvar w "y" 2; Some w;
     Some (map (λ hd, (h_label hd, h_edges hd)) (hdrs (g_mm w)))) = Some [("x", 3); ("y", 2)]%string) by (vm_compute; reflexivity).
  rewrite Hex in Hvo. cbn [mbind option_bind] in Hvo. injection Hvo as Hvo.
  unfold ex_a in Hex. pose proof (dh_step i32_checked _ _ _ _ (dh_new _) (ds_threshold _ _ _ 1)) as H0.
  revert Hex Hhd H0. generalize (g_set_threshold g_new 1). intros w0 Hex Hhd H0.
  destruct (g_defvar w0 "x" 3) as [[w1 x]|] eqn:E1; [|done]. cbn [mbind option_bind] in Hex, Hhd.
  pose proof (dh_step _ _ _ _ _ H0 (ds_defvar _ _ _ _ _ _ _ E1)) as H1.
  destruct (g_defvar w1 "y" 2) as [[w2 y]|] eqn:E2; [|done]. cbn [mbind option_bind] in Hex, Hhd. injection Hhd as Hhd.
  pose proof (dh_step _ _ _ _ _ H1 (ds_defvar _ _ _ _ _ _ _ E2)) as H2.
  destruct (g_bin (mm_bin i32_checked (OArith VAdd)) w2 x y) as [[w3 b]|] eqn:E3; [|done]. cbn [mbind option_bind] in Hex.
  assert (H3 : mdd_held i32_checked w3 ((b, Some (λ e, VI (VVal (ex_add e)))) :: (y, Some ex_y) :: (x, Some ex_x) :: [])).
  { eapply dh_step; [exact H2|]. eapply ds_bin; [| |exact E3| |done].
    - right. left.
    - left.
    - intros e He. destruct (vars_xy _ e Hhd He). apply val_add. unfold in_i32, i32_min, i32_max. lia. }
  destruct (g_value w3 2) as [[w4 c]|] eqn:E4; [|done]. cbn [mbind option_bind] in Hex.
  pose proof (dh_step _ _ _ _ _ H3 (ds_value _ _ _ _ _ _ E4)) as H4.
  destruct (g_bin (mm_bin i32_checked (OCmp Gte)) w4 b c) as [[w5 g]|] eqn:E5; [|done]. cbn [mbind option_bind] in Hex.
  assert (w5 = w ∧ b = a ∧ g = f) as (<- & <- & <-) by (by injection Hex as -> -> ->).
  eexists. rewrite Hvo. sp.
  - eapply dh_step; [exact H4|]. eapply (ds_bin _ (OCmp Gte) _ _ _ _ _ _ _ _ (Some (λ e, VB (bool_decide (ex_add e >= 2)%Z)))); [| |exact E5| |done].
    + right. left.
    + left.
    + intros e _. done.
  - intros s n [[= -> ->]|[[= -> ->]|?%elem_of_nil]%elem_of_cons]%elem_of_cons; [eexists; split; reflexivity..|done].
  - intros s n ps [[= -> ->]|[[= -> ->]|?%elem_of_nil]%elem_of_cons]%elem_of_cons Hps; [..|done]; vm_compute in Hps; by injection Hps as <-.
  - right. right. left.
  - left.
Qed.
(** value 2 at (2,0) and (1,1): 2 * -4 + -3 * 5 = -23; value >= 2 also at (2,1): -23 + 2 * 5 = -13 *)
Example c32_ex : ('(w, a, f) ← ex_a; p ← g_prob 0%Z 1%Z Z.add Z.mul w a ex_pv [2%Z]; q ← g_prob 0%Z 1%Z Z.add Z.mul w f ex_pv [1%Z]; Some (p, q))
  = Some (-23, -13)%Z.
Proof. vm_compute. done. Qed.
Example c33_ex : ('(w, a, f) ← ex_a; p ← g_bmeas 0%Z 1%Z Z.add Z.mul Z.sub w a ex_pv [2%Z]; q ← g_bmeas 0%Z 1%Z Z.add Z.mul Z.sub w f ex_pv [1%Z];
    Some (map_to_list p, map_to_list q)) = Some ([("x", [5; -9]%Z); ("y", [-5]%Z)], [("x", [5; -4]%Z); ("y", [-3]%Z)])%string.
Proof. vm_compute. done. Qed.
Example c34_ex : ('(w, a, f) ← ex_a; n ← g_count w a [1; 2]%Z; n' ← g_count w a [7%Z]; Some (g_level w a, n, n')) = Some (Some 1, 4%N, 0%N).
Proof. vm_compute. done. Qed.
Example c34_ex_const : ('(w, x) ← g_value g_new 5; n ← g_count w x [3%Z]; n' ← g_count w x [5%Z]; Some (g_level w x, n, n')) = Some (None, 1%N, 1%N).
Proof. vm_compute. done. Qed.
Definition show (o : option (list (gmap string nat))) : option (list (list (string * nat))) := map (λ M, map_to_list M) <$> o.
Example c35_ex : ('(w, a, f) ← ex_a; L ← show (g_extract 100 w a [2%Z]); L' ← show (g_extract 100 w f [1%Z]); Some (L, L')) =
  Some ([[("x", 2); ("y", 0)]; [("x", 1); ("y", 1)]], [[("x", 2); ("y", 0)]; [("x", 1); ("y", 1)]; [("x", 2); ("y", 1)]])%string.
Proof. vm_compute. done. Qed.
Example c43_mdd_ex : ('(w, a, f) ← ex_a; n ← g_size w a; n' ← g_size w f; Some (n, n')) = Some (3, 4, 8, (3, 2, 8))%N.
Proof. vm_compute. done. Qed.

(** x <> y over two-state x and y: both terminals are entered from the lower variable only, and the count is right *)
Definition entry_ok {T} (a : arena T) (ps : list nat) (f : nat) : bool :=
  let es := mjoin ((λ p, match ar_nodes a !! p with
      | Some (NT h cs) => match ar_headers a !! h with Some hd => (λ c, (h_level hd, c)) <$> cs | None => [] end
      | _ => [] end) <$> ps) in
  bool_decide (f ∈ ps) && forallb (λ p, match ar_nodes a !! p with Some (NT _ cs) => forallb (λ c, bool_decide (c ∈ ps)) cs | _ => true end) ps &&
  forallb (λ e, forallb (λ e', negb (bool_decide (e.2 = e'.2)) || bool_decide (e.1 = e'.1)) es) es.
Lemma entry_ok_one {T} (a : arena T) ps f : entry_ok a ps f = true → one_entry a f.
Proof.
  unfold entry_ok. intros [[Hf Hc]%andb_true_iff He]%andb_true_iff. apply bool_decide_eq_true in Hf.
  rewrite forallb_forall in Hc. rewrite forallb_forall in He.
  assert (Hr : ∀ p, node_reaches a [f] p → p ∈ ps).
  { intros p Hp. induction Hp as [r Hr|id h cs c Hp IH Hn Hin]; [by apply elem_of_list_singleton in Hr as ->|].
    specialize (Hc id). rewrite <- elem_of_list_In, Hn in Hc. specialize (Hc IH). rewrite forallb_forall in Hc.
    eapply bool_decide_eq_true, Hc. by apply elem_of_list_In. }
  intros c l l' (p & h & cs & hd & Hp & Hn & Hh & Hin & <-) (p' & h' & cs' & hd' & Hp' & Hn' & Hh' & Hin' & <-).
  assert (Hes : ∀ q k ks kd, node_reaches a [f] q → ar_nodes a !! q = Some (NT k ks) → ar_headers a !! k = Some kd → c ∈ ks →
    In (h_level kd, c) (mjoin ((λ p, match ar_nodes a !! p with
      | Some (NT h cs) => match ar_headers a !! h with Some hd => (λ c, (h_level hd, c)) <$> cs | None => [] end
      | _ => [] end) <$> ps))).
  { intros q k ks kd Hq Hnq Hk Hin0. apply elem_of_list_In, elem_of_list_join. eexists. split; [|apply elem_of_list_fmap; exists q; split; [reflexivity|by apply Hr]].
    rewrite Hnq, Hk. apply elem_of_list_fmap. by exists c. }
  specialize (He _ (Hes _ _ _ _ Hp Hn Hh Hin)). cbv beta in He. rewrite forallb_forall in He.
  specialize (He _ (Hes _ _ _ _ Hp' Hn' Hh' Hin')). cbn in He. rewrite bool_decide_true in He by done. by apply bool_decide_eq_true in He.
Qed.
Example c34_ex_bool : ('(w, x) ← g_defvar g_new "x" 2; '(w, y) ← g_defvar w "y" 2; '(w, f) ← g_bin (mm_bin i32_checked (OCmp Neq)) w x y;
    n ← g_count w f [1%Z]; L ← g_extract 100 w f [1%Z];
    match f with NBool i => Some (entry_ok (d_ar (mm_b (g_mm w))) (seq 0 (length (ar_nodes (d_ar (mm_b (g_mm w)))))) i, n, length L) | _ => None end) =
  Some (true, 2%N, 2).
Proof. vm_compute. done. Qed.
