(** Properties C55, C56: the Graphviz output. *)
From Coq Require Import Ascii.
From stdpp Require Import strings pretty.
From Verif Require Import Prelude ComputeCache Arena Bdd Zdd Mdd MtMdd MtMdd2 Zmdd ZmddAlg BssMgr ZddMgr MssMgr SpecBdd SpecBss SpecBssMgr SpecZdd SpecZddMgr
  SpecMdd SpecMss MssMgrProofs MssRpn BddMain BssMgrMain Dot SpecDot DotProofs DotMain DotMss.

(** ** Boolean functions *)
(** The text written for a held handle lists each node and each edge below it exactly once, and following the edges numbered by
    the variables' values ends at the square labelled with the function's value. *)
Theorem c55_bdd w H f (F : nfun) : bss_held w H → (f, F) ∈ H →
  ∃ ls, w_dot w f = Some (dot_text ls) ∧ drawing bdd_says undet_out (b_ar (w_bdd w)) f ls ∧
    ∀ e o, reads ls (bits e) f o ↔ o = Some (if F e then "1" else "0")%string.
Proof.
  intros Hh Hf. destruct (w_dot_ok w H f F Hh Hf) as (ls & Ht & Hd & Hr). exists ls. sp; try done.
  exact (drawing_ext _ _ _ _ _ _ _ b_says b_out Hd).
Qed.
Print Assumptions c55_bdd.

(** Equal texts mean equal functions: false when a variable name contains a double quote, which is written unescaped. *)
Definition ex_mid : string :=
  """];" +:+ newline +:+ dot_line (DNode 0 true "0") +:+ dot_line (DEdge 5 0 0) +:+ dot_obj 3 +:+ " [shape=circle, label=""".
Definition ex_and (x y : string) : option (bmgr * nat) :=
  let '(w, a) := w_defvar w_new x in
  let '(w, b) := w_defvar w y in
  w_and w a b.
Theorem c56_bdd_text_refuted : ∃ w H f (F : nfun) w' H' g (G : nfun), bss_held w H ∧ (f, F) ∈ H ∧ bss_held w' H' ∧ (g, G) ∈ H' ∧
  w_dot w f = w_dot w' g ∧ ∃ e, F e ≠ G e.
Proof.
  set (n1 := "b" +:+ ex_mid +:+ "c"). set (n2 := "a" +:+ ex_mid +:+ "b").
  assert (Hh : ∀ x y w f, ex_and x y = Some (w, f) → ∃ H, bss_held w H ∧ (f, (λ e : env, e x && e y) : nfun) ∈ H).
  { unfold ex_and. intros x y w f Hr. destruct (w_defvar w_new x) as [w1 a] eqn:E1. apply (st_defvar _ _), (sh_step _ _ _ _ sh_new) in E1.
    destruct (w_defvar w1 y) as [w2 b] eqn:E2. apply (st_defvar _ _), (sh_step _ _ _ _ E1) in E2.
    eapply (st_bin BAnd _ _ a (λ e, e x) b (λ e, e y)), (sh_step _ _ _ _ E2) in Hr; [|by repeat constructor..].
    eexists. split; [exact Hr|]. by left. }
  assert (Hd : ('(w, f) ← ex_and n1 "a"; w_dot w f) = ('(w, f) ← ex_and "c" n2; w_dot w f)) by (vm_compute; reflexivity).
  assert (H1 : match ex_and n1 "a" with Some _ => true | None => false end = true) by (vm_compute; reflexivity).
  assert (H2 : match ex_and "c" n2 with Some _ => true | None => false end = true) by (vm_compute; reflexivity).
  assert (N1 : n1 ≠ n2) by (vm_compute; discriminate). assert (N2 : n1 ≠ "c"%string) by (vm_compute; discriminate).
  assert (N3 : n2 ≠ "a"%string) by (vm_compute; discriminate).
  clearbody n1 n2. destruct (ex_and n1 "a") as [[w f]|] eqn:E1; [|done]. destruct (ex_and "c" n2) as [[w' g]|] eqn:E2; [|done]. cbn [mbind option_bind] in Hd.
  destruct (Hh _ _ _ _ E1) as (H & Hw & Hf). destruct (Hh _ _ _ _ E2) as (H' & Hw' & Hg).
  exists w, H, f, (λ e, e n1 && e "a"%string), w', H', g, (λ e, e "c"%string && e n2). sp; try done.
  exists (λ s, bool_decide (s = n1) || bool_decide (s = "a"%string)).
  rewrite !bool_decide_true by done. rewrite !(bool_decide_false (n2 = _)) by done. by rewrite orb_true_r, andb_false_r.
Qed.
Print Assumptions c56_bdd_text_refuted.

(** True when no variable name contains a double quote. *)
Theorem c56_bdd_text_partial w H f (F : nfun) w' H' g (G : nfun) : bss_held w H → (f, F) ∈ H → bss_held w' H' → (g, G) ∈ H' →
  clean (b_ar (w_bdd w)) → clean (b_ar (w_bdd w')) → w_dot w f = w_dot w' g → ∀ e, F e = G e.
Proof. exact (w_dot_text w H f F w' H' g G). Qed.
Print Assumptions c56_bdd_text_partial.

(** ** Families of sets *)
Theorem c55_zdd w H f F : zdd_in_use w H → (f, Some F) ∈ H →
  ∃ ls, y_dot w f = Some (dot_text ls) ∧ drawing zdd_says all_but_one_out (z_ar (y_zdd w)) f ls ∧ ∀ S, spells ls f S ↔ F S.
Proof.
  intros Hh Hf. destruct (y_dot_ok w H f F Hh Hf) as (ls & Ht & Hd & Hr). exists ls. sp; try done.
  exact (drawing_ext _ _ _ _ _ _ _ z_says z_out Hd).
Qed.
Print Assumptions c55_zdd.
Theorem c56_zdd_text_partial w H f F w' H' g G : zdd_in_use w H → (f, Some F) ∈ H → zdd_in_use w' H' → (g, Some G) ∈ H' →
  clean (z_ar (y_zdd w)) → clean (z_ar (y_zdd w')) → y_dot w f = y_dot w' g → ∀ S, F S ↔ G S.
Proof. exact (y_dot_text w H f F w' H' g G). Qed.
Print Assumptions c56_zdd_text_partial.

(** ** Multi-state functions *)
Theorem c55_mdd I w H x F : mdd_held I w H → (x, Some F) ∈ H →
  ∃ ls, g_dot w x = Some (dot_text ls) ∧ mm_drawing (g_mm w) x ls ∧
    ∀ e, mrange (g_mm w) e → ∃ o, answers (F e) o ∧ ∀ o', reads ls e (node_no x) o' ↔ o' = o.
Proof. exact (λ Hh, g_dot_ok I w H x F (held_gok I w H Hh)). Qed.
Print Assumptions c55_mdd.
Theorem c56_mdd_text_partial I w H x F w' H' y G : mdd_held I w H → (x, Some F) ∈ H → mdd_held I w' H' → (y, Some G) ∈ H' →
  clean (t_ar (mm_v (g_mm w))) → clean (t_ar (mm_v (g_mm w'))) → g_dot w x = g_dot w' y →
  ∀ e, mrange (g_mm w) e → mrange (g_mm w') e → F e = G e.
Proof. exact (λ Hh Hx Hh', g_dot_text I w H x F w' H' y G (held_gok I w H Hh) Hx (held_gok I w' H' Hh')). Qed.
Print Assumptions c56_mdd_text_partial.

(** ** Families of vectors *)
Theorem c55_zmdd I s H Q x R : mss_held I s H Q → (x, R) ∈ Q →
  ∃ ls, q_dot (s_z s) (zn_id x) = Some (dot_text ls) ∧ drawing val_says val_out (t_ar (q_z (s_z s))) (zn_id x) ls ∧
    ∀ R', R = Some R' → ∀ v z, (∀ l, length (zn_vars x) ≤ l → v l = 0) → (vspells ls z (zn_id x) (by_name (zn_vars x) v) ↔ R' v z).
Proof.
  intros Hh Hx. destruct (q_dot_ok I s H Q x R Hh Hx) as (ls & Ht & Hd & Hr). exists ls. sp; try done.
  exact (drawing_ext _ _ _ _ _ _ _ v_says v_out Hd).
Qed.
Print Assumptions c55_zmdd.

(** ** Examples *)
(** [x and y]: the square 0 once although two edges lead to it *)
Example c55_ex_bdd : ('(w, f) ← ex_and "x" "y"; dot_lines b_tlabel b_hidden (b_ar (w_bdd w)) f) =
  Some [DNode 5 false "y"; DNode 0 true "0"; DEdge 5 0 0; DNode 3 false "x"; DEdge 3 0 0; DNode 1 true "1"; DEdge 3 1 1; DEdge 5 3 1].
Proof. vm_compute. reflexivity. Qed.
Example c56_ex_clean : ('(w, f) ← ex_and "x" "y"; Some (h_label <$> ar_headers (b_ar (w_bdd w)))) = Some ["x"; "y"] ∧
  quoteless "x" ∧ quoteless "y".
Proof. vm_compute. sp; try done. Qed.
Example c55_ex_text : ('(w, f) ← ex_and "x" "y"; w_dot w f) = Some (
"digraph { layout=dot; overlap=false; splines=true; node [fontsize=10];
""obj5"" [shape=circle, label=""y""];
""obj0"" [shape=square, label=""0""];
""obj5"" -> ""obj0"" [label=""0""];
""obj3"" [shape=circle, label=""x""];
""obj3"" -> ""obj0"" [label=""0""];
""obj1"" [shape=square, label=""1""];
""obj3"" -> ""obj1"" [label=""1""];
""obj5"" -> ""obj3"" [label=""1""];
}
")%string.
Proof. vm_compute. reflexivity. Qed.
(** [{{x,y},{z}}]: no square 0, no edge into it *)
Example c55_ex_zdd : ('(w, f) ← y_from_sets y_new [["x"; "y"]; ["z"]]%string; dot_lines z_tlabel z_hidden (z_ar (y_zdd w)) f) =
  Some [DNode 7 false "z"; DNode 5 false "y"; DNode 3 false "x"; DNode 1 true "1"; DEdge 3 1 1; DEdge 5 3 1; DEdge 7 5 0; DEdge 7 1 1].
Proof. vm_compute. reflexivity. Qed.
(** [x + y] over x : 3, y : 2 *)
Example c55_ex_mdd : (
  '(w, x) ← g_defvar g_new "x" 3;
  '(w, y) ← g_defvar w "y" 2;
  '(w, a) ← g_bin (mm_bin i32_checked (OArith VAdd)) w x y;
  dot_lines v_tlabel v_hidden (t_ar (mm_v (g_mm w))) (node_no a)) =
  Some [DNode 8 false "y"; DNode 4 false "x"; DNode 1 true "0"; DEdge 4 1 0; DNode 2 true "1"; DEdge 4 2 1; DNode 3 true "2"; DEdge 4 3 2;
    DEdge 8 4 0; DNode 7 false "x"; DEdge 7 2 0; DEdge 7 3 1; DNode 6 true "3"; DEdge 7 6 2; DEdge 8 7 1].
Proof. vm_compute. reflexivity. Qed.
(** its minimal vectors, by level *)
Example c55_ex_zmdd : (
  '(w, x) ← g_defvar g_new "x" 3;
  '(w, y) ← g_defvar w "y" 2;
  '(w, a) ← g_bin (mm_bin i32_checked (OArith VAdd)) w x y;
  '(s, r) ← s_minpath i32_checked (Mss w q_new) a;
  r ← r;
  dot_lines v_tlabel v_hidden (t_ar (q_z (s_z s))) (zn_id r)) =
  Some [DNode 7 false "y"; DNode 4 false "x"; DNode 1 true "0"; DEdge 4 1 0; DNode 2 true "1"; DEdge 4 2 1; DNode 3 true "2"; DEdge 4 3 2;
    DEdge 7 4 0; DNode 6 false "x"; DEdge 6 2 0; DEdge 6 3 1; DNode 5 true "3"; DEdge 6 5 2; DEdge 7 6 1].
Proof. vm_compute. reflexivity. Qed.
