(** The Graphviz text determines the drawing as long as no label contains a double quote. *)
From Coq Require Import Ascii.
From stdpp Require Import strings pretty.
From Verif Require Import Prelude Arena Dot SpecDot.

Lemma app_cons c (s t : string) : String c s +:+ t = String c (s +:+ t).
Proof. done. Qed.
Lemma app_nil (t : string) : "" +:+ t = t.
Proof. done. Qed.
Lemma app_assoc3 (s t u : string) : (s +:+ t) +:+ u = s +:+ (t +:+ u).
Proof. induction s as [|c s IH]; [done|]. rewrite !app_cons, IH. done. Qed.
Lemma app_cancel (p s t : string) : p +:+ s = p +:+ t → s = t.
Proof. apply (inj (String.append p)). Qed.

(** up to the first quote *)
Lemma quote_split s s' t t' : quoteless s → quoteless s' →
  s +:+ String """" t = s' +:+ String """" t' → s = s' ∧ t = t'.
Proof.
  revert s'. induction s as [|c s IH]; intros [|c' s'] Hs Hs' H; rewrite ?app_cons, ?app_nil in H; cbn [quoteless] in *.
  - split; [done|congruence].
  - assert (c' = """"%char) as -> by congruence. by destruct Hs' as [[] _].
  - assert (c = """"%char) as -> by congruence. by destruct Hs as [[] _].
  - destruct Hs as [_ Hs], Hs' as [_ Hs']. injection H as <- H. destruct (IH s' Hs Hs' H) as [-> ->]. done.
Qed.

(** only digits and the minus sign *)
Fixpoint numeric (s : string) : Prop :=
  match s with EmptyString => True | String c s => c ∉ [""""; "T"; "F"; "U"]%char ∧ numeric s end.
Lemma numeric_quote s : numeric s → quoteless s.
Proof. induction s as [|c s IH]; [done|]. cbn [numeric quoteless]. intros [Hc ?]. split; [|auto]. set_solver. Qed.
Lemma numeric_char x : pretty_N_char x ∉ [""""; "T"; "F"; "U"]%char.
Proof. rewrite !not_elem_of_cons. unfold pretty_N_char. repeat case_match; sp; try done; apply not_elem_of_nil. Qed.
Lemma numeric_go x s : numeric s → numeric (pretty_N_go x s).
Proof.
  revert s. induction (N.lt_wf_0 x) as [x _ IH]. intros s Hs. destruct (decide (x = 0)%N) as [->|Hx]; [by rewrite pretty_N_go_0|].
  rewrite pretty_N_go_step by lia. apply IH; [apply N.div_lt; lia|]. split; [apply numeric_char|done].
Qed.
Lemma numeric_N (x : N) : numeric (pretty x).
Proof. unfold pretty, pretty_N. case_decide; [|by apply numeric_go]. split; [|done]. rewrite !not_elem_of_cons. sp; try done; apply not_elem_of_nil. Qed.
Lemma numeric_Z (x : Z) : numeric (pretty x).
Proof.
  unfold pretty, pretty_Z. destruct x as [|p|p]; [exact (numeric_N 0)|exact (numeric_N (N.pos p))|]. split; [|exact (numeric_N (N.pos p))].
  rewrite !not_elem_of_cons. sp; try done; apply not_elem_of_nil.
Qed.
Lemma pretty_N_quote (x : N) : quoteless (pretty x).
Proof. apply numeric_quote, numeric_N. Qed.
Lemma numeric_word (z : Z) c s : c ∈ [""""; "T"; "F"; "U"]%char → pretty z ≠ String c s.
Proof. intros Hc Hz. pose proof (numeric_Z z) as Hn. rewrite Hz in Hn. by destruct Hn. Qed.
Lemma obj_split p q t t' : dot_obj p +:+ t = dot_obj q +:+ t' → p = q ∧ t = t'.
Proof.
  unfold dot_obj. rewrite !app_assoc3. intros H%app_cancel. rewrite !app_cons, !app_nil in H.
  apply quote_split in H as [H ->]; [|apply pretty_N_quote..]. apply (inj pretty) in H. split; [lia|done].
Qed.

Definition plain (l : dline) : Prop := match l with DNode _ _ s => quoteless s | DEdge _ _ _ => True end.
Lemma line_split l l' t t' : plain l → plain l' → dot_line l +:+ t = dot_line l' +:+ t' → l = l' ∧ t = t'.
Proof.
  destruct l as [id sq s|p c i], l' as [id' sq' s'|p' c' i']; cbn [plain dot_line]; intros Hl Hl'; rewrite !app_assoc3; intros [<- H]%obj_split.
  - apply app_cancel in H. assert (sq = sq' ∧ s +:+ """];" +:+ newline +:+ t = s' +:+ """];" +:+ newline +:+ t') as [<- H'].
    { destruct sq, sq'; try (by apply app_cancel, app_cancel in H); rewrite !app_cons in H; discriminate. }
    rewrite !app_cons, !app_nil in H'. apply quote_split in H' as [<- H']; [|done..]. split; [done|]. by simplify_eq.
  - exfalso. rewrite !app_cons in H. discriminate.
  - exfalso. rewrite !app_cons in H. discriminate.
  - apply app_cancel, obj_split in H as [<- H]. apply app_cancel in H. rewrite !app_cons, !app_nil in H.
    apply quote_split in H as [H H']; [|apply pretty_N_quote..]. apply (inj pretty) in H. assert (i = i') as <- by lia.
    split; [done|]. by simplify_eq.
Qed.
Lemma text_inj ls ls' : Forall plain ls → Forall plain ls' → dot_text ls = dot_text ls' → ls = ls'.
Proof.
  unfold dot_text. intros Hl Hl' H%app_cancel%app_cancel. revert ls' Hl' H.
  induction Hl as [|l ls Hl HF IH]; intros [|l' ls'] HF'; cbn [foldr]; rewrite ?app_nil, ?app_assoc3.
  - done.
  - inversion_clear HF'. destruct l'; cbn [dot_line]; rewrite !app_assoc3; unfold dot_obj; rewrite !app_cons; discriminate.
  - destruct l; cbn [dot_line]; rewrite !app_assoc3; unfold dot_obj; rewrite !app_cons; discriminate.
  - inversion_clear HF' as [|? ? H1 H2]. intros [-> H]%line_split; [|done..]. f_equal. by apply IH.
Qed.
