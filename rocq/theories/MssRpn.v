(** The multi-state wrapper: RPN against direct evaluation. *)
From stdpp Require Import strings.
From Coq Require Import Ascii.
From Verif Require Import Prelude ComputeCache ComputeCacheProofs Arena Trees ArenaProofs Bdd ArenaMore Mdd MtMdd MtMdd2.
From Verif Require Import SpecBdd SpecMdd NaryProofs MddProofs MtProofs MmProofs MddMain MmMain BssMgr MssMgr SpecBssMgr BssMgrMain SpecMss MssMgrProofs MssMgrVar.

(** ** numbers *)
Lemma scons_inj c s c' s' : String c s = String c' s' → c = c' ∧ s = s'.
Proof. by intros [= <- <-]. Qed.
Lemma digit_of_nat d : d < 10 → digit_of (Ascii.ascii_of_nat (48 + d)) = Some (Z.of_nat d).
Proof. intros Hd. do 10 (destruct d as [|d]; [reflexivity|]). lia. Qed.
Lemma digit_of_inv c z : digit_of c = Some z → ∃ d, d < 10 ∧ c = Ascii.ascii_of_nat (48 + d) ∧ z = Z.of_nat d.
Proof.
  unfold digit_of. destruct (Nat.leb_spec 48 (Ascii.nat_of_ascii c)); [|done].
  destruct (Nat.leb_spec (Ascii.nat_of_ascii c) 57); [|done]. intros [= <-].
  exists (Ascii.nat_of_ascii c - 48). sp; [lia| |done].
  replace (48 + (Ascii.nat_of_ascii c - 48)) with (Ascii.nat_of_ascii c) by lia. by rewrite Ascii.ascii_nat_embedding.
Qed.
Definition dval (acc : Z) (ds : list nat) : Z := foldl (λ v d, v * 10 + Z.of_nat d)%Z acc ds.
Lemma dval_ge acc ds : (0 <= acc)%Z → (acc <= dval acc ds)%Z.
Proof.
  revert acc. induction ds as [|d ds IH]; intros acc Ha; cbn; [lia|]. unfold dval in IH. specialize (IH (acc * 10 + Z.of_nat d)%Z). lia.
Qed.
Definition sgn (neg : bool) (z : Z) : Z := if neg then (- z)%Z else z.
Lemma i32_ok_true z : i32_ok z = true ↔ in_i32 z.
Proof. unfold i32_ok, in_i32, i32_min, i32_max. rewrite andb_true_iff, !Z.leb_le. done. Qed.
Lemma in_i32_le neg a b : (0 <= a <= b)%Z → in_i32 (sgn neg b) → in_i32 (sgn neg a).
Proof. unfold in_i32, i32_min, i32_max, sgn. destruct neg; lia. Qed.
Lemma parse_digits_ok neg s : ∀ acc z, (0 <= acc)%Z → in_i32 (sgn neg acc) →
  parse_digits neg s (sgn neg acc) = Some z ↔
  ∃ ds, s = digits_text ds ∧ Forall (λ d, d < 10) ds ∧ z = sgn neg (dval acc ds) ∧ in_i32 z.
Proof.
  induction s as [|c s IH]; intros acc z Ha Hi; cbn [parse_digits].
  - split.
    + intros [= <-]. exists []. sp; try done.
    + intros (ds & Hs & _ & -> & _). destruct ds; [done|]. done.
  - assert (Hstep : ∀ d, (if neg then sgn neg acc * 10 - Z.of_nat d else sgn neg acc * 10 + Z.of_nat d)%Z = sgn neg (acc * 10 + Z.of_nat d)).
    { intros d. unfold sgn. destruct neg; lia. }
    split.
    + destruct (digit_of c) as [d'|] eqn:Hc; [|done]. cbn [mbind option_bind].
      destruct (digit_of_inv _ _ Hc) as (d & Hd & -> & ->). rewrite Hstep.
      destruct (i32_ok _) eqn:Hok; [|done]. apply i32_ok_true in Hok. intros Hp.
      apply IH in Hp as (ds & -> & Hds & -> & Hz); [|lia|done]. exists (d :: ds). sp; try done. by constructor.
    + intros (ds & Hs & Hds & -> & Hz). destruct ds as [|d ds]; [done|]. apply scons_inj in Hs as [-> ->].
      apply Forall_cons in Hds as [Hd Hds]. rewrite digit_of_nat by done. cbn [mbind option_bind]. rewrite Hstep.
      change (dval acc (d :: ds)) with (dval (acc * 10 + Z.of_nat d) ds) in *.
      assert (in_i32 (sgn neg (acc * 10 + Z.of_nat d))) as Hin.
      { eapply in_i32_le; [|exact Hz]. split; [lia|]. apply dval_ge. lia. }
      rewrite (proj2 (i32_ok_true _) Hin). apply IH; [lia|done|]. by exists ds.
Qed.
Lemma digits_first ds c s : Forall (λ d, d < 10) ds → digits_text ds = String c s →
  Ascii.nat_of_ascii c ≠ 45 ∧ Ascii.nat_of_ascii c ≠ 43.
Proof.
  intros Hds Hs. destruct ds as [|d ds]; [done|]. apply scons_inj in Hs as [<- _]. apply Forall_cons in Hds as [Hd _].
  do 10 (destruct d as [|d]; [by split|]). lia.
Qed.
Lemma parse_i32_ok s z : parse_i32 s = Some z ↔ int_text s z.
Proof.
  assert (Hi0 : ∀ neg, in_i32 (sgn neg 0)) by (intros []; unfold in_i32, i32_min, i32_max; cbn; lia).
  assert (Hpd : ∀ neg s, parse_digits neg s 0 = Some z ↔
    ∃ ds, s = digits_text ds ∧ Forall (λ d, d < 10) ds ∧ z = sgn neg (digits_value ds) ∧ in_i32 z).
  { intros neg s'. rewrite <- (parse_digits_ok neg s' 0 z) by (first [lia|done]). by destruct neg. }
  split.
  - destruct s as [|c r]; [done|]. cbn [parse_i32]. destruct (Nat.eqb_spec (Ascii.nat_of_ascii c) 45) as [Hc|H1].
    + destruct r as [|c' r']; [done|]. intros (ds & Hs & Hds & -> & Hz)%Hpd. exists ds. sp; try done; [by intros ->|].
      right. right. rewrite <- (Ascii.ascii_nat_embedding c), Hc. by rewrite <- Hs.
    + destruct (Nat.eqb_spec (Ascii.nat_of_ascii c) 43) as [Hc|H2].
      * destruct r as [|c' r']; [done|]. intros (ds & Hs & Hds & -> & Hz)%Hpd. exists ds. sp; try done; [by intros ->|].
        right. left. rewrite <- (Ascii.ascii_nat_embedding c), Hc. by rewrite <- Hs.
      * intros (ds & Hs & Hds & -> & Hz)%Hpd. exists ds. sp; try done; [by intros ->|]. by left.
  - intros (ds & Hne & Hds & Hz & [[-> ->]|[[-> ->]|[-> ->]]]).
    + destruct (digits_text ds) as [|c r] eqn:Hs; [by destruct ds|]. destruct (digits_first _ _ _ Hds Hs) as [H1 H2]. cbn [parse_i32].
      destruct (Nat.eqb_spec (Ascii.nat_of_ascii c) 45); [done|]. destruct (Nat.eqb_spec (Ascii.nat_of_ascii c) 43); [done|].
      apply Hpd. by exists ds.
    + change (parse_i32 ("+" +:+ digits_text ds)) with
        (match digits_text ds with EmptyString => None | _ => parse_digits false (digits_text ds) 0 end).
      assert (Hp : parse_digits false (digits_text ds) 0 = Some (digits_value ds)) by (apply Hpd; by exists ds).
      rewrite Hp. by destruct ds.
    + change (parse_i32 ("-" +:+ digits_text ds)) with
        (match digits_text ds with EmptyString => None | _ => parse_digits true (digits_text ds) 0 end).
      assert (Hp : parse_digits true (digits_text ds) 0 = Some (- digits_value ds)%Z) by (apply Hpd; by exists ds).
      rewrite Hp. by destruct ds.
Qed.

(** ** tokens *)
Lemma op_none I s : (∀ o, mtok_wf (MOp o) → mprint (MOp o) ≠ s) → mrpn_op I s = None.
Proof.
  intros Hn. unfold mrpn_op.
  destruct (String.eqb_spec s "+") as [->|_]; [by destruct (Hn (OArith VAdd))|].
  destruct (String.eqb_spec s "-") as [->|_]; [by destruct (Hn (OArith VSub))|].
  destruct (String.eqb_spec s "*") as [->|_]; [by destruct (Hn (OArith VMul))|].
  destruct (String.eqb_spec s "/") as [->|_]; [by destruct (Hn (OArith VDiv))|].
  destruct (String.eqb_spec s "min") as [->|_]; [by destruct (Hn (OArith VMin))|].
  destruct (String.eqb_spec s "max") as [->|_]; [by destruct (Hn (OArith VMax))|].
  destruct (String.eqb_spec s "==") as [->|_]; [by destruct (Hn (OCmp Eq))|].
  destruct (String.eqb_spec s "!=") as [->|_]; [by destruct (Hn (OCmp Neq))|].
  destruct (String.eqb_spec s "<") as [->|_]; [by destruct (Hn (OCmp Lt))|].
  destruct (String.eqb_spec s "<=") as [->|_]; [by destruct (Hn (OCmp Lte))|].
  destruct (String.eqb_spec s ">") as [->|_]; [by destruct (Hn (OCmp Gt))|].
  destruct (String.eqb_spec s ">=") as [->|_]; [by destruct (Hn (OCmp Gte))|].
  destruct (String.eqb_spec s "&&") as [->|_]; [by destruct (Hn (OGate GAnd))|].
  destruct (String.eqb_spec s "||") as [->|_]; [by destruct (Hn (OGate GOr))|]. done.
Qed.
Lemma op_some I o : mtok_wf (MOp o) → mrpn_op I (mprint (MOp o)) = Some (mm_bin I o).
Proof. destruct o as [[]|[]|[]]; done. Qed.
Definition word_tail (I : vint) (vars : gmap string nat) (s : mrpn) (token : string) : option (mrpn * bool) :=
  match parse_i32 token with
  | Some z => let '(m, x) := mm_value (g_mm (mr_w s)) z in
      Some (MRpn (with_mm (mr_w s) m) (x :: mr_stack s) (mr_saved s), true)
  | None =>
      range ← vars !! token;
      '(w, x) ← g_defvar (mr_w s) token range;
      Some (MRpn (g_drop w x) (x :: mr_stack s) (mr_saved s), true)
  end.
(** the last two arms are reached by words that are none of the other tokens *)
Lemma word_step I vars s t x : mprint t = x → match t with MLit _ _ => int_text x (match t with MLit _ z => z | _ => 0%Z end) | MVar _ => mtok_ok t | _ => False end →
  mrpn_step I vars s x = word_tail I vars s x.
Proof.
  intros <- Ht.
  assert (Hno : ∀ t', mtok_wf t' → match t' with MLit _ _ | MVar _ => False | _ => True end → mprint t' ≠ mprint t).
  { intros t' Hwf Hk Hp. destruct t as [txt z| | | | | | |x]; try done.
    - cbn [mprint] in Hp. apply parse_i32_ok in Ht. rewrite <- Hp in Ht.
      destruct t' as [| []|[[]|[]|[]]| | |y|y|y]; cbn [mprint] in Ht; done.
    - destruct Ht as [_ Ht]. rewrite (Ht t' Hwf Hp) in Hk. done. }
  unfold mrpn_step. rewrite op_none by (intros o Ho; by apply Hno).
  destruct (String.eqb_spec (mprint t) "!") as [He|_]; [by destruct (Hno MNot)|].
  destruct (String.eqb_spec (mprint t) "?") as [He|_]; [by destruct (Hno MIte)|].
  destruct (String.eqb_spec (mprint t) "True") as [He|_]; [by destruct (Hno (MBool true))|].
  destruct (String.eqb_spec (mprint t) "False") as [He|_]; [by destruct (Hno (MBool false))|].
  destruct (paren_arg "save(" (mprint t)) as [y|] eqn:Hs.
  { apply paren_inv in Hs; [|done|done]. by destruct (Hno (MSave y)). }
  destruct (paren_arg "load(" (mprint t)) as [y|] eqn:Hd.
  { apply paren_inv in Hd; [|done|done]. by destruct (Hno (MLoad y)). }
  done.
Qed.
Lemma var_text x : mtok_ok (MVar x) → parse_i32 x = None.
Proof.
  intros [_ Ht]. destruct (parse_i32 x) as [z|] eqn:Hp; [|done]. apply parse_i32_ok in Hp. by specialize (Ht (MLit x z) Hp eq_refl).
Qed.
Lemma mtok_exists s : ∃ t, mtok_ok t ∧ mprint t = s.
Proof.
  destruct (decide (s ∈ mprint <$> [MBool true; MBool false; MNot; MIte; MOp (OArith VAdd); MOp (OArith VSub); MOp (OArith VMul); MOp (OArith VDiv);
     MOp (OArith VMin); MOp (OArith VMax); MOp (OCmp Eq); MOp (OCmp Neq); MOp (OCmp Lt); MOp (OCmp Lte); MOp (OCmp Gt); MOp (OCmp Gte);
     MOp (OGate GAnd); MOp (OGate GOr)])) as [(t & Hp & Hin)%elem_of_list_fmap|Hno].
  { exists t. split; [|done]. rewrite !elem_of_cons, elem_of_nil in Hin.
    repeat (destruct Hin as [->|Hin]; [by repeat split|]). done. }
  destruct (paren_arg "save(" s) as [x|] eqn:Hs.
  { apply paren_inv in Hs; [|done|done]. by exists (MSave x). }
  destruct (paren_arg "load(" s) as [x|] eqn:Hd.
  { apply paren_inv in Hd; [|done|done]. by exists (MLoad x). }
  destruct (parse_i32 s) as [z|] eqn:Hz.
  { exists (MLit s z). split; [|done]. split; [|done]. by apply parse_i32_ok. }
  exists (MVar s). split; [|done]. split; [done|]. intros t' Hwf Hp. destruct t' as [txt z|b|o| | |y|y|y]; cbn [mprint mtok_wf] in *.
  - exfalso. subst. apply parse_i32_ok in Hwf. congruence.
  - exfalso. apply Hno, elem_of_list_fmap. exists (MBool b). split; [done|]. destruct b; rewrite !elem_of_cons; tauto.
  - exfalso. apply Hno, elem_of_list_fmap. exists (MOp o). split; [done|]. clear -Hwf. destruct o as [[]|[]|[]]; try done; rewrite !elem_of_cons; tauto.
  - exfalso. apply Hno, elem_of_list_fmap. exists MNot. split; [done|]. rewrite !elem_of_cons; tauto.
  - exfalso. apply Hno, elem_of_list_fmap. exists MIte. split; [done|]. rewrite !elem_of_cons; tauto.
  - exfalso. subst. by rewrite paren_save in Hs.
  - exfalso. subst. by rewrite paren_load in Hd.
  - by subst.
Qed.
Lemma mexpr_tokens expr : ∃ ts, Forall mtok_ok ts ∧ separated expr (mprint <$> ts).
Proof.
  assert (∀ ws : list string, ∃ ts, Forall mtok_ok ts ∧ mprint <$> ts = ws) as Hws.
  { induction ws as [|w ws (ts & IH1 & IH2)]; [by exists []|]. destruct (mtok_exists w) as (t & Ht & Hp).
    exists (t :: ts). split; [by constructor|]. cbn. by rewrite Hp, IH2. }
  destruct (Hws (split_whitespace expr)) as (ts & Hts & He). exists ts. split; [done|]. rewrite He.
  by apply (split_go_separated expr "").
Qed.

Section mss.
Context (I : vint) {B : mbase}.
Notation bar m := (d_ar (mm_b m)).
Notation var m := (t_ar (mm_v m)).
Notation hdrs m := (ar_headers (bar m)).

Definition rvalid (m : mm) (s : mrpn) : Prop :=
  Forall (mm_valid m) (mr_stack s) ∧ ∀ k x, mr_saved s !! k = Some x → mm_valid m x.
Record rmatch (m : mm) (e : menv) (s : mrpn) (a : mstate) : Prop := {
  rm_stack : Forall2 (mvalue m e) (mr_stack s) a.1;
  rm_saved : ∀ k, option_Forall2 (mvalue m e) (mr_saved s !! k) (a.2 !! k);
}.
Definition newh (vars : gmap string nat) (m m' : mm) : Prop :=
  ∀ hd, hd ∈ hdrs m' → hd ∈ hdrs m ∨ vars !! h_label hd = Some (h_edges hd).

Lemma mv_lval m e x v : mmwf I m → lvl_ok m → mvalue m e x v ↔ lval m (rho_of m e) x v.
Proof. intros Hw Hl. apply (mvalue_lval I); [done|]. by apply rho_agree. Qed.
Lemma rho_of_step m m' e : hdrs m' = hdrs m → rho_of m' e = rho_of m e.
Proof. intros Hh. unfold rho_of. by rewrite Hh. Qed.
Lemma lvl_step m m' : hdrs m' = hdrs m → lvl_ok m → lvl_ok m'.
Proof. intros Hh Hl i hd. rewrite Hh. apply Hl. Qed.
Lemma stk_ext m m' e xs vs : mmwf I m → lvl_ok m' → mext I m m' → Forall (mm_valid m) xs →
  Forall2 (mvalue m e) xs vs → Forall2 (mvalue m' e) xs vs.
Proof.
  intros Hw Hl Hm Hv Hf. induction Hf as [|x v xs vs Hx _ IH]; [done|]. apply Forall_cons in Hv as [Hv Hvs].
  constructor; [by eapply (mvalue_ext I m)|by apply IH].
Qed.
Lemma sav_ext m m' e (sv : gmap string mnode) (sa : gmap string mval) : mmwf I m → lvl_ok m' → mext I m m' →
  (∀ k x, sv !! k = Some x → mm_valid m x) →
  (∀ k, option_Forall2 (mvalue m e) (sv !! k) (sa !! k)) → ∀ k, option_Forall2 (mvalue m' e) (sv !! k) (sa !! k).
Proof.
  intros Hw Hl Hm Hv Hf k. specialize (Hf k). specialize (Hv k). destruct Hf as [x v Hx|]; constructor.
  eapply (mvalue_ext I m); try done. by apply Hv.
Qed.
Lemma menv_of_rho0 m (rho : nat → nat) : lvl_ok m → NoDup (h_label <$> hdrs m) →
  ∃ e, nagree m rho e ∧ ∀ x, x ∉ h_label <$> hdrs m → e x = 0.
Proof.
  intros Hl Hnd. destruct (menv_of_rho m rho Hl Hnd) as [e He].
  exists (λ x, if decide (x ∈ h_label <$> hdrs m) then e x else 0). split.
  - intros hd Hin. rewrite decide_True; [by apply He|]. apply elem_of_list_fmap. by exists hd.
  - intros x Hx. by rewrite decide_False.
Qed.
Lemma zero_env w H : gok I w H → mrange (g_mm w) (λ _, 0).
Proof. intros Hk hd Hin. destruct (gok_hc _ _ _ Hk) as [Hp _]. by apply Hp. Qed.

Definition stepped (vars : gmap string nat) (H : handles) (s : mrpn) (t : mtok) (s' : mrpn) (go : bool) : Prop :=
  gok I (mr_w s') H ∧ mext I (g_mm (mr_w s)) (g_mm (mr_w s')) ∧ rvalid (g_mm (mr_w s')) s' ∧
  newh vars (g_mm (mr_w s)) (g_mm (mr_w s')) ∧
  ∀ e a, mrange (g_mm (mr_w s')) e → t ≠ MOp (OCmp Lte) → rmatch (g_mm (mr_w s)) e s a →
    match meval_step I e a t with
    | Value a' => go = true ∧ rmatch (g_mm (mr_w s')) e s' a'
    | Reported => go = false
    | Underflow => True
    end.
Definition panicked (vars : gmap string nat) (s : mrpn) (t : mtok) : Prop :=
  (∃ x, t = MVar x ∧ (vars !! x = None ∨ vars !! x = Some 0)) ∨
  ∃ e, mrange (g_mm (mr_w s)) e ∧ (∀ x, x ∉ h_label <$> hdrs (g_mm (mr_w s)) → e x = 0) ∧
    ∀ a, rmatch (g_mm (mr_w s)) e s a → meval_step I e a t = Underflow.

Section step.
Context (vars : gmap string nat) (H : handles) (w : mmgr) (ids : list mnode) (sv : gmap string mnode).
Context (Hk : gok I w H) (Hids : Forall (mm_valid (g_mm w)) ids) (Hsv : ∀ k x, sv !! k = Some x → mm_valid (g_mm w) x).
Let s := MRpn w ids sv.
Let m := g_mm w.
Let Hw : mmwf I m := gk_wf _ _ _ Hk.
Let Hl : lvl_ok m := gk_lvl _ _ _ Hk.

(** the stack below [k] operands, with a result pushed *)
Lemma push_ok t k m' r : mmstep I m m' → mm_valid m' r →
  (∀ e st sa, mrange m e → t ≠ MOp (OCmp Lte) → rmatch m e s (st, sa) →
     match meval_step I e (st, sa) t with
     | Value a' => ∃ v, a' = (v :: drop k st, sa) ∧ lval m' (rho_of m e) r v
     | Reported => False
     | Underflow => True
     end) →
  stepped vars H s t (MRpn (with_mm w m') (r :: drop k ids) sv) true.
Proof.
  intros Hst Vr Hv. pose proof (mmstep_mext _ _ _ Hst) as Hm. pose proof Hst as (Hw' & _ & _ & Hhd).
  assert (Hl' : lvl_ok m') by by apply (lvl_step m).
  unfold stepped. cbn [s mr_w mr_stack mr_saved g_mm with_mm]. fold m. sp.
  - by apply gok_step.
  - done.
  - split; cbn [mr_stack mr_saved].
    + constructor; [done|]. apply Forall_drop. eapply Forall_impl; [exact Hids|]. intros x. by apply (mext_valid I).
    + intros j x Hj. eapply (mext_valid I); [done|]. by eapply Hsv.
  - intros hd. rewrite Hhd. by left.
  - intros e [st sa] He Hne Hrm. assert (He' : mrange m e) by by eapply mrange_ext.
    specialize (Hv e st sa He' Hne Hrm). destruct (meval_step I e (st, sa) t) as [a'| |]; [|done|done].
    destruct Hv as (v & -> & Hlv). split; [done|]. destruct Hrm as [Hs Hsa]. cbn [mr_stack mr_saved fst snd] in *.
    constructor; cbn [mr_stack mr_saved fst snd].
    + constructor; [by apply mv_lval; [done|done|rewrite (rho_of_step m)]|].
      apply Forall2_drop. exact (stk_ext m m' e ids st Hw Hl' Hm Hids Hs).
    + exact (sav_ext m m' e sv sa Hw Hl' Hm Hsv Hsa).
Qed.

Lemma stay_ok t s' go : mr_w s' = w → rvalid m s' →
  (∀ e a, mrange m e → rmatch m e s a →
    match meval_step I e a t with Value a' => go = true ∧ rmatch m e s' a' | Reported => go = false | Underflow => True end) →
  stepped vars H s t s' go.
Proof.
  intros Hs' Hv Hm. unfold stepped. rewrite Hs'. cbn [s mr_w]. fold m. sp; [done|by apply mext_refl|done| |].
  - intros hd. by left.
  - intros e a He _. by apply Hm.
Qed.
End step.

Section step2.
Context (vars : gmap string nat) (H : handles) (w : mmgr) (ids : list mnode) (sv : gmap string mnode).
Context (Hk : gok I w H) (Hids : Forall (mm_valid (g_mm w)) ids) (Hsv : ∀ k x, sv !! k = Some x → mm_valid (g_mm w) x).
Let s := MRpn w ids sv.
Let m := g_mm w.
Let Hw : mmwf I m := gk_wf _ _ _ Hk.
Let Hl : lvl_ok m := gk_lvl _ _ _ Hk.

Lemma step_op o : mtok_wf (MOp o) →
  match mrpn_step I vars s (mprint (MOp o)) with Some (s', go) => stepped vars H s (MOp o) s' go | None => panicked vars s (MOp o) end.
Proof.
  intros Hwf. unfold mrpn_step. rewrite (op_some I o Hwf). unfold mrpn_bin. cbn [s mr_stack mr_saved mr_w]. fold m.
  assert (Hund : length ids < 2 → panicked vars s (MOp o)).
  { intros Hlen. right. exists (λ _, 0). cbn [s mr_w]. sp; [by eapply zero_env|done|]. intros [st sa] [Hs _]. cbn in Hs.
    apply Forall2_length in Hs. cbn. destruct st as [|b [|a st]]; cbn in *; try done. lia. }
  destruct ids as [|g [|f ids']]; try (apply Hund; cbn; lia). clear Hund.
  pose proof Hids as Hids'. apply Forall_cons in Hids' as [Vg Hids'%Forall_cons]. destruct Hids' as [Vf _].
  pose proof (mm_bin_l I o m f g Hw Vf Vg) as Hb. destruct (mm_bin I o m f g) as [[m' r]|]; cbn [mbind option_bind].
  - destruct Hb as (Hst & Vr & Hv). apply (push_ok vars H w _ sv Hk Hids Hsv (MOp o) 2 m' r Hst Vr). intros e st sa He Hne [Hs _]. cbn [s mr_stack fst] in Hs.
    apply Forall2_cons_inv_l in Hs as (b & st' & Hb & Hs & ->). apply Forall2_cons_inv_l in Hs as (a & st'' & Ha & Hs & ->).
    cbn [meval_step drop]. destruct (val2 I o a b) as [v|] eqn:Hv2; [|done]. exists v. split; [done|].
    eapply Hv; [by intros ->|apply (mrange_rho _ _ _ (rho_agree _ e Hl)); done|by apply mv_lval|by apply mv_lval|done].
  - destruct Hb as (rho & a & b & Hr & Ha & Hb & Hn). right. destruct (menv_of_rho0 m rho Hl (gk_nodup _ _ _ Hk)) as (e & Hag & He0).
    exists e. cbn [s mr_w]. fold m. sp; [by apply (mrange_rho _ _ _ Hag)|done|]. intros [st sa] [Hs _]. cbn [s mr_stack fst] in Hs.
    apply Forall2_cons_inv_l in Hs as (b' & st' & Hb' & Hs & ->). apply Forall2_cons_inv_l in Hs as (a' & st'' & Ha' & Hs & ->).
    apply (mvalue_lval I _ _ _ _ _ Hw Hag) in Ha', Hb'.
    rewrite (lval_fun _ _ _ _ _ Ha' Ha), (lval_fun _ _ _ _ _ Hb' Hb). cbn [meval_step]. by rewrite Hn.
Qed.
Lemma step_not :
  match mrpn_step I vars s (mprint MNot) with Some (s', go) => stepped vars H s MNot s' go | None => panicked vars s MNot end.
Proof.
  change (mrpn_step I vars s (mprint MNot)) with (match mr_stack s with
    | a :: st => '(m, r) ← mm_not (g_mm (mr_w s)) a; Some (MRpn (with_mm (mr_w s) m) (r :: st) (mr_saved s), true)
    | _ => None end).
  cbn [s mr_stack mr_saved mr_w]. fold m. destruct ids as [|f ids'].
  { right. exists (λ _, 0). cbn [mr_w]. sp; [by eapply zero_env|done|]. intros [st sa] [Hs _]. cbn in Hs. by apply Forall2_nil_inv_l in Hs as ->. }
  pose proof Hids as Hids'. apply Forall_cons in Hids' as [Vf _].
  destruct (mm_not_v I m f Hw Vf) as (m' & r & -> & Hst & Vr & Hv). cbn [mbind option_bind].
  apply (push_ok vars H w _ sv Hk Hids Hsv MNot 1 m' r Hst Vr). intros e st sa He Hne [Hs _]. cbn [s mr_stack fst] in Hs.
  apply Forall2_cons_inv_l in Hs as (a & st'' & Ha & Hs & ->).
  cbn [meval_step drop]. destruct (val_not a) as [v|] eqn:Hv2; [|done]. exists v. split; [done|].
  eapply Hv; [apply (mrange_rho _ _ _ (rho_agree _ e Hl)); done|by apply mv_lval|done].
Qed.
Lemma step_ite :
  match mrpn_step I vars s (mprint MIte) with Some (s', go) => stepped vars H s MIte s' go | None => panicked vars s MIte end.
Proof.
  change (mrpn_step I vars s (mprint MIte)) with (match mr_stack s with
    | c :: b :: a :: st =>
        '(m, r) ← mm_ite (g_mm (mr_w s)) a b c; Some (MRpn (with_mm (mr_w s) m) (r :: st) (mr_saved s), true)
    | _ => None end).
  cbn [s mr_stack mr_saved mr_w]. fold m.
  assert (Hund : length ids < 3 → panicked vars s MIte).
  { intros Hlen. right. exists (λ _, 0). cbn [s mr_w]. sp; [by eapply zero_env|done|]. intros [st sa] [Hs _]. cbn in Hs.
    apply Forall2_length in Hs. cbn. destruct st as [|b [|a [|c st]]]; cbn in *; try done. lia. }
  destruct ids as [|g [|f [|c ids']]]; try (apply Hund; cbn; lia). clear Hund.
  pose proof Hids as Hids'. apply Forall_cons in Hids' as [Vg Hids'%Forall_cons]. destruct Hids' as [Vf Hids'%Forall_cons].
  destruct Hids' as [Vc _].
  pose proof (mm_ite_v I m c f g Hw Vc Vf Vg) as Hb. destruct (mm_ite m c f g) as [[m' r]|]; cbn [mbind option_bind].
  - destruct Hb as (Hst & Vr & Hv). apply (push_ok vars H w _ sv Hk Hids Hsv MIte 3 m' r Hst Vr). intros e st sa He Hne [Hs _]. cbn [s mr_stack fst] in Hs.
    apply Forall2_cons_inv_l in Hs as (b & st' & Hb & Hs & ->). apply Forall2_cons_inv_l in Hs as (a & st'' & Ha & Hs & ->).
    apply Forall2_cons_inv_l in Hs as (x & st''' & Hx & Hs & ->).
    cbn [meval_step drop]. destruct (val_ite x a b) as [v|] eqn:Hv2; [|done]. exists v. split; [done|].
    eapply Hv; [apply (mrange_rho _ _ _ (rho_agree _ e Hl)); done|by apply mv_lval|by apply mv_lval|by apply mv_lval|done].
  - right. exists (λ _, 0). cbn [s mr_w]. sp; [by eapply zero_env|done|]. intros [st sa] [Hs _]. cbn [s mr_stack fst] in Hs.
    apply Forall2_cons_inv_l in Hs as (b & st' & Hb' & Hs & ->). apply Forall2_cons_inv_l in Hs as (a & st'' & Ha & Hs & ->).
    apply Forall2_cons_inv_l in Hs as (x & st''' & Hx & Hs & ->). cbn [meval_step]. apply (mv_lval m) in Ha, Hb', Hx; try done.
    by rewrite (Hb (rho_of m (λ _, 0)) x a b).
Qed.
Lemma step_bool b :
  match mrpn_step I vars s (mprint (MBool b)) with Some (s', go) => stepped vars H s (MBool b) s' go | None => panicked vars s (MBool b) end.
Proof.
  assert (mrpn_step I vars s (mprint (MBool b)) = Some (MRpn (with_mm w m) ((if b then mm_one else mm_zero) :: drop 0 ids) sv, true)) as ->.
  { unfold m, s, with_mm. destruct w. by destruct b. }
  pose proof (mw_good _ (mmw_b _ _ Hw)) as Hg. apply (push_ok vars H w _ sv Hk Hids Hsv); [by apply mmstep_refl| |].
  - destruct b; eapply repr_live; [apply (mg_one _ Hg)|apply (mg_zero _ Hg)].
  - intros e st sa _ _ _. cbn [meval_step]. exists (VB b). split; [done|]. destruct b; eexists; (split; [done|]).
    + by apply (nval_eval _ _ _ _ _ (mg_one _ Hg)).
    + by apply (nval_eval _ _ _ _ _ (mg_zero _ Hg)).
Qed.
Lemma step_lit txt z : int_text txt z →
  match mrpn_step I vars s txt with Some (s', go) => stepped vars H s (MLit txt z) s' go | None => panicked vars s (MLit txt z) end.
Proof.
  intros Ht. rewrite (word_step I vars s (MLit txt z) txt eq_refl Ht). unfold word_tail.
  rewrite (proj2 (parse_i32_ok txt z) Ht). cbn [s mr_w mr_stack mr_saved]. fold m.
  destruct (mm_value_l I m z Hw) as (m' & r & -> & Hst & Vr & Hv). apply (push_ok vars H w _ sv Hk Hids Hsv _ 0 m' r Hst Vr).
  intros e st sa _ _ _. cbn [meval_step]. exists (VI (VVal z)). split; [done|]. apply Hv.
Qed.
Lemma step_var x : mtok_ok (MVar x) →
  match mrpn_step I vars s x with Some (s', go) => stepped vars H s (MVar x) s' go | None => panicked vars s (MVar x) end.
Proof.
  intros Ht. rewrite (word_step I vars s (MVar x) x eq_refl Ht). unfold word_tail. rewrite (var_text x Ht).
  destruct (vars !! x) as [n|] eqn:Hx; [|left; exists x; by eauto]. cbn [mbind option_bind s mr_w mr_stack mr_saved].
  destruct (g_defvar w x n) as [[w' r]|] eqn:Hdef; cbn [mbind option_bind].
  - destruct (defvar_ok I w H x n w' r Hk Hdef) as (Hk' & Hm & Hvx).
    assert (Hk2 : gok I (g_drop w' r) H) by by eapply gok_drop.
    assert (Hden : mden (g_mm w') r (Some (varfn x))) by (apply (gk_held _ _ _ Hk'); by left).
    pose proof (gk_lvl _ _ _ Hk') as Hl'. change (g_mm (g_drop w' r)) with (g_mm w') in *.
    unfold stepped. cbn [mr_w mr_stack mr_saved]. change (g_mm (g_drop w' r)) with (g_mm w'). fold m. sp; try done.
    + split; cbn [mr_stack mr_saved].
      * constructor; [apply Hden|]. eapply Forall_impl; [exact Hids|]. intros y. by apply (mext_valid I).
      * intros j y Hj. eapply (mext_valid I); [done|]. by eapply Hsv.
    + intros hd Hin. destruct (g_vars w !! x) as [r'|] eqn:Hvx'.
      * destruct (defvar_old I w H x n r' Hk Hvx') as [E _]. rewrite Hdef in E. injection E as -> _. by left.
      * destruct n as [|n]; [by rewrite defvar_none in Hdef|].
        destruct (defvar_new I w H x (S n) Hk Hvx') as (w1 & r1 & E & _ & _ & Hhd & _); [lia|]. rewrite Hdef in E. injection E as <- <-.
        rewrite Hhd, elem_of_app, elem_of_list_singleton in Hin. destruct Hin as [Hin| ->]; [by left|]. by right.
    + intros e [st sa] He _ [Hs Hsa]. cbn [meval_step]. split; [done|]. cbn [mr_stack mr_saved fst snd] in *.
      constructor; cbn [mr_stack mr_saved fst snd].
      * constructor; [by apply (proj2 Hden _ eq_refl)|]. exact (stk_ext m (g_mm w') e ids st Hw Hl' Hm Hids Hs).
      * exact (sav_ext m (g_mm w') e sv sa Hw Hl' Hm Hsv Hsa).
  - left. exists x. split; [done|]. right. destruct (g_vars w !! x) as [r'|] eqn:Hvx'.
    { destruct (defvar_old I w H x n r' Hk Hvx') as [E _]. congruence. }
    destruct n as [|n]; [done|]. destruct (defvar_new I w H x (S n) Hk Hvx') as (w1 & r1 & E & _); [lia|]. congruence.
Qed.
Lemma step_save x :
  match mrpn_step I vars s (mprint (MSave x)) with Some (s', go) => stepped vars H s (MSave x) s' go | None => panicked vars s (MSave x) end.
Proof.
  assert (mrpn_step I vars s (mprint (MSave x)) = match ids with
      | y :: st => Some (MRpn w (y :: st) (<[x := y]> sv), true)
      | [] => Some (s, false)
      end) as ->.
  { unfold mrpn_step. rewrite op_none.
    2:{ intros [[]|[]|[]]; done. }
    cbn [mprint]. rewrite paren_save. by destruct ids. }
  destruct ids as [|y ids'].
  - apply (stay_ok vars H w _ sv Hk); [done|done|]. intros e [st sa] He [Hs _]. cbn in Hs. apply Forall2_nil_inv_l in Hs as ->. done.
  - apply (stay_ok vars H w _ sv Hk); [done| |].
    + split; [done|]. cbn [mr_saved]. intros j z. destruct (decide (j = x)) as [->|]; [rewrite lookup_insert|rewrite lookup_insert_ne by done; apply Hsv].
      intros [= <-]. by apply Forall_cons in Hids as [? _].
    + intros e [st sa] He [Hs Hsa]. cbn [s mr_stack mr_saved fst snd] in *.
      apply Forall2_cons_inv_l in Hs as (v & st' & Hv & Hs & ->). cbn [meval_step]. split; [done|]. constructor; cbn [mr_stack mr_saved fst snd].
      * by constructor.
      * intros j. destruct (decide (j = x)) as [->|]; [rewrite !lookup_insert; by constructor|by rewrite !lookup_insert_ne].
Qed.
Lemma step_load x :
  match mrpn_step I vars s (mprint (MLoad x)) with Some (s', go) => stepped vars H s (MLoad x) s' go | None => panicked vars s (MLoad x) end.
Proof.
  assert (mrpn_step I vars s (mprint (MLoad x)) = match sv !! x with
      | Some y => Some (MRpn w (y :: ids) sv, true)
      | None => Some (s, false)
      end) as ->.
  { unfold mrpn_step. rewrite op_none.
    2:{ intros [[]|[]|[]]; done. }
    cbn [mprint]. rewrite paren_load. done. }
  destruct (sv !! x) as [y|] eqn:Hy.
  - apply (stay_ok vars H w _ sv Hk); [done| |].
    + split; [|done]. constructor; [by eapply Hsv|done].
    + intros e [st sa] He [Hs Hsa]. cbn [s mr_stack mr_saved fst snd] in *. cbn [meval_step].
      pose proof (Hsa x) as Hx. rewrite Hy in Hx. inversion Hx as [? v Hv E1 E2|]; subst. split; [done|].
      constructor; [|done]. by constructor.
  - apply (stay_ok vars H w _ sv Hk); [done|done|]. intros e [st sa] He [Hs Hsa]. cbn [s mr_stack mr_saved fst snd] in *. cbn [meval_step].
    pose proof (Hsa x) as Hx. rewrite Hy in Hx. inversion Hx; subst. done.
Qed.
Lemma step_ok t : mtok_ok t →
  match mrpn_step I vars s (mprint t) with Some (s', go) => stepped vars H s t s' go | None => panicked vars s t end.
Proof.
  intros Ht. destruct t as [txt z|b|o| | |x|x|x].
  - apply step_lit. apply Ht.
  - apply step_bool.
  - apply step_op. apply Ht.
  - apply step_not.
  - apply step_ite.
  - apply step_save.
  - apply step_load.
  - by apply step_var.
Qed.
End step2.

Lemma newh_trans vars m1 m2 m3 : newh vars m1 m2 → newh vars m2 m3 → newh vars m1 m3.
Proof. intros H1 H2 hd [Hin|?]%H2; [by apply H1|by right]. Qed.
Lemma no_lte_cons t ts : no_lte (t :: ts) → t ≠ MOp (OCmp Lte) ∧ no_lte ts.
Proof. unfold no_lte. rewrite elem_of_cons. intros Hn. split; [intros ->|]; tauto. Qed.
Lemma loop_ok vars H ts : Forall mtok_ok ts → ∀ s, gok I (mr_w s) H → rvalid (g_mm (mr_w s)) s →
  match mrpn_loop I vars s (mprint <$> ts) with
  | Some (s', go) => gok I (mr_w s') H ∧ mext I (g_mm (mr_w s)) (g_mm (mr_w s')) ∧ rvalid (g_mm (mr_w s')) s' ∧
      newh vars (g_mm (mr_w s)) (g_mm (mr_w s')) ∧
      ∀ e a, mrange (g_mm (mr_w s')) e → no_lte ts → rmatch (g_mm (mr_w s)) e s a →
        match meval_go I e a ts with
        | Value a' => go = true ∧ rmatch (g_mm (mr_w s')) e s' a'
        | Reported => go = false
        | Underflow => True
        end
  | None => no_lte ts → (∀ x, MVar x ∈ ts → is_Some (vars !! x)) → (∀ x n, vars !! x = Some n → 0 < n) →
      ∃ m' e, mext I (g_mm (mr_w s)) m' ∧ newh vars (g_mm (mr_w s)) m' ∧ mrange m' e ∧
        (∀ x, x ∉ h_label <$> hdrs m' → e x = 0) ∧
        ∀ a, rmatch (g_mm (mr_w s)) e s a → meval_go I e a ts = Underflow
  end.
Proof.
  induction 1 as [|t ts Ht _ IH]; intros s Hk Hv; cbn [fmap list_fmap mrpn_loop].
  - sp; try done; [apply mext_refl, Hk|intros hd; by left].
  - destruct s as [w ids sv]. cbn [mr_w] in *. destruct Hv as [Hv1 Hv2].
    pose proof (step_ok vars H w ids sv Hk Hv1 Hv2 t Ht) as Hs. destruct (mrpn_step I vars _ (mprint t)) as [[s1 go]|]; cbn [mbind option_bind].
    + destruct Hs as (Hk1 & Hm1 & Hv1' & Hn1 & He1). cbn [mr_w] in *. destruct go.
      * specialize (IH s1 Hk1 Hv1'). destruct (mrpn_loop I vars s1 (mprint <$> ts)) as [[s2 go2]|].
        -- destruct IH as (Hk2 & Hm2 & Hv2' & Hn2 & He2). sp; try done; [by eapply mext_trans|by eapply newh_trans|].
           intros e a He [Hne Hnl]%no_lte_cons Hrm. assert (He' : mrange (g_mm (mr_w s1)) e) by by eapply mrange_ext.
           specialize (He1 e a He' Hne Hrm). cbn [meval_go]. destruct (meval_step I e a t) as [a'| |]; [|done|done].
           apply He2; [done|done|by apply He1].
        -- intros [Hne Hnl]%no_lte_cons Hvars Hpos. destruct IH as (m' & e & Hm2 & Hn2 & He & H0 & Hu); [done| |done|].
           { intros x Hx. apply Hvars. by right. }
           exists m', e. sp; try done; [by eapply mext_trans|by eapply newh_trans|].
           intros a Hrm. assert (He' : mrange (g_mm (mr_w s1)) e) by by eapply mrange_ext.
           specialize (He1 e a He' Hne Hrm). cbn [meval_go]. destruct (meval_step I e a t) as [a'| |]; [|done|done].
           apply Hu. by apply He1.
      * sp; try done. intros e a He [Hne Hnl]%no_lte_cons Hrm.
        specialize (He1 e a He Hne Hrm). cbn [meval_go]. destruct (meval_step I e a t) as [a'| |]; [|done|done].
        by destruct He1.
    + intros [Hne Hnl]%no_lte_cons Hvars Hpos. destruct Hs as [(x & -> & Hx)|(e & He & H0 & Hu)].
      * exfalso. destruct (Hvars x) as [n Hn]; [by left|]. destruct Hx as [Hx|Hx]; [congruence|]. specialize (Hpos _ _ Hx). lia.
      * exists (g_mm w), e. sp; try done; [apply mext_refl, Hk|intros hd; by left|].
        intros a Hrm. cbn [meval_go]. by rewrite (Hu a Hrm).
Qed.

Lemma wrap_value w H x w' : gok I w H → mm_valid (g_mm w) x → g_wrap w x = Some (w', x) →
  ∀ e v, mvalue (g_mm w) e x v → mvalue (g_mm w') e x v.
Proof.
  intros Hk Vx Heq e v Hv. destruct (gok_wrap I w H x None Hk) as (w1 & E & Hk1 & Hhd); [by split|].
  rewrite Heq in E. injection E as <-. unfold g_wrap, g_maybe_gc in Heq. destruct (_ <? _); cbn [mbind option_bind] in Heq; [by injection Heq as <-|].
  set (rs := mroot_keys (g_roots (g_pin w x))) in *. change (g_mm (g_pin w x)) with (g_mm w) in *.
  assert (Hk0 : gok I (g_pin w x) ((x, None) :: H)) by (apply gok_pin; [done|by split]).
  destruct (mm_gc_l I (g_mm w) rs (gk_wf _ _ _ Hk)) as (m' & nv & nb & Hgc & Hw' & Hhd' & Hlive & Hvals & _).
  { apply Forall_forall. intros y Hy. change (g_mm w) with (g_mm (g_pin w x)). by eapply gok_root_valid. }
  rewrite Hgc in Heq. cbn [mbind option_bind] in Heq. injection Heq as <-. cbn [g_mm] in *.
  assert (Vx' : mm_valid m' x).
  { apply Hlive. right. apply mreach_root. unfold rs. destruct (gk_roots _ _ _ Hk0) as (l & -> & Hl). apply mroot_keys_elem.
    rewrite Hl. apply elem_of_app. left. by left. }
  apply mv_lval in Hv; [|apply Hk|apply Hk]. apply mv_lval; [done|by eapply lvl_step; [|apply Hk]|].
  rewrite (rho_of_step (g_mm w)) by done. destruct (Hvals x (rho_of (g_mm w) e) Vx') as [H1 H2]. destruct v; [by apply H1|by apply H2].
Qed.

Lemma rpn_ok w H expr ts vars : gok I w H → Forall mtok_ok ts → separated expr (mprint <$> ts) →
  match g_rpn I w expr vars with
  | Some (w', RpnOk r) =>
      (∀ K, promised w' (λ e, match meval I e ts with Value v => Some v | _ => None end) K → K = None ∨ no_lte ts →
         gok I w' ((r, K) :: H)) ∧
      prefix (hdrs (g_mm w)) (hdrs (g_mm w')) ∧ newh vars (g_mm w) (g_mm w') ∧
      ∀ e, mrange (g_mm w') e → no_lte ts →
        match meval I e ts with Value v => mvalue (g_mm w') e r v | Reported => False | Underflow => True end
  | Some (w', RpnErr) => gok I w' H ∧ prefix (hdrs (g_mm w)) (hdrs (g_mm w')) ∧ newh vars (g_mm w) (g_mm w') ∧
      ∀ e v, mrange (g_mm w') e → no_lte ts → meval I e ts ≠ Value v
  | None => no_lte ts → (∀ x, MVar x ∈ ts → is_Some (vars !! x)) → (∀ x n, vars !! x = Some n → 0 < n) →
      ∃ e, mrange (g_mm w) e ∧ (∀ x n, vars !! x = Some n → x ∉ h_label <$> hdrs (g_mm w) → e x < n) ∧ meval I e ts = Underflow
  end.
Proof.
  intros Hk Hts Hsep. unfold g_rpn. rewrite (separated_split _ _ Hsep).
  pose proof (loop_ok vars H ts Hts (MRpn w [] ∅) Hk) as Hlo. cbn [mr_w] in Hlo.
  assert (Hrm0 : ∀ e, rmatch (g_mm w) e (MRpn w [] ∅) ([], ∅)).
  { intros e. constructor; [constructor|]. intros k. cbn [mr_saved snd]. rewrite !lookup_empty. constructor. }
  destruct (mrpn_loop I vars (MRpn w [] ∅) (mprint <$> ts)) as [[s go]|]; cbn [mbind option_bind].
  - destruct Hlo as (Hk' & Hm & [Hv Hvs] & Hn & He).
    { split; [constructor|]. intros k x. cbn [mr_saved]. by rewrite lookup_empty. }
    assert (Hpre : prefix (hdrs (g_mm w)) (hdrs (g_mm (mr_w s)))) by apply Hm.
    assert (Hpost : ∀ e, mrange (g_mm (mr_w s)) e → no_lte ts →
      match meval I e ts with
      | Value v => ∃ x, go = true ∧ mr_stack s = [x] ∧ mvalue (g_mm (mr_w s)) e x v
      | Reported => ∀ x, go = true → mr_stack s ≠ [x]
      | Underflow => True end).
    { intros e Hr Hnl. specialize (He e _ Hr Hnl (Hrm0 e)). unfold meval. destruct (meval_go I e ([], ∅) ts) as [[st sa]| |]; [| |done].
      - destruct He as [-> [Hs _]]. cbn [fst] in Hs. destruct st as [|v [|v' st]].
        + intros x _ Hx. rewrite Hx in Hs. by apply Forall2_cons_nil_inv in Hs.
        + apply Forall2_cons_inv_r in Hs as (x & ids & Hx & Hs & ->). apply Forall2_nil_inv_r in Hs as ->. by exists x.
        + intros x _ Hx. rewrite Hx in Hs. apply Forall2_cons in Hs as [_ Hs]. by apply Forall2_nil_cons_inv in Hs.
      - intros x. by rewrite He. }
    destruct go.
    + destruct (mr_stack s) as [|x [|y ids]] eqn:Hst.
      * sp; try done. intros e v Hr Hnl Hev. specialize (Hpost e Hr Hnl). rewrite Hev in Hpost. by destruct Hpost as (? & _ & ? & _).
      * apply (proj1 (Forall_singleton _ _)) in Hv.
        destruct (gok_wrap I (mr_w s) H x None Hk') as (w' & Hwr & Hk2 & Hhd); [by split|]. rewrite Hwr. cbn [mbind option_bind].
        assert (Hr' : ∀ e, mrange (g_mm w') e ↔ mrange (g_mm (mr_w s)) e) by (intros e; unfold mrange; by rewrite Hhd).
        sp.
        -- intros K HK Hor. destruct (gok_wrap I (mr_w s) H x K Hk') as (w2 & Hwr2 & Hk3 & _).
           { split; [done|]. intros k -> e Hr. specialize (HK e (proj2 (Hr' e) Hr)). cbn beta in HK. destruct Hor as [|Hnl]; [done|].
             specialize (Hpost e Hr Hnl). destruct (meval I e ts) as [v| |]; try done. injection HK as <-.
             destruct Hpost as (x' & _ & [= <-] & Hx). done. }
           rewrite Hwr in Hwr2. by injection Hwr2 as <-.
        -- by rewrite Hhd.
        -- unfold newh. by rewrite Hhd.
        -- intros e Hr Hnl. specialize (Hpost e (proj1 (Hr' e) Hr) Hnl). destruct (meval I e ts) as [v| |]; [| |done].
           ++ destruct Hpost as (x' & _ & [= <-] & Hx). exact (wrap_value _ _ _ _ Hk' Hv Hwr e v Hx).
           ++ by eapply Hpost.
      * sp; try done. intros e v Hr Hnl Hev. specialize (Hpost e Hr Hnl). rewrite Hev in Hpost. by destruct Hpost as (? & _ & ? & _).
    + sp; try done. intros e v Hr Hnl Hev. specialize (Hpost e Hr Hnl). rewrite Hev in Hpost. by destruct Hpost as (? & ? & _).
  - intros Hnl Hvars Hpos. destruct Hlo as (m' & e & Hm & Hn & Hr & H0 & Hu); try done.
    { split; [constructor|]. intros k x. cbn [mr_saved]. by rewrite lookup_empty. }
    exists e. sp; [by eapply mrange_ext| |].
    + intros x n Hx Hnx. destruct (decide (x ∈ h_label <$> hdrs m')) as [(hd & -> & Hin)%elem_of_list_fmap|Hnin].
      * destruct (Hn hd Hin) as [Hold|Hnew]; [exfalso; apply Hnx, elem_of_list_fmap; by exists hd|].
        rewrite Hx in Hnew. injection Hnew as ->. by apply Hr.
      * rewrite (H0 x Hnin). by eapply Hpos.
    + unfold meval. by rewrite (Hu _ (Hrm0 e)).
Qed.

(** ** histories *)
Lemma step_gok w H w' H' : gok I w H → mdd_step I w H w' H' → gok I w' H' ∧ prefix (hdrs (g_mm w)) (hdrs (g_mm w')).
Proof.
  intros Hk Hst.
  assert (Hsame : ∀ w1 H1, gok I w1 H1 ∧ hdrs (g_mm w1) = hdrs (g_mm w) → gok I w1 H1 ∧ prefix (hdrs (g_mm w)) (hdrs (g_mm w1))).
  { intros w1 H1 [? ->]. done. }
  destruct Hst.
  - destruct (g_boolean_ok I w H Hk b) as (w1 & E & Hk1 & Hh). rewrite E in *. simplify_eq. by apply Hsame.
  - destruct (g_value_ok I w H Hk z) as (w1 & r1 & E & Hk1 & Hh). rewrite E in *. simplify_eq. by apply Hsame.
  - destruct (g_undet_value_ok I w H Hk) as (w1 & E & Hk1 & Hh). rewrite E in *. simplify_eq. by apply Hsame.
  - destruct (g_undet_boolean_ok I w H Hk) as (w1 & E & Hk1 & Hh). rewrite E in *. simplify_eq. by apply Hsame.
  - destruct (defvar_ok I w H x n w' r Hk) as (Hk1 & Hm & _); [done|]. split; [done|]. apply Hm.
  - destruct (g_node_ok I w H Hk h hd xs Fs K) as (w1 & r1 & E & Hk1 & Hh); try done. rewrite E in *. simplify_eq. by apply Hsame.
  - destruct (g_not_ok I w H Hk f F K) as (w1 & r1 & E & Hk1 & Hh); try done. rewrite E in *. simplify_eq. by apply Hsame.
  - pose proof (g_bin_ok I w H Hk o f F g G) as Hb. match goal with E : g_bin _ _ _ _ = _ |- _ => rewrite E in Hb end.
    apply Hsame. by apply Hb.
  - pose proof (g_ite_ok I w H Hk c C f F g G K) as Hb. match goal with E : g_ite _ _ _ _ = _ |- _ => rewrite E in Hb end.
    apply Hsame. by apply Hb.
  - pose proof (g_list_ok I w H Hk l L K) as Hb. match goal with E : g_list _ _ _ _ = _ |- _ => rewrite E in Hb end.
    apply Hsame. by apply Hb.
  - destruct (g_children_ok I w H x F s w' xs) as [Hk1 Hm]; try done. apply Hsame. split; [done|]. by rewrite Hm.
  - pose proof (rpn_ok w H expr ts vars Hk) as Hr. match goal with E : g_rpn _ _ _ _ = _ |- _ => rewrite E in Hr end.
    destruct Hr as (Hk1 & Hpre & _); [done|done|]. split; [|done]. by apply Hk1.
  - destruct (mexpr_tokens expr) as (ts & Hts & Hsep). pose proof (rpn_ok w H expr ts vars Hk Hts Hsep) as Hr.
    match goal with E : g_rpn _ _ _ _ = _ |- _ => rewrite E in Hr end. by destruct Hr as (? & ? & _).
  - split; [|done]. apply gok_pin; [done|]. by apply (gk_held _ _ _ Hk).
  - split; [|done]. by eapply gok_drop.
  - destruct (g_gc_ok I w H Hk keep) as (w1 & n1 & E & Hk1 & Hh); [done|]. rewrite E in *. simplify_eq. by apply Hsame.
  - split; [|done]. by apply gok_params.
  - split; [|done]. by apply g_clear_ok.
Qed.
End mss.
Lemma held_gok I w H : mdd_held I w H → @gok I mbase0 w H.
Proof. induction 1 as [|w H w' H' _ IH Hst]; [apply gok_new|]. by eapply step_gok. Qed.

(** ** the text of an expression determines its tokens *)
Lemma str_snoc_inj (x y : string) (a b : string) : (x +:+ ")" = y +:+ ")")%string → x = y.
Proof.
  revert y. induction x as [|c x IH]; intros [|d y] Hxy; try done.
  - cbn in Hxy. apply scons_inj in Hxy as [_ Hxy]. by destruct y.
  - cbn in Hxy. apply scons_inj in Hxy as [_ Hxy]. by destruct x.
  - cbn in Hxy. apply scons_inj in Hxy as [-> Hxy]. f_equal. by apply IH.
Qed.
Lemma mprint_inj t t' : mtok_ok t → mtok_ok t' → mprint t = mprint t' → t = t'.
Proof.
  intros [Hw Hk] [Hw' Hk'] Hp.
  destruct t' as [txt' z'|b'|o'| | |x'|x'|x']; [| | | | | | |by apply Hk'];
  (destruct t as [txt z|b|o| | |x|x|x]; [| | | | | | |symmetry; by apply Hk]).
  - cbn [mprint] in Hp. subst txt'. apply parse_i32_ok in Hw, Hw'. congruence.
  - exfalso. apply parse_i32_ok in Hw'. cbn [mprint] in Hp. subst txt'. by destruct b.
  - exfalso. apply parse_i32_ok in Hw'. change (mprint (MLit txt' z')) with txt' in Hp. subst txt'. by destruct o as [[]|[]|[]].
  - exfalso. apply parse_i32_ok in Hw'. cbn [mprint] in Hp. by subst txt'.
  - exfalso. apply parse_i32_ok in Hw'. cbn [mprint] in Hp. by subst txt'.
  - exfalso. apply parse_i32_ok in Hw'. cbn [mprint] in Hp. by subst txt'.
  - exfalso. apply parse_i32_ok in Hw'. cbn [mprint] in Hp. by subst txt'.
  - exfalso. apply parse_i32_ok in Hw. cbn [mprint] in Hp. subst txt. by destruct b'.
  - by destruct b, b'.
  - by destruct b', o as [[]|[]|[]].
  - by destruct b'.
  - by destruct b'.
  - by destruct b'.
  - by destruct b'.
  - exfalso. apply parse_i32_ok in Hw. change (mprint (MLit txt z)) with txt in Hp. subst txt. by destruct o' as [[]|[]|[]].
  - by destruct b, o' as [[]|[]|[]].
  - destruct o as [[]|[]|[]], o' as [[]|[]|[]]; done.
  - by destruct o' as [[]|[]|[]].
  - by destruct o' as [[]|[]|[]].
  - by destruct o' as [[]|[]|[]].
  - by destruct o' as [[]|[]|[]].
  - exfalso. apply parse_i32_ok in Hw. cbn [mprint] in Hp. by subst txt.
  - by destruct b.
  - by destruct o as [[]|[]|[]].
  - done.
  - done.
  - done.
  - done.
  - exfalso. apply parse_i32_ok in Hw. cbn [mprint] in Hp. by subst txt.
  - by destruct b.
  - by destruct o as [[]|[]|[]].
  - done.
  - done.
  - done.
  - done.
  - exfalso. apply parse_i32_ok in Hw. cbn [mprint] in Hp. by subst txt.
  - by destruct b.
  - by destruct o as [[]|[]|[]].
  - done.
  - done.
  - f_equal. cbn in Hp. do 5 apply scons_inj in Hp as [_ Hp]. by apply str_snoc_inj in Hp.
  - done.
  - exfalso. apply parse_i32_ok in Hw. cbn [mprint] in Hp. by subst txt.
  - by destruct b.
  - by destruct o as [[]|[]|[]].
  - done.
  - done.
  - done.
  - f_equal. cbn in Hp. do 5 apply scons_inj in Hp as [_ Hp]. by apply str_snoc_inj in Hp.
Qed.
Lemma mexpr_unique expr ts ts' : Forall mtok_ok ts → separated expr (mprint <$> ts) →
  Forall mtok_ok ts' → separated expr (mprint <$> ts') → ts = ts'.
Proof.
  intros Hts Hs Hts' Hs'. apply separated_split in Hs. apply separated_split in Hs'. rewrite Hs in Hs'. clear Hs.
  revert ts' Hts' Hs'. induction Hts as [|t ts Ht _ IH]; intros [|t' ts'] Hts' He; try done.
  apply Forall_cons in Hts' as [Ht' Hts']. cbn in He. injection He as He1 He2.
  f_equal; [by apply mprint_inj|by apply IH].
Qed.

(** ** what the user sees *)
Section user.
Context (I : vint).
#[local] Existing Instance mbase0.
Notation bar m := (d_ar (mm_b m)).
Notation hdrs m := (ar_headers (bar m)).

Lemma held_rpn_value w H expr ts vars w' out : mdd_held I w H → Forall mtok_ok ts → separated expr (mprint <$> ts) → no_lte ts →
  g_rpn I w expr vars = Some (w', out) →
  prefix (hdrs (g_mm w)) (hdrs (g_mm w')) ∧
  (∀ hd, hd ∈ hdrs (g_mm w') → hd ∈ hdrs (g_mm w) ∨ vars !! h_label hd = Some (h_edges hd)) ∧
  ∀ e, mrange (g_mm w') e →
    match meval I e ts with
    | Value v => ∃ r, out = RpnOk r ∧ mvalue (g_mm w') e r v
    | Reported => out = RpnErr
    | Underflow => True
    end.
Proof.
  intros Hh Hts Hsep Hnl Heq. pose proof (rpn_ok I w H expr ts vars (held_gok I _ _ Hh) Hts Hsep) as Hr. rewrite Heq in Hr.
  destruct out as [r|].
  - destruct Hr as (_ & Hp & Hn & Hv). sp; try done. intros e He. specialize (Hv e He Hnl). destruct (meval I e ts) as [v| |]; [|done|done]. by exists r.
  - destruct Hr as (_ & Hp & Hn & Hv). sp; try done. intros e He. destruct (meval I e ts) as [v| |] eqn:Hev; [|done|done].
    by destruct (Hv e v He Hnl).
Qed.
Lemma held_rpn_total w H expr ts vars : mdd_held I w H → Forall mtok_ok ts → separated expr (mprint <$> ts) → no_lte ts →
  (∀ x, MVar x ∈ ts → is_Some (vars !! x)) → (∀ x n, vars !! x = Some n → 0 < n) →
  (∀ e, mrange (g_mm w) e → (∀ x n, vars !! x = Some n → x ∉ h_label <$> hdrs (g_mm w) → e x < n) → meval I e ts ≠ Underflow) →
  is_Some (g_rpn I w expr vars).
Proof.
  intros Hh Hts Hsep Hnl Hv Hp Hu. pose proof (rpn_ok I w H expr ts vars (held_gok I _ _ Hh) Hts Hsep) as Hr.
  destruct (g_rpn I w expr vars) as [x|]; [by exists x|]. exfalso. destruct Hr as (e & He & Hx & Hev); try done. by apply (Hu e).
Qed.
Lemma held_value w H x F : mdd_held I w H → (x, Some F) ∈ H →
  mm_valid (g_mm w) x ∧ ∀ e, mrange (g_mm w) e → mvalue (g_mm w) e x (F e).
Proof. intros Hh Hx. destruct (gk_held _ _ _ (held_gok I _ _ Hh) _ _ Hx) as [? Hd]. split; [done|]. by apply Hd. Qed.
Lemma held_meq w H x F y G : mdd_held I w H → (x, Some F) ∈ H → (y, Some G) ∈ H →
  x = y ↔ ∀ e, mrange (g_mm w) e → F e = G e.
Proof. intros Hh Hx Hy. pose proof (held_gok I _ _ Hh) as Hk. eapply (mden_eq I); [done|by apply (gk_held _ _ _ Hk)..]. Qed.

Definition no_arith (o : mop2) : Prop := match o with OArith _ => False | _ => True end.
Lemma held_mprogress w H : mdd_held I w H →
  (∀ b, is_Some (g_boolean w b)) ∧ (∀ z, is_Some (g_value w z)) ∧ is_Some (g_undet_value w) ∧ is_Some (g_undet_boolean w) ∧
  (∀ x n, 0 < n → is_Some (g_defvar w x n)) ∧
  (∀ h xs, mm_fits (g_mm w) h xs → Forall (λ x, x ∈ H.*1) xs → is_Some (g_create_node w h xs)) ∧
  (∀ f, f ∈ H.*1 → is_Some (g_not w f) ∧ is_Some (g_children w f)) ∧
  (∀ o f g, f ∈ H.*1 → g ∈ H.*1 → no_arith o → is_Some (g_bin (mm_bin I o) w f g)) ∧
  (∀ o f F g G, (f, Some F) ∈ H → (g, Some G) ∈ H →
     (∀ e, mrange (g_mm w) e → is_Some (val2 I (OArith o) (F e) (G e))) → is_Some (g_arith I o w f g)) ∧
  (∀ c f g, c ∈ H.*1 → f ∈ H.*1 → g ∈ H.*1 → same_kind f g → is_Some (g_ite w c f g)) ∧
  (∀ keep, Forall (λ x, x ∈ H.*1) keep → is_Some (g_gc w keep)).
Proof.
  intros Hh. pose proof (held_gok I _ _ Hh) as Hk. pose proof (gk_wf _ _ _ Hk) as Hw.
  assert (Hin : ∀ x, x ∈ H.*1 → ∃ F, (x, F) ∈ H).
  { intros x ([y F] & -> & Hy)%elem_of_list_fmap. by exists F. }
  sp.
  - intros b. destruct (g_boolean_ok I w H Hk b) as (w' & -> & _). by eexists.
  - intros z. destruct (g_value_ok I w H Hk z) as (w' & r & -> & _). by eexists.
  - destruct (g_undet_value_ok I w H Hk) as (w' & -> & _). by eexists.
  - destruct (g_undet_boolean_ok I w H Hk) as (w' & -> & _). by eexists.
  - intros x n Hn. destruct (g_vars w !! x) as [r|] eqn:Hx.
    + destruct (defvar_old I w H x n r Hk Hx) as [-> _]. by eexists.
    + destruct (defvar_new I w H x n Hk Hx Hn) as (w' & r & -> & _). by eexists.
  - intros h xs Hf Hxs. destruct (mm_create_node_l I (g_mm w) h xs Hw Hf) as (hd & _ & _ & Hhd & _).
    assert (∃ Fs, Forall2 (λ x F, (x, F) ∈ H) xs Fs) as [Fs HFs].
    { clear Hf. induction Hxs as [|x xs Hx _ [Fs IH]]; [by exists []|]. destruct (Hin x Hx) as [F HF]. exists (F :: Fs). by constructor. }
    destruct (g_node_ok I w H Hk h hd xs Fs None Hf HFs Hhd) as (w' & r & -> & _); [done|]. by eexists.
  - intros f [F HF]%Hin. split.
    + destruct (g_not_ok I w H Hk f F None HF) as (w' & r & -> & _); [done|]. by eexists.
    + pose proof (proj1 (gk_held _ _ _ Hk _ _ HF)) as Vf. unfold g_children. destruct f as [f|f].
      * destruct (nvalid_repr Rn (t_ar (mm_v (g_mm w))) f) as [d Hd]; [apply (tw_good _ _ (mmw_v _ _ Hw))|done|].
        destruct d as [t|hd ds].
        -- apply repr_leaf in Hd as [_ ->]. by eexists.
        -- apply repr_br in Hd as [_ (? & ? & -> & _)]. by eexists.
      * destruct (nvalid_repr Rn (bar (g_mm w)) f) as [d Hd]; [apply (mw_good _ (mmw_b _ _ Hw))|done|].
        destruct d as [t|hd ds].
        -- apply repr_leaf in Hd as [_ ->]. by eexists.
        -- apply repr_br in Hd as [_ (? & ? & -> & _)]. by eexists.
  - intros o f g Hf Hg Ho. destruct (Hin _ Hf) as [F HF], (Hin _ Hg) as [G HG].
    pose proof (g_bin_ok I w H Hk o f F g G HF HG) as Hb. destruct (g_bin _ w f g) as [[w' r]|] eqn:E; [by eexists|].
    exfalso. pose proof (proj1 (gk_held _ _ _ Hk _ _ HF)) as Vf. pose proof (proj1 (gk_held _ _ _ Hk _ _ HG)) as Vg.
    unfold g_bin, g_op in E. destruct o as [o|c|o]; [done| |]; cbn [mm_bin] in E.
    + assert (∃ m r, mm_cmp c (g_mm w) f g = Some (m, r) ∧ mmstep I (g_mm w) m ∧ mm_valid m r) as (m & r & E' & Hst & Vr).
      { assert (c = Lte ∨ c ≠ Lte) as [->|Hne] by (destruct c; auto).
        - destruct (mm_lte_l I (g_mm w) f g Hw Vf Vg) as (m & r & ? & ? & ? & _). by exists m, r.
        - destruct (mm_cmp_l I c (g_mm w) f g Hne Hw Vf Vg) as (m & r & ? & ? & ? & _). by exists m, r. }
      rewrite E' in E. cbn [mbind option_bind] in E.
      destruct (gok_wrap I (with_mm w m) H r None) as (? & E2 & _); [by apply gok_step|by split|]. congruence.
    + destruct (mm_gate_l I o (g_mm w) f g Hw Vf Vg) as (m & r & E' & Hst & Vr & _).
      rewrite E' in E. cbn [mbind option_bind] in E.
      destruct (gok_wrap I (with_mm w m) H r None) as (? & E2 & _); [by apply gok_step|by split|]. congruence.
  - intros o f F g G HF HG Hno. pose proof (g_bin_ok I w H Hk (OArith o) f _ g _ HF HG) as Hb.
    change (g_arith I o w f g) with (g_bin (mm_bin I (OArith o)) w f g). destruct (g_bin _ w f g) as [x|]; [by exists x|].
    exfalso. destruct Hb as (rho & a & b & Hr & Ha & Hb & Hn).
    destruct (menv_of_rho (g_mm w) rho (gk_lvl _ _ _ Hk) (gk_nodup _ _ _ Hk)) as [e Hag].
    assert (He : mrange (g_mm w) e) by by apply (mrange_rho _ _ _ Hag).
    destruct (gk_held _ _ _ Hk _ _ HF) as [_ DF]. destruct (gk_held _ _ _ Hk _ _ HG) as [_ DG].
    specialize (DF F eq_refl e He). specialize (DG G eq_refl e He). apply (mvalue_lval I _ _ _ _ _ Hw Hag) in DF, DG.
    destruct (Hno e He) as [v Hv]. rewrite (lval_fun _ _ _ _ _ DF Ha), (lval_fun _ _ _ _ _ DG Hb) in Hv. congruence.
  - intros c f g [C HC]%Hin [F HF]%Hin [G HG]%Hin Hsk. pose proof (g_ite_ok I w H Hk c C f F g G None HC HF HG Logic.I) as Hb.
    destruct (g_ite w c f g) as [x|]; [by exists x|]. done.
  - intros keep Hkeep. destruct (g_gc_ok I w H Hk keep Hkeep) as (w' & n & -> & _). by eexists.
Qed.

Lemma held_vorder w H : mdd_held I w H → (∀ hd, hd ∈ hdrs (g_mm w) → 2 ≤ h_edges hd) →
  ∃ vars, g_varorder w = Some vars ∧ NoDup vars.*1 ∧ length vars = length (hdrs (g_mm w)) ∧
    ∀ hd, hd ∈ hdrs (g_mm w) → vars !! h_level hd = Some (h_label hd, h_edges hd).
Proof.
  intros Hh H2. pose proof (held_gok I _ _ Hh) as Hk. exists (vorder (g_mm w)). sp.
  - by eapply varorder_ok.
  - unfold vorder. rewrite <- list_fmap_compose. apply (gk_nodup _ _ _ Hk).
  - unfold vorder. apply fmap_length.
  - intros hd [i Hi]%elem_of_list_lookup. rewrite (gk_lvl _ _ _ Hk _ _ Hi). unfold vorder. by rewrite list_lookup_fmap, Hi.
Qed.
Lemma held_mdefvar w H x n w' r : mdd_held I w H → g_defvar w x n = Some (w', r) →
  (∀ e, mrange (g_mm w') e → mvalue (g_mm w') e r (VI (VVal (Z.of_nat (e x))))) ∧
  (x ∈ h_label <$> hdrs (g_mm w) → g_mm w' = g_mm w ∧ ∀ r0, (r0, Some (varfn x)) ∈ H → r = r0) ∧
  (x ∉ h_label <$> hdrs (g_mm w) → 0 < n ∧ ∃ hd, hdrs (g_mm w') = hdrs (g_mm w) ++ [hd] ∧
     h_level hd = length (hdrs (g_mm w)) ∧ h_label hd = x ∧ h_edges hd = n).
Proof.
  intros Hh Heq. pose proof (held_gok I _ _ Hh) as Hk. pose proof Hk as [Hw Hl Hs Hv Hla Hnd _ Hd].
  destruct (defvar_ok I w H x n w' r Hk Heq) as (Hk' & Hm & Hvx). sp.
  - assert (Hden : mden (g_mm w') r (Some (varfn x))) by (apply (gk_held _ _ _ Hk'); by left). intros e He. by apply (proj2 Hden _ eq_refl).
  - intros Hx. apply elem_of_list_fmap in Hx as (hd & -> & [i Hi]%elem_of_list_lookup). destruct (Hla _ _ Hi) as [r1 Hr1].
    destruct (defvar_old I w H _ n r1 Hk Hr1) as [E _]. rewrite E in Heq. injection Heq as <- <-. split; [done|].
    intros r0 Hr0. apply (mden_eq I w H r1 (varfn (h_label hd)) r0 (varfn (h_label hd)) Hk); [by apply Hv|by apply Hd|done].
  - intros Hx. destruct (g_vars w !! x) as [r1|] eqn:Hr1.
    { exfalso. destruct (Hv _ _ Hr1) as [_ (id & i & hd & _ & Hi & Hlab & _)]. apply Hx, elem_of_list_fmap. exists hd. split; [done|].
      by eapply elem_of_list_lookup_2. }
    destruct n as [|n]; [by rewrite defvar_none in Heq|]. split; [lia|].
    destruct (defvar_new I w H x (S n) Hk Hr1) as (w1 & r1 & E & _ & _ & Hhd & _); [lia|]. rewrite E in Heq. injection Heq as <- <-.
    eexists. by sp.
Qed.
End user.
