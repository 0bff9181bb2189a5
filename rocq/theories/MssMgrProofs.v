(** The multi-state wrapper's invariant: reference counts, variables and held handles. *)
From stdpp Require Import strings.
From Verif Require Import Prelude ComputeCache ComputeCacheProofs Arena Trees ArenaProofs Keeps Bdd ArenaMore Mdd MtMdd MtMdd2.
From Verif Require Import SpecBdd SpecMdd NaryProofs MddProofs MtProofs MmProofs MddMain MmMain BssMgr MssMgr SpecBssMgr SpecMss.

(** What others have pinned, each with the manager at that moment: handles inside open iterators. *)
Class mbase := MBase { mb_pins : list (mm * mnode) }.
Definition mbase0 : mbase := MBase [].
Definition nkeeps (m0 : mm) (x : mnode) (m : mm) : Prop :=
  match x with
  | NVal f => keeps (t_ar (mm_v m0)) [f] (t_ar (mm_v m))
  | NBool f => keeps (d_ar (mm_b m0)) [f] (d_ar (mm_b m))
  end.
Definition mkept (B : mbase) (m : mm) : Prop := ∀ m0 x, (m0, x) ∈ mb_pins → nkeeps m0 x m.
Lemma mkept_ext B m m' : mkept B m → ext (d_ar (mm_b m)) (d_ar (mm_b m')) → ext (t_ar (mm_v m)) (t_ar (mm_v m')) → mkept B m'.
Proof. intros Hk Eb Ev m0 x Hx. specialize (Hk _ _ Hx). destruct x; cbn in *; by eapply keeps_ext. Qed.
Lemma mkept_valid B m x : mkept B m → x ∈ mb_pins.*2 → mm_valid m x.
Proof.
  intros Hk ([m0 y] & -> & Hy)%elem_of_list_fmap. specialize (Hk _ _ Hy). destruct y as [f|f]; cbn in *; apply Hk; constructor; by left.
Qed.

Section mss.
Context (I : vint) {B : mbase}.
Notation bar m := (d_ar (mm_b m)).
Notation var m := (t_ar (mm_v m)).
Notation hdrs m := (ar_headers (bar m)).

(** ** values by name and by level *)
Definition lval (m : mm) (rho : nat → nat) (x : mnode) (v : mval) : Prop :=
  match v with VB b => mm_bool m rho x (tvb b) | VI t => mm_int m rho x t end.
Definition nagree (m : mm) (rho : nat → nat) (e : menv) : Prop :=
  ∀ hd, hd ∈ hdrs m → rho (h_level hd) = e (h_label hd).
Definition rho_of (m : mm) (e : menv) : nat → nat := λ l, e (default EmptyString (h_label <$> hdrs m !! l)).
Definition lvl_ok (m : mm) : Prop := ∀ i hd, hdrs m !! i = Some hd → h_level hd = i.

Lemma rho_agree m e : lvl_ok m → nagree m (rho_of m e) e.
Proof. intros Hl hd [i Hi]%elem_of_list_lookup. unfold rho_of. by rewrite (Hl _ _ Hi), Hi. Qed.

Lemma named_level {T} (a : arena T) e rho id t : (∀ hd, hd ∈ ar_headers a → rho (h_level hd) = e (h_label hd)) →
  named_value a e id t ↔ node_value a rho id t.
Proof.
  intros Hr. split.
  - induction 1 as [id t Hn|id h cs hd c t Hn Hh Hc _ IH]; [by constructor|].
    eapply nv_node; [done|done| |done]. rewrite Hr; [done|]. by eapply elem_of_list_lookup_2.
  - induction 1 as [id t Hn|id h cs hd c t Hn Hh Hc _ IH]; [by constructor|].
    eapply mv_node; [done|done| |done]. rewrite <- Hr; [done|]. by eapply elem_of_list_lookup_2.
Qed.
Lemma mvalue_lval m e rho x v : mmwf I m → nagree m rho e → mvalue m e x v ↔ lval m rho x v.
Proof.
  intros Hw Ha. assert (Hb : ∀ f t, named_value (bar m) e f t ↔ node_value (bar m) rho f t).
  { intros f t. by apply named_level. }
  assert (Hv : ∀ f t, named_value (var m) e f t ↔ node_value (var m) rho f t).
  { intros f t. apply named_level. rewrite (mmw_h _ _ Hw). done. }
  unfold lval, mm_bool, mm_int. destruct x as [f|f], v as [b|t]; cbn [mvalue]; rewrite ?Hb, ?Hv; naive_solver.
Qed.
Lemma mrange_rho m rho e : nagree m rho e → mrange m e ↔ mm_range m rho.
Proof.
  intros Ha. unfold mrange, mm_range, in_range. split; intros H hd Hin; specialize (H hd Hin).
  - by rewrite (Ha hd Hin).
  - by rewrite <- (Ha hd Hin).
Qed.
Lemma nagree_ext m m' rho e : mext I m m' → nagree m' rho e → nagree m rho e.
Proof. intros (_ & [[k Hp] _] & _) Ha hd Hin. apply Ha. rewrite Hp, elem_of_app. by left. Qed.
Lemma mrange_ext m m' e : mext I m m' → mrange m' e → mrange m e.
Proof. intros (_ & [[k Hp] _] & _) Ha hd Hin. apply Ha. rewrite Hp, elem_of_app. by left. Qed.
Lemma lval_ext m m' rho x v : mmwf I m → mext I m m' → mm_valid m x → lval m rho x v → lval m' rho x v.
Proof. intros Hw He Hv. destruct v; [by eapply mext_bool|by eapply mext_int]. Qed.
Lemma lval_fun m rho x v v' : lval m rho x v → lval m rho x v' → v = v'.
Proof.
  destruct v as [b|t], v' as [b'|t']; cbn; intros (f & -> & H) (f' & [= <-] & H');
    pose proof (nval_fun _ _ _ _ _ H H') as He; [by destruct b, b'|congruence].
Qed.
Lemma lval_kind m rho x v : lval m rho x v →
  match x, v with NVal _, VI _ | NBool _, VB _ => True | _, _ => False end.
Proof. destruct x, v; cbn; intros (f & ? & _); done. Qed.

(** [F] is the meaning of [x], or none is promised *)
Definition mden (m : mm) (x : mnode) (F : option mfn) : Prop :=
  mm_valid m x ∧ ∀ k, F = Some k → ∀ e, mrange m e → mvalue m e x (k e).

Lemma mvalue_ext m m' e x v : mmwf I m → lvl_ok m' → mext I m m' → mm_valid m x → mvalue m e x v → mvalue m' e x v.
Proof.
  intros Hw Hl He Hv. pose proof (rho_agree m' e Hl) as Ha.
  rewrite (mvalue_lval m e _ x v Hw (nagree_ext _ _ _ _ He Ha)), (mvalue_lval m' e _ x v (proj1 He) Ha).
  by apply lval_ext.
Qed.
Lemma mden_ext m m' x F : mmwf I m → lvl_ok m' → mext I m m' → mden m x F → mden m' x F.
Proof.
  intros Hw Hl He [Hv Hd]. split; [by eapply mext_valid|]. intros k Hk e Hr.
  eapply (mvalue_ext m); try done. apply Hd; [done|]. by eapply mrange_ext.
Qed.
Lemma mden_step m m' x F : mmwf I m → lvl_ok m → mmstep I m m' → mden m x F → mden m' x F.
Proof.
  intros Hw Hl Hst. eapply mden_ext; [done| |by apply mmstep_mext]. intros i hd. destruct Hst as (_ & _ & _ & ->). apply Hl.
Qed.

(** ** reference counts *)
Definition mroots_of (l : list mnode) : gmap mnode nat := foldr (λ x r, mpin r x) ∅ l.
Lemma mpin_lookup r x y : mpin r x !! y = if decide (y = x) then Some (S (default 0 (r !! x))) else r !! y.
Proof. unfold mpin. destruct (decide _) as [->|]; [by rewrite lookup_insert|by rewrite lookup_insert_ne]. Qed.
Lemma mpin_comm r x y : mpin (mpin r x) y = mpin (mpin r y) x.
Proof. apply map_eq. intros k. rewrite !mpin_lookup. repeat destruct (decide _); subst; done. Qed.
Lemma mroots_perm l l' : l ≡ₚ l' → mroots_of l = mroots_of l'.
Proof.
  induction 1 as [|x l l' _ IH|x y l|l1 l2 l3 _ IH1 _ IH2]; [done| | |congruence].
  - unfold mroots_of in *. cbn. by rewrite IH.
  - unfold mroots_of. cbn. apply mpin_comm.
Qed.
Lemma mroots_pos l x c : mroots_of l !! x = Some c → c ≠ 0.
Proof.
  revert c. induction l as [|y l IH]; intros c; [done|]. unfold mroots_of in *. cbn. rewrite mpin_lookup.
  destruct (decide _); [intros [= <-]; lia|apply IH].
Qed.
Lemma munpin_pin l x : munpin (mroots_of (x :: l)) x = mroots_of l.
Proof.
  unfold munpin. change (mroots_of (x :: l)) with (mpin (mroots_of l) x).
  rewrite mpin_lookup, decide_True by done. cbn [Nat.pred].
  destruct (mroots_of l !! x) as [c|] eqn:Hc; cbn [from_option].
  - pose proof (mroots_pos _ _ _ Hc). cbn. destruct (Nat.eqb_spec c 0) as [|]; [done|].
    apply map_eq. intros k. destruct (decide (k = x)) as [->|].
    + by rewrite lookup_insert.
    + by rewrite lookup_insert_ne, mpin_lookup, decide_False.
  - apply map_eq. intros k. cbn. destruct (decide (k = x)) as [->|].
    + by rewrite lookup_delete.
    + by rewrite lookup_delete_ne, mpin_lookup, decide_False.
Qed.
Lemma mroot_keys_elem l x : x ∈ mroot_keys (mroots_of l) ↔ x ∈ l.
Proof.
  unfold mroot_keys. transitivity (is_Some (mroots_of l !! x)).
  - rewrite elem_of_list_fmap. split.
    + intros ([k c] & -> & Hk%elem_of_map_to_list). by exists c.
    + intros [c Hc]. exists (x, c). split; [done|]. by apply elem_of_map_to_list.
  - induction l as [|y l IH].
    + unfold mroots_of. cbn. rewrite lookup_empty, elem_of_nil. split; [by intros []|done].
    + change (mroots_of (y :: l)) with (mpin (mroots_of l) y). rewrite mpin_lookup, elem_of_cons, <- IH.
      destruct (decide _); [|tauto]. split; [by left|]. intros _. by eexists.
Qed.

(** ** the invariant *)
Definition varfn (x : string) : mfn := λ e, VI (VVal (Z.of_nat (e x))).
Record gok (w : mmgr) (H : handles) : Prop := {
  gk_wf : mmwf I (g_mm w);
  gk_lvl : lvl_ok (g_mm w);
  gk_size : size (g_vars w) = length (hdrs (g_mm w));
  gk_var : ∀ x n, g_vars w !! x = Some n → mden (g_mm w) n (Some (varfn x)) ∧
    ∃ id i hd, n = NVal id ∧ hdrs (g_mm w) !! i = Some hd ∧ h_label hd = x ∧
      if decide (2 ≤ h_edges hd) then ∃ cs, ar_nodes (var (g_mm w)) !! id = Some (NT i cs)
      else ∃ t, ar_nodes (var (g_mm w)) !! id = Some (Term t);
  gk_lab : ∀ i hd, hdrs (g_mm w) !! i = Some hd → is_Some (g_vars w !! h_label hd);
  gk_nodup : NoDup (h_label <$> hdrs (g_mm w));
  gk_roots : ∃ l, g_roots w = mroots_of l ∧ l ≡ₚ H.*1 ++ (map_to_list (g_vars w)).*2 ++ mb_pins.*2;
  gk_held : ∀ x F, (x, F) ∈ H → mden (g_mm w) x F;
  gk_base : mkept B (g_mm w);
}.

Lemma gok_hc w H : gok w H → hcons (hdrs (g_mm w)).
Proof. intros Hk. apply (mm_hc I). apply Hk. Qed.

Lemma gok_step w H m : gok w H → mmstep I (g_mm w) m → gok (with_mm w m) H.
Proof.
  intros [Hw Hl Hs Hv Hla Hnd Hr Hh Hb] Hst. pose proof Hst as (Hw' & Eb & Ev & Hhd).
  constructor; cbn [with_mm g_mm g_vars g_roots]; rewrite ?Hhd; try done.
  - intros i hd. rewrite Hhd. apply Hl.
  - intros x n Hx. destruct (Hv _ _ Hx) as [Hd (id & i & hd & -> & Hi & Hx' & Hn)]. split; [exact (mden_step _ _ _ _ Hw Hl Hst Hd)|].
    exists id, i, hd. sp; try done. destruct Hd as [Vd _]. cbn in Vd.
    destruct (decide _); destruct Hn as [y Hn]; exists y; by apply Ev.
  - intros x F Hx. exact (mden_step _ _ _ _ Hw Hl Hst (Hh _ _ Hx)).
  - by eapply mkept_ext.
Qed.
Lemma gok_pin w H x F : gok w H → mden (g_mm w) x F → gok (g_pin w x) ((x, F) :: H).
Proof.
  intros [Hw Hl Hs Hv Hla Hnd [l [Hr Hp]] Hh Hb] Hd. constructor; cbn [g_pin g_mm g_vars g_roots]; try done.
  - exists (x :: l). split; [by rewrite Hr|]. cbn. by rewrite Hp.
  - intros y G [Hg|Hg]%elem_of_cons; [|by apply Hh]. by injection Hg as -> ->.
Qed.
Lemma gok_drop w H x F H' : gok w H → H ≡ₚ (x, F) :: H' → gok (g_drop w x) H'.
Proof.
  intros [Hw Hl Hs Hv Hla Hnd [l [Hr Hp]] Hh Hb] Hd. constructor; cbn [g_drop g_mm g_vars g_roots]; try done.
  - exists (H'.*1 ++ (map_to_list (g_vars w)).*2 ++ mb_pins.*2). split; [|done].
    rewrite Hr, (mroots_perm l (x :: H'.*1 ++ (map_to_list (g_vars w)).*2 ++ mb_pins.*2)); [apply munpin_pin|].
    rewrite Hp, Hd. done.
  - intros y G Hg. apply Hh. rewrite Hd. by right.
Qed.
Lemma gok_perm w H H' : gok w H → H ≡ₚ H' → gok w H'.
Proof.
  intros [Hw Hl Hs Hv Hla Hnd [l [Hr Hp]] Hh Hb] Hd. constructor; try done.
  - exists l. split; [done|]. by rewrite <- Hd.
  - intros y G Hg. apply Hh. by rewrite Hd.
Qed.
Lemma gok_params w H t f : gok w H → gok (MMgr (g_mm w) (g_roots w) t f (g_vars w)) H.
Proof. by intros []. Qed.
Lemma gok_valid w H x : gok w H → x ∈ H.*1 → mm_valid (g_mm w) x.
Proof. intros Hk ([y F] & -> & Hy)%elem_of_list_fmap. by apply (gk_held _ _ Hk) in Hy as [? _]. Qed.
Lemma gok_root_valid w H x : gok w H → x ∈ mroot_keys (g_roots w) → mm_valid (g_mm w) x.
Proof.
  intros Hk Hin. destruct (gk_roots _ _ Hk) as [l [Hr Hp]]. rewrite Hr, mroot_keys_elem, Hp, !elem_of_app in Hin.
  destruct Hin as [Hin|[([y v] & -> & Hx)%elem_of_list_fmap|Hin]]; [by eapply gok_valid| |by eapply mkept_valid; [apply Hk|]].
  apply elem_of_map_to_list in Hx. by apply (gk_var _ _ Hk) in Hx as [[? _] _].
Qed.

Lemma mreach_root m roots x : x ∈ roots → mm_reaches m roots x.
Proof. intros Hx. destruct x as [f|f]; apply nrs_root; [by apply in_vroots|by apply in_broots]. Qed.

Lemma gok_gc w H roots : gok w H → (∀ x, x ∈ mroot_keys (g_roots w) → x ∈ roots) →
  (∀ x, x ∈ roots → mm_valid (g_mm w) x) →
  ∃ m n, mm_gc (g_mm w) roots = Some (m, n) ∧ gok (with_mm w m) H.
Proof.
  intros Hk Hsup Hval. pose proof Hk as [Hw Hl Hs Hv Hla Hnd [l [Hr Hp]] Hh Hb].
  destruct (mm_gc_l I (g_mm w) roots Hw) as (m & nv & nb & Heq & Hw' & Hhd & Hlive & Hvals & _); [by apply Forall_forall|].
  exists m, (nv, nb). split; [done|].
  assert (Hkeep : ∀ x, x ∈ l → mm_valid m x).
  { intros x Hx. apply Hlive. right. apply mreach_root, Hsup. rewrite Hr. by apply mroot_keys_elem. }
  assert (Hl' : lvl_ok m). { intros i hd. rewrite Hhd. apply Hl. }
  assert (Hden : ∀ x F, x ∈ l → mden (g_mm w) x F → mden m x F).
  { intros x F Hx [_ Hd]. split; [by apply Hkeep|]. intros k Hk' e He.
    assert (He' : mrange (g_mm w) e) by (unfold mrange; by rewrite <- Hhd).
    pose proof (rho_agree m e Hl') as Ha. assert (Ha' : nagree (g_mm w) (rho_of m e) e) by (unfold nagree; by rewrite <- Hhd).
    specialize (Hd k Hk' e He'). apply (mvalue_lval _ _ _ _ _ Hw Ha') in Hd. apply (mvalue_lval _ _ _ _ _ Hw' Ha).
    destruct (Hvals x (rho_of m e) (Hkeep x Hx)) as [H1 H2]. unfold lval in *. destruct (k e); [by apply H1|by apply H2]. }
  assert (Hnodes : ar_nodes (var m) = ar_nodes (var (g_mm w)) ∧ ar_nodes (bar m) = ar_nodes (bar (g_mm w)) ∧
    (∀ id, reach (var (g_mm w)) (vroots roots) id → live (var m) id) ∧ ∀ id, reach (bar (g_mm w)) (broots roots) id → live (bar m) id).
  { destruct (mm_gc_ok I (g_mm w) roots Hw) as (m1 & nv1 & nb1 & Heq1 & _ & _ & Nb & Nv & Lb & Lv & _).
    { intros f Hf. by apply (Hval _ Hf). }
    { intros f Hf. by apply (Hval _ Hf). }
    rewrite Heq in Heq1. injection Heq1 as <- _ _. sp; [done|done| |].
    - intros id Hid. apply Lv. by right.
    - intros id Hid. apply Lb. by right. }
  destruct Hnodes as (Hnv & Hnb & Hrv & Hrb).
  constructor; cbn [with_mm g_mm g_vars g_roots]; rewrite ?Hhd; try done.
  - intros x n Hx. destruct (Hv _ _ Hx) as [Hd Hx']. split; [|by rewrite Hnv].
    apply Hden; [|done]. rewrite Hp, !elem_of_app. right; left.
    apply elem_of_list_fmap. exists (x, n). split; [done|]. by apply elem_of_map_to_list.
  - by exists l.
  - intros x F Hx. apply Hden; [|by apply Hh]. rewrite Hp. apply elem_of_app. left. apply elem_of_list_fmap. by exists (x, F).
  - intros m0 x Hx. specialize (Hb _ _ Hx).
    assert (Hin : x ∈ roots).
    { apply Hsup. rewrite Hr. apply mroot_keys_elem. rewrite Hp, !elem_of_app. right; right. apply elem_of_list_fmap. by exists (m0, x). }
    destruct x as [f|f]; cbn in Hb |- *.
    + eapply keeps_gc; [exact Hb|by rewrite (mmw_h _ _ Hw), (mmw_h _ _ Hw')|done|].
      intros id Hid. apply Hrv. eapply reach_mono; [|exact Hid]. intros r ->%elem_of_list_singleton. by apply in_vroots.
    + eapply keeps_gc; [exact Hb|done|done|].
      intros id Hid. apply Hrb. eapply reach_mono; [|exact Hid]. intros r ->%elem_of_list_singleton. by apply in_broots.
Qed.

Lemma gok_maybe_gc w H : gok w H → ∃ w', g_maybe_gc w = Some w' ∧ gok w' H ∧ hdrs (g_mm w') = hdrs (g_mm w).
Proof.
  intros Hk. unfold g_maybe_gc. destruct (_ <? _); [by exists w|].
  destruct (gok_gc w H (mroot_keys (g_roots w))) as (m & n & Heq & Hk'); [done|done| |].
  { intros x. by eapply gok_root_valid. }
  destruct (mm_gc_l I (g_mm w) (mroot_keys (g_roots w)) (gk_wf _ _ Hk)) as (m1 & nv & nb & Heq' & _ & Hhd & _).
  { apply Forall_forall. intros x. by eapply gok_root_valid. }
  rewrite Heq in Heq'. injection Heq' as <- _. rewrite Heq.
  cbn [mbind option_bind]. eexists. split; [done|]. split; [|done].
  eapply (gok_params _ _ _ _ Hk').
Qed.
Lemma gok_wrap w H x F : gok w H → mden (g_mm w) x F →
  ∃ w', g_wrap w x = Some (w', x) ∧ gok w' ((x, F) :: H) ∧ hdrs (g_mm w') = hdrs (g_mm w).
Proof.
  intros Hk Hd. unfold g_wrap. destruct (gok_maybe_gc (g_pin w x) ((x, F) :: H)) as (w' & -> & Hk' & Hh); [by apply gok_pin|].
  by exists w'.
Qed.
Lemma gok_op w H o m r F : gok w H → o = Some (m, r) → mmstep I (g_mm w) m → mden m r F →
  ∃ w', g_op w o = Some (w', r) ∧ gok w' ((r, F) :: H) ∧ hdrs (g_mm w') = hdrs (g_mm w).
Proof.
  intros Hk -> Hst Hd. unfold g_op. cbn [mbind option_bind].
  destruct (gok_wrap (with_mm w m) H r F) as (w' & ? & ? & Hh); [by apply gok_step|done|].
  exists w'. sp; try done. rewrite Hh. apply Hst.
Qed.

(** ** the inner operations *)
Lemma mm_bin_l o m f g : mmwf I m → mm_valid m f → mm_valid m g →
  match mm_bin I o m f g with
  | Some (m', r) => mmstep I m m' ∧ mm_valid m' r ∧
    (o ≠ OCmp Lte → ∀ rho a b v, mm_range m rho → lval m rho f a → lval m rho g b → val2 I o a b = Some v → lval m' rho r v)
  | None => ∃ rho a b, mm_range m rho ∧ lval m rho f a ∧ lval m rho g b ∧ val2 I o a b = None
  end.
Proof.
  intros Hw Vf Vg. destruct o as [o|c|o]; cbn [mm_bin].
  - pose proof (mm_arith_l I o m f g Hw Vf Vg) as Ha. destruct (mm_arith I o m f g) as [[m' r]|].
    + destruct Ha as (Hst & Hv & Hval). sp; try done. intros _ rho [x|x] [y|y] v Hr Hx Hy Hv2; try done.
      cbn [val2] in Hv2. destruct (decide _) as [Hn|]; [|done]. injection Hv2 as <-. by apply Hval.
    + destruct Ha as (rho & a & b & Hr & Ha & Hb & Hn). exists rho, (VI a), (VI b). sp; try done.
      cbn. by rewrite decide_False.
  - assert (Hcase : ∃ m' r, mm_cmp c m f g = Some (m', r) ∧ mmstep I m m' ∧ mm_valid m' r ∧
      (c ≠ Lte → ∀ rho a b v, mm_range m rho → lval m rho f a → lval m rho g b →
         val2 I (OCmp c) a b = Some v → lval m' rho r v)).
    { assert (Hbe : (c = Eq ∨ c = Neq) → ∃ m' r, mm_cmp c m f g = Some (m', r) ∧
        ∀ rho x y v, mm_range m rho → mm_bool m rho f (tvb x) → mm_bool m rho g (tvb y) →
          val2 I (OCmp c) (VB x) (VB y) = Some v → lval m' rho r v).
      { destruct (mm_beq_l I m f g Hw Vf Vg) as [(m1 & r1 & E1 & _ & _ & H1) (m2 & r2 & E2 & _ & _ & H2)].
        intros [->| ->]; [exists m1, r1|exists m2, r2]; (split; [done|]); intros rho x y v Hr Hx Hy [= <-]; cbn.
        - by apply H1.
        - by apply H2. }
      destruct c; try (destruct (mm_lte_l I m f g Hw Vf Vg) as (m' & r & ? & ? & ? & _); exists m', r; by sp);
       (match goal with |- context [mm_cmp ?c _ _ _] => destruct (mm_cmp_l I c m f g ltac:(done) Hw Vf Vg) as (m' & r & Heq & Hst & Hv & Hval) end;
        exists m', r; sp; try done; intros _ rho [x|x] [y|y] v Hr Hx Hy Hv2; try done;
        try (injection Hv2 as <-; by apply Hval)).
      - destruct Hbe as (m1 & r1 & E1 & H1); [by left|]. rewrite Heq in E1. injection E1 as <- <-. by eapply H1.
      - destruct Hbe as (m1 & r1 & E1 & H1); [by right|]. rewrite Heq in E1. injection E1 as <- <-. by eapply H1. }
    destruct Hcase as (m' & r & -> & ? & ? & Hval). sp; try done. intros Hne. apply Hval. intros ->. done.
  - destruct (mm_gate_l I o m f g Hw Vf Vg) as (m' & r & -> & ? & ? & Hval). sp; try done.
    intros _ rho [x|x] [y|y] v Hr Hx Hy Hv2; try done. injection Hv2 as <-. by apply Hval.
Qed.
Lemma mm_not_v m f : mmwf I m → mm_valid m f →
  ∃ m' r, mm_not m f = Some (m', r) ∧ mmstep I m m' ∧ mm_valid m' r ∧
    ∀ rho a v, mm_range m rho → lval m rho f a → val_not a = Some v → lval m' rho r v.
Proof.
  intros Hw Vf. destruct (mm_not_l I m f Hw Vf) as (m' & r & ? & ? & ? & Hval). exists m', r. sp; try done.
  intros rho [x|x] v Hr Hx Hv; [|done]. injection Hv as <-. by apply Hval.
Qed.
Lemma mm_ite_v m c f g : mmwf I m → mm_valid m c → mm_valid m f → mm_valid m g →
  match mm_ite m c f g with
  | Some (m', r) => mmstep I m m' ∧ mm_valid m' r ∧
    ∀ rho x a b v, mm_range m rho → lval m rho c x → lval m rho f a → lval m rho g b → val_ite x a b = Some v → lval m' rho r v
  | None => ∀ rho x a b, lval m rho c x → lval m rho f a → lval m rho g b → val_ite x a b = None
  end.
Proof.
  intros Hw Vc Vf Vg.
  assert (Hk : ∀ m' r, match c, f, g with NBool _, NBool _, NBool _ | NBool _, NVal _, NVal _ => False | _, _, _ => True end →
    ∀ rho x a b v, mm_range m rho → lval m rho c x → lval m rho f a → lval m rho g b → val_ite x a b = Some v → lval m' rho r v).
  { intros m' r Hn rho x a b v _ Hx%lval_kind Ha%lval_kind Hb%lval_kind Hv.
    destruct c, f, g, x, a, b; done. }
  destruct f as [f|f], g as [g|g]; try (destruct c; cbn [mm_ite]; intros rho x a b Hx%lval_kind Ha%lval_kind Hb%lval_kind; by destruct x, a, b);
    destruct c as [c|c].
  - cbn [mm_ite]. sp; [by apply mmstep_refl| |by apply Hk]. eapply repr_live. apply (tw_good _ _ (mmw_v _ _ Hw)).
  - destruct (mm_vite_l I m c f g Hw Vc Vf Vg) as (m' & r & -> & ? & ? & Hval). sp; try done.
    intros rho [x|x] [a|a] [b|b] v Hr Hx Ha Hb Hv; try done; try (by apply lval_kind in Ha).
    injection Hv as <-. by apply Hval.
  - cbn [mm_ite]. sp; [by apply mmstep_refl| |by apply Hk]. by eapply b_undet.
  - destruct (mm_bite_l I m c f g Hw Vc Vf Vg) as (m' & r & -> & ? & ? & Hval). sp; try done.
    intros rho [x|x] [a|a] [b|b] v Hr Hx Ha Hb Hv; try done; try (by apply lval_kind in Ha).
    injection Hv as <-. cbn. specialize (Hval rho x (tvb a) (tvb b) Hr Hx Ha Hb). by destruct x.
Qed.

Lemma mm_fold_l o xs : ∀ m acc, o ≠ OCmp Lte → mmwf I m → mm_valid m acc → Forall (mm_valid m) xs →
  match mm_fold (mm_bin I o) m acc xs with
  | Some (m', r) => mmstep I m m' ∧ mm_valid m' r ∧
    ∀ rho a vs v, mm_range m rho → (∀ a', a = Some a' → lval m rho acc a') →
      Forall2 (λ x b, ∀ b', b = Some b' → lval m rho x b') xs vs → val_fold I o a vs = Some v → lval m' rho r v
  | None => True
  end.
Proof.
  induction xs as [|x xs IH]; intros m acc Hne Hw Va Vx; cbn [mm_fold].
  - sp; [by apply mmstep_refl|done|]. intros rho a vs v _ Ha Hvs Hv. apply Forall2_nil_inv_l in Hvs as ->. by apply Ha.
  - apply Forall_cons in Vx as [Vx Vxs]. pose proof (mm_bin_l o m acc x Hw Va Vx) as Hb.
    destruct (mm_bin I o m acc x) as [[m1 r1]|]; [|done]. cbn [mbind option_bind]. destruct Hb as (Hst1 & Vr1 & Hval1).
    specialize (IH m1 r1 Hne (proj1 Hst1) Vr1).
    destruct (mm_fold (mm_bin I o) m1 r1 xs) as [[m2 r2]|] eqn:Hf; [|done].
    destruct IH as (Hst2 & Vr2 & Hval2).
    { eapply Forall_impl; [exact Vxs|]. intros y. apply (mext_valid I). by apply mmstep_mext. }
    sp; [by eapply mmstep_trans|done|]. intros rho a vs v Hr Ha Hvs Hv.
    apply Forall2_cons_inv_l in Hvs as (b & bs & Hb & Hbs & ->). unfold val_fold in Hv. cbn [foldl] in Hv.
    eapply (Hval2 rho _ bs v); [|intros a' Ha'| |exact Hv].
    + unfold mm_range, in_range. by destruct Hst1 as (_ & _ & _ & ->).
    + destruct a as [a|]; [|done]. destruct b as [b|]; [|done]. cbn in Ha'.
      by eapply Hval1; [done|done|apply Ha|apply Hb|].
    + rewrite Forall_forall in Vxs. clear -Hbs Vxs Hst1 Hw. induction Hbs as [|y b xs bs Hy _ IH]; constructor.
      * intros b' ->. eapply lval_ext; [exact Hw|by apply mmstep_mext|apply Vxs; by left|by apply Hy].
      * apply IH. intros z Hz. apply Vxs. by right.
Qed.

(** ** the operations on the wrapper *)
Section ops.
Context (w : mmgr) (H : handles) (Hk : gok w H).
Let m := g_mm w.
Let Hw : mmwf I m := gk_wf _ _ Hk.
Let Hl : lvl_ok m := gk_lvl _ _ Hk.

Lemma held_v x F : (x, F) ∈ H → mm_valid m x.
Proof. intros Hx. by apply (gk_held _ _ Hk) in Hx as [? _]. Qed.
Lemma held_lval x F e a : (x, F) ∈ H → mrange m e → at_env F e = Some a → lval m (rho_of m e) x a.
Proof.
  intros Hx He Ha. apply (gk_held _ _ Hk) in Hx as [_ Hd]. destruct F as [F|]; [|done]. injection Ha as <-.
  apply (mvalue_lval m e); [done|by apply rho_agree|]. by apply Hd.
Qed.
Lemma range_rho e : mrange m e → mm_range m (rho_of m e).
Proof. intros He. by apply (mrange_rho m _ e); [apply rho_agree|]. Qed.

(** from the specification of the call to the meaning of its result *)
Lemma den_of m' r S K : mmstep I m m' → mm_valid m' r → promised w S K →
  (∀ e v, mrange m e → mm_range m (rho_of m e) → S e = Some v → lval m' (rho_of m e) r v) → mden m' r K.
Proof.
  intros Hst Vr Hp Hv. split; [done|]. intros k -> e He.
  assert (He' : mrange m e). { eapply mrange_ext; [by apply mmstep_mext|done]. }
  apply (mvalue_lval m' e (rho_of m e)); [apply Hst| |].
  - unfold nagree. destruct Hst as (_ & _ & _ & ->). by apply rho_agree.
  - apply Hv; [done|by apply range_rho|]. by apply Hp.
Qed.

Lemma term_den x v : mm_valid m x → (∀ rho, lval m rho x v) → mden m x (Some (λ _, v)).
Proof.
  intros Vx Hv. split; [done|]. intros k [= <-] e He. apply (mvalue_lval m e (rho_of m e)); [done|by apply rho_agree|done].
Qed.
Lemma g_boolean_ok b : ∃ w', g_boolean w b = Some (w', if b then mm_one else mm_zero) ∧
  gok w' ((if b then mm_one else mm_zero, Some (λ _, VB b)) :: H) ∧ hdrs (g_mm w') = hdrs m.
Proof.
  apply gok_wrap; [done|]. apply term_den.
  - destruct b; eapply repr_live; [apply (mg_one _ (mw_good _ (mmw_b _ _ Hw)))|apply (mg_zero _ (mw_good _ (mmw_b _ _ Hw)))].
  - intros rho. destruct b; eexists; (split; [done|]).
    + by apply (nval_eval _ _ _ _ _ (mg_one _ (mw_good _ (mmw_b _ _ Hw)))).
    + by apply (nval_eval _ _ _ _ _ (mg_zero _ (mw_good _ (mmw_b _ _ Hw)))).
Qed.
Lemma g_undet_value_ok : ∃ w', g_undet_value w = Some (w', mm_undet_value) ∧
  gok w' ((mm_undet_value, Some (λ _, VI VUndet)) :: H) ∧ hdrs (g_mm w') = hdrs m.
Proof.
  pose proof (tg_undet _ _ (tw_good _ _ (mmw_v _ _ Hw))) as Hu.
  apply gok_wrap; [done|]. apply term_den; [by eapply repr_live|].
  intros rho. eexists. split; [done|]. by apply (nval_eval _ _ _ _ _ Hu).
Qed.
Lemma g_undet_boolean_ok : ∃ w', g_undet_boolean w = Some (w', mm_undet_boolean) ∧
  gok w' ((mm_undet_boolean, None) :: H) ∧ hdrs (g_mm w') = hdrs m.
Proof.
  apply gok_wrap; [done|]. split; [|done]. unfold mm_undet_boolean.
  first [by eapply b_undet|eapply repr_live; apply (mg_zero _ (mw_good _ (mmw_b _ _ Hw)))|eapply repr_live; apply (mg_one _ (mw_good _ (mmw_b _ _ Hw)))].
Qed.
Lemma g_value_ok z : ∃ w' r, g_value w z = Some (w', r) ∧ gok w' ((r, Some (λ _, VI (VVal z))) :: H) ∧ hdrs (g_mm w') = hdrs m.
Proof.
  destruct (mm_value_l I m z Hw) as (m' & r & Heq & Hst & Vr & Hv). unfold g_value. fold m. rewrite Heq.
  destruct (gok_op w H (Some (m', r)) m' r (Some (λ _, VI (VVal z))) Hk eq_refl Hst) as (w' & ? & ? & ?); [|by exists w', r].
  eapply (den_of m' r (λ _, Some (VI (VVal z)))); [done|done|done|]. intros e v _ _ [= <-]. apply Hv.
Qed.
Lemma g_not_ok f F K : (f, F) ∈ H → promised w (λ e, a ← at_env F e; val_not a) K →
  ∃ w' r, g_not w f = Some (w', r) ∧ gok w' ((r, K) :: H) ∧ hdrs (g_mm w') = hdrs m.
Proof.
  intros Hf HK. destruct (mm_not_v m f Hw (held_v _ _ Hf)) as (m' & r & Heq & Hst & Vr & Hv).
  destruct (gok_op w H _ m' r K Hk Heq Hst) as (w' & ? & ? & ?); [|by exists w', r].
  eapply den_of; [done|done|done|]. intros e v He Hr Hs. cbn in Hs. destruct (at_env F e) as [a|] eqn:Ha; [|done].
  eapply Hv; [done|by eapply held_lval|done].
Qed.
Lemma g_bin_ok o f F g G : (f, F) ∈ H → (g, G) ∈ H →
  match g_bin (mm_bin I o) w f g with
  | Some (w', r) => ∀ K, promised w (λ e, a ← at_env F e; b ← at_env G e; val2 I o a b) K → (o = OCmp Lte → K = None) →
      gok w' ((r, K) :: H) ∧ hdrs (g_mm w') = hdrs m
  | None => ∃ rho a b, mm_range m rho ∧ lval m rho f a ∧ lval m rho g b ∧ val2 I o a b = None
  end.
Proof.
  intros Hf Hg. pose proof (mm_bin_l o m f g Hw (held_v _ _ Hf) (held_v _ _ Hg)) as Hb. unfold g_bin. fold m.
  destruct (mm_bin I o m f g) as [[m' r]|] eqn:Heq; [|by cbn].
  destruct Hb as (Hst & Vr & Hv).
  assert (Hgo : ∀ K, promised w (λ e, a ← at_env F e; b ← at_env G e; val2 I o a b) K → (o = OCmp Lte → K = None) → mden m' r K).
  { intros K HK Ho. destruct K as [k|]; [|split; [done|by intros]]. eapply den_of; [done|done|done|]. intros e v He Hr Hs.
    cbn in Hs. destruct (at_env F e) as [a|] eqn:Ha; [|done]. destruct (at_env G e) as [b|] eqn:Hb; [|done]. cbn in Hs.
    eapply Hv; [|done|exact (held_lval _ _ _ _ Hf He Ha)|exact (held_lval _ _ _ _ Hg He Hb)|done].
    intros Hlte. by discriminate (Ho Hlte). }
  destruct (gok_op w H (Some (m', r)) m' r None Hk eq_refl Hst) as (w' & Hop & _); [split; [done|by intros]|].
  rewrite Hop. intros K HK Ho. destruct (gok_op w H (Some (m', r)) m' r K Hk eq_refl Hst) as (w2 & Hop2 & ? & ?); [by apply Hgo|].
  rewrite Hop in Hop2. by injection Hop2 as <-.
Qed.
Lemma g_ite_ok c C f F g G K : (c, C) ∈ H → (f, F) ∈ H → (g, G) ∈ H →
  promised w (λ e, x ← at_env C e; a ← at_env F e; b ← at_env G e; val_ite x a b) K →
  match g_ite w c f g with
  | Some (w', r) => gok w' ((r, K) :: H) ∧ hdrs (g_mm w') = hdrs m
  | None => ¬ same_kind f g
  end.
Proof.
  intros Hc Hf Hg HK. pose proof (mm_ite_v m c f g Hw (held_v _ _ Hc) (held_v _ _ Hf) (held_v _ _ Hg)) as Hb.
  unfold g_ite. fold m. destruct (mm_ite m c f g) as [[m' r]|] eqn:Heq.
  - destruct Hb as (Hst & Vr & Hv).
    destruct (gok_op w H (Some (m', r)) m' r K Hk eq_refl Hst) as (w' & -> & ? & ?); [|done].
    eapply den_of; [done|done|done|]. intros e v He Hr Hs. cbn in Hs.
    destruct (at_env C e) as [x|] eqn:Hx; [|done]. destruct (at_env F e) as [a|] eqn:Ha; [|done].
    destruct (at_env G e) as [b|] eqn:Hb; [|done]. cbn in Hs.
    exact (Hv _ x a b v Hr (held_lval _ _ _ _ Hc He Hx) (held_lval _ _ _ _ Hf He Ha) (held_lval _ _ _ _ Hg He Hb) Hs).
  - cbn. intros Hsk. destruct (mm_ite_step I m c f g Hw) as (m1 & r1 & E & _); [by eapply held_v..|done|]. congruence.
Qed.
Lemma g_node_ok h hd xs Fs K : mm_fits m h xs → Forall2 (λ x F, (x, F) ∈ H) xs Fs → hdrs m !! h = Some hd →
  promised w (λ e, F ← Fs !! e (h_label hd); at_env F e) K →
  ∃ w' r, g_create_node w h xs = Some (w', r) ∧ gok w' ((r, K) :: H) ∧ hdrs (g_mm w') = hdrs m.
Proof.
  intros Hf Hxs Hh HK. destruct (mm_create_node_l I m h xs Hw Hf) as (hd' & m' & r & Hh' & Heq & Hst & Vr & Hv).
  rewrite Hh in Hh'. injection Hh' as <-.
  destruct (gok_op w H _ m' r K Hk Heq Hst) as (w' & ? & ? & ?); [|by exists w', r].
  eapply den_of; [done|done|done|]. intros e v He Hr Hs. cbn in Hs.
  destruct (Fs !! e (h_label hd)) as [F|] eqn:HF; [|done]. cbn in Hs.
  destruct (list.Forall2_lookup_r _ _ _ _ _ Hxs HF) as (x & Hx & Hin).
  assert (Hrl : rho_of m e (h_level hd) = e (h_label hd)).
  { apply rho_agree; [done|]. by eapply elem_of_list_lookup_2. }
  destruct (Hv (rho_of m e) x) as [H1 H2]; [by rewrite Hrl|].
  pose proof (held_lval _ _ _ _ Hin He Hs) as Hlv. destruct v; [by apply H1|by apply H2].
Qed.

Lemma list_lval (L : handles) e : (∀ x, x ∈ L → x ∈ H) → mrange m e →
  Forall (mm_valid m) L.*1 ∧ Forall2 (λ x b, ∀ b', b = Some b' → lval m (rho_of m e) x b') L.*1 ((λ F, at_env F e) <$> L.*2).
Proof.
  induction L as [|[x F] L IH]; intros HL He; [by split; constructor|].
  destruct IH as [IH1 IH2]; [intros y Hy; apply HL; by right|done|].
  assert ((x, F) ∈ H) as Hx by (apply HL; by left). split.
  - constructor; [by eapply held_v|done].
  - constructor; [|done]. intros b' Hb. by eapply held_lval.
Qed.
Lemma list_valid (L : handles) : (∀ x, x ∈ L → x ∈ H) → Forall (mm_valid m) L.*1.
Proof.
  intros HL. apply Forall_forall. intros x ([y F] & -> & Hy)%elem_of_list_fmap. eapply held_v. by apply HL.
Qed.
Lemma fold_ok o acc a (L : handles) : o ≠ OCmp Lte → (∀ x, x ∈ L → x ∈ H) → mm_valid m acc →
  (∀ e b, mrange m e → a e = Some b → lval m (rho_of m e) acc b) →
  ∀ K, promised w (λ e, val_fold I o (a e) ((λ F, at_env F e) <$> L.*2)) K →
  match g_op w (mm_fold (mm_bin I o) m acc L.*1) with
  | Some (w', r) => gok w' ((r, K) :: H) ∧ hdrs (g_mm w') = hdrs m
  | None => True
  end.
Proof.
  intros Ho HL Va Ha K HK. pose proof (mm_fold_l o L.*1 m acc Ho Hw Va (list_valid L HL)) as Hb.
  destruct (mm_fold (mm_bin I o) m acc L.*1) as [[m' r]|] eqn:Heq; [|done]. destruct Hb as (Hst & Vr & Hv).
  destruct (gok_op w H (Some (m', r)) m' r K Hk eq_refl Hst) as (w' & -> & ? & ?); [|done].
  eapply den_of; [done|done|done|]. intros e v He Hr Hs.
  eapply (Hv _ (a e)); [done| |apply list_lval; [done|done]|exact Hs]. intros a' Ha'. by apply Ha.
Qed.
Lemma g_list_ok l (L : handles) K : (∀ x, x ∈ L → x ∈ H) →
  promised w (λ e, val_list I l ((λ F, at_env F e) <$> L.*2)) K →
  match g_list I l w L.*1 with
  | Some (w', r) => gok w' ((r, K) :: H) ∧ hdrs (g_mm w') = hdrs m
  | None => True
  end.
Proof.
  intros HL HK. pose proof (mw_good _ (mmw_b _ _ Hw)) as Hg.
  assert (Hone : ∀ e b, mrange m e → Some (VB true) = Some b → lval m (rho_of m e) mm_one b).
  { intros e b _ [= <-]. eexists. split; [done|]. by apply (nval_eval _ _ _ _ _ (mg_one _ Hg)). }
  assert (Hzero : ∀ e b, mrange m e → Some (VB false) = Some b → lval m (rho_of m e) mm_zero b).
  { intros e b _ [= <-]. eexists. split; [done|]. by apply (nval_eval _ _ _ _ _ (mg_zero _ Hg)). }
  assert (Hfst : ∀ o, o ≠ OCmp Lte → ∀ x F L', L = (x, F) :: L' →
    promised w (λ e, val_fold I o (at_env F e) ((λ F, at_env F e) <$> L'.*2)) K →
    match g_op w (mm_fold (mm_bin I o) m x L'.*1) with
    | Some (w', r) => gok w' ((r, K) :: H) ∧ hdrs (g_mm w') = hdrs m
    | None => True
    end).
  { intros o Ho x F L' -> HK'. eapply (fold_ok o x (at_env F)); [done| | | |done].
    - intros y Hy. apply HL. by right.
    - eapply held_v, HL. by left.
    - intros e b He Hb. eapply held_lval; [apply HL; by left|done|done]. }
  destruct l; cbn [g_list val_list] in *.
  - apply (fold_ok (OGate GAnd) mm_one (λ _, Some (VB true)) L); try done. eapply repr_live. apply (mg_one _ Hg).
  - apply (fold_ok (OGate GOr) mm_zero (λ _, Some (VB false)) L); try done. eapply repr_live. apply (mg_zero _ Hg).
  - destruct L as [|[x F] L']; [done|]. by eapply (Hfst (OArith VMin)).
  - destruct L as [|[x F] L']; [done|]. by eapply (Hfst (OArith VMax)).
Qed.
Lemma g_gc_ok keep : Forall (λ x, x ∈ H.*1) keep → ∃ w' n, g_gc w keep = Some (w', n) ∧ gok w' H ∧ hdrs (g_mm w') = hdrs m.
Proof.
  intros Hkeep. unfold g_gc. assert (Hval : ∀ x, x ∈ mroot_keys (g_roots w) ++ keep → mm_valid m x).
  { intros x [Hx|Hx]%elem_of_app; [by eapply gok_root_valid|]. rewrite Forall_forall in Hkeep. eapply gok_valid; [done|by apply Hkeep]. }
  destruct (gok_gc w H (mroot_keys (g_roots w) ++ keep) Hk) as (m' & n & Heq & Hk').
  - intros x Hx. apply elem_of_app. by left.
  - done.
  - rewrite Heq. exists (with_mm w m'), n. sp; try done. cbn.
    destruct (mm_gc_l I m (mroot_keys (g_roots w) ++ keep) Hw) as (m1 & nv & nb & Heq' & _ & Hhd & _); [by apply Forall_forall|].
    unfold m in Heq'. rewrite Heq in Heq'. by injection Heq' as <- _.
Qed.
Lemma g_clear_ok : gok (g_clear_cache w) H.
Proof.
  apply gok_step; [done|]. split; [by apply mm_clear_cache_ok|]. split; [apply ext_refl|]. split; [apply ext_refl|done].
Qed.
End ops.
End mss.
Lemma gok_new I : @gok I mbase0 g_new [].
Proof.
  constructor; cbn; try done.
  - apply mm_new_ok.
  - by constructor.
  - by exists [].
  - intros x F Hin. by apply elem_of_nil in Hin.
  - intros m0 x Hin. by apply elem_of_nil in Hin.
Qed.
