(** Results of the combined manager depend on the operands' functions only. *)
From Verif Require Import Prelude ComputeCache ComputeCacheProofs Arena Trees StripTrees ArenaProofs Bdd ArenaMore Mdd MtMdd MtMdd2.
From Verif Require Import SpecBdd SpecMdd NaryProofs MddProofs MtProofs MmProofs MddMain MmMain NExact MddExact SpecExactM MddExactMain MmExact.

Section mm.
Context (I : vint).
Notation bar m := (d_ar (mm_b m)).
Notation var m := (t_ar (mm_v m)).

(** ** Which operations touch which caches *)
Definition cfr (m m' : mm) : Prop :=
  d_cache (mm_b m') = d_cache (mm_b m) ∧ d_ite (mm_b m') = d_ite (mm_b m) ∧ mm_vite m' = mm_vite m.
Lemma cfr_refl m : cfr m m.
Proof. done. Qed.
Lemma cfr_trans m1 m2 m3 : cfr m1 m2 → cfr m2 m3 → cfr m1 m3.
Proof. intros (? & ? & ?) (? & ? & ?). split; [congruence|]. split; congruence. Qed.
Lemma mapst_cfr {A} (F : mm → A → option (mm * nat)) (HF : ∀ m p m' r, F m p = Some (m', r) → cfr m m') ps m m' ns :
  mapst F m ps = Some (m', ns) → cfr m m'.
Proof.
  revert m m' ns. induction ps as [|p ps IH]; intros m m' ns; cbn [mapst]; [by intros [= <- <-]|].
  destruct (F m p) as [[m1 r]|] eqn:H1; [|done]. cbn [mbind option_bind].
  destruct (mapst F m1 ps) as [[m2 rs]|] eqn:H2; [|done]. cbn [mbind option_bind]. intros [= <- <-].
  eapply cfr_trans; [by eapply HF|by eapply IH].
Qed.
Lemma create_cfr m h ns b r : mdd_create_node (mm_b m) h ns = (b, r) → cfr m (mm_with_b m b).
Proof.
  unfold mdd_create_node. destruct (all_same ns); [by intros [= <- <-]|].
  destruct (ar_hashcons _ _ _) as [a' r']. by intros [= <- <-].
Qed.
Lemma cmp_cfr o n : ∀ m f g m' r, mm_cmp_f o n m f g = Some (m', r) → cfr m m'.
Proof.
  induction n as [|n IH]; intros m f g m' r; [done|]. cbn [mm_cmp_f].
  destruct (mm_bc_get m o f g) as [[x|]|]; cbn [mbind option_bind]; [by intros [= <- <-]| |done].
  destruct (ar_nodes (var m) !! f) as [fn|]; [|done]. destruct (ar_nodes (var m) !! g) as [gn|]; [|done]. cbn [mbind option_bind].
  assert (Hput : ∀ m1 x m2, mm_bc_put m1 o f g x = Some m2 → cfr m1 m2).
  { intros m1 x m2. unfold mm_bc_put. destruct (cc_put _ _ _ _ _) as [c|]; [|done]. cbn [mbind option_bind]. by intros [= <-]. }
  destruct (cop_arm o fn gn) as [x|]; cbn [mbind option_bind].
  - destruct (mm_bc_put m o f g x) as [m1|] eqn:Hp; [|done]. cbn [mbind option_bind]. intros [= <- <-]. by eapply Hput.
  - destruct (expand _ _ _ _ _ _ _) as [[h ps]|]; [|done]. cbn [mbind option_bind].
    destruct (mapst _ m ps) as [[m1 ns]|] eqn:Hm; [|done]. cbn [mbind option_bind].
    destruct (mdd_create_node (mm_b m1) h ns) as [b x] eqn:Hc. cbn [mbind option_bind].
    destruct (mm_bc_put _ o f g x) as [m2|] eqn:Hp; [|done]. cbn [mbind option_bind]. intros [= <- <-].
    eapply cfr_trans; [eapply mapst_cfr; [|exact Hm]; intros m3 p m4 r4 HH; exact (IH _ _ _ _ _ HH)|].
    eapply cfr_trans; [by eapply create_cfr|by eapply Hput].
Qed.
Lemma vif_cfr n : ∀ m f g m' r, mm_vif_f n m f g = Some (m', r) → cfr m m'.
Proof.
  induction n as [|n IH]; intros m f g m' r; [done|]. cbn [mm_vif_f].
  destruct (mm_vc_get m f g) as [[x|]|]; cbn [mbind option_bind]; [by intros [= <- <-]| |done].
  destruct (ar_nodes (bar m) !! f) as [fn|]; [|done]. destruct (ar_nodes (var m) !! g) as [gn|]; [|done]. cbn [mbind option_bind].
  assert (Hput : ∀ m1 x m2, mm_vc_put m1 f g x = Some m2 → cfr m1 m2).
  { intros m1 x m2. unfold mm_vc_put. destruct (cc_put _ _ _ _ _) as [c|]; [|done]. cbn [mbind option_bind]. by intros [= <-]. }
  destruct (vif_arm g fn gn) as [x|]; cbn [mbind option_bind].
  - destruct (mm_vc_put m f g x) as [m1|] eqn:Hp; [|done]. cbn [mbind option_bind]. intros [= <- <-]. by eapply Hput.
  - destruct (expand _ _ _ _ _ _ _) as [[h ps]|]; [|done]. cbn [mbind option_bind].
    destruct (mapst _ m ps) as [[m1 ns]|] eqn:Hm; [|done]. cbn [mbind option_bind].
    destruct (mt_create_node (mm_v m1) h ns) as [b x] eqn:Hc. cbn [mbind option_bind].
    destruct (mm_vc_put _ f g x) as [m2|] eqn:Hp; [|done]. cbn [mbind option_bind]. intros [= <- <-].
    eapply cfr_trans; [eapply mapst_cfr; [|exact Hm]; intros m3 p m4 r4 HH; exact (IH _ _ _ _ _ HH)|].
    eapply cfr_trans; [|by eapply Hput]. done.
Qed.

(** ** The invariant *)
Record xmm (m : mm) : Prop := {
  xm_wf : mmwf I m;
  xm_b : xmwf (mm_b m);
  xm_vi : cache_ok (mm_vite m) (xventry (bar m) (var m));
}.
Lemma xmm_intro m m' : xmm m → mext I m m' → xmwf (mm_b m') → mm_vite m' = mm_vite m → xmm m'.
Proof.
  intros [_ _ Hi] (W & Eb & Ev) Hb Heq. constructor; try done. rewrite Heq. eapply cache_ok_mono; [|exact Hi].
  intros k x. by apply xventry_mono.
Qed.
Lemma xmm_frame m m' : xmm m → mext I m m' → cfr m m' → xmm m'.
Proof.
  intros Hx He (Hc & Hi & Hv). eapply xmm_intro; try done. destruct He as (W & Eb & Ev). destruct Hx as [_ [_ H1 H2] _].
  constructor; [apply (mmw_b _ _ W)| |].
  - rewrite Hc. eapply cache_ok_mono; [|exact H1]. intros ? ?. by apply xmcentry_mono.
  - rewrite Hi. eapply cache_ok_mono; [|exact H2]. intros ? ?. by apply xmientry_mono.
Qed.
Lemma xmm_xv m : xmm m → xvwf I m.
Proof. intros []. by constructor. Qed.

Lemma onb_x m (x : option (mdd * nat)) m' r : xmm m → (∀ b n, x = Some (b, n) → xmwf b) → mext I m m' →
  on_b m x = Some (m', r) → xmm m'.
Proof.
  intros Hx Hb He. destruct x as [[b n]|]; [|done]. cbn. intros [= <- <-]. eapply xmm_intro; [exact Hx|exact He| |done].
  cbn. by eapply Hb.
Qed.
Lemma bin_x o m f g : o ≠ MNot → xmwf m → node_valid (d_ar m) f → node_valid (d_ar m) g →
  ∃ b n, mdd_bin_f o (ar_fuel (d_ar m)) m f g = Some (b, n) ∧ xmstep m b ∧ node_valid (d_ar b) n.
Proof.
  intros Ho W Vf Vg. destruct (nvalid_repr _ _ _ (xw_aw _ W) Vf) as [df Hf]. destruct (nvalid_repr _ _ _ (xw_aw _ W) Vg) as [dg Hg].
  destruct (xmdd_bin_ok o m f g df dg Ho W Hf Hg) as (m1 & r1 & dr1 & -> & Hst1 & Hr1 & _).
  exists m1, r1. sp; try done. by eapply repr_live.
Qed.
Lemma not_x m f : xmwf m → node_valid (d_ar m) f → ∃ b n, mdd_not m f = Some (b, n) ∧ xmstep m b ∧ node_valid (d_ar b) n.
Proof.
  intros W Vf. destruct (nvalid_repr _ _ _ (xw_aw _ W) Vf) as [df Hf].
  destruct (xmdd_not_ok m f df W Hf) as (m1 & r1 & dr1 & -> & Hst1 & Hr1 & _). exists m1, r1. sp; try done. by eapply repr_live.
Qed.
Lemma cmp_x o m f g : xmm m → node_valid (var m) f → node_valid (var m) g →
  ∃ m' r, mm_cmp_f o (ar_fuel (var m)) m f g = Some (m', r) ∧ xmm m' ∧ mmstep I m m' ∧ node_valid (bar m') r.
Proof.
  intros Hx Vf Vg. destruct (cmp_val I o m f g (xm_wf _ Hx) Vf Vg) as (m' & r & Heq & Hst & Hv & _).
  exists m', r. sp; try done. eapply xmm_frame; [exact Hx|by apply mmstep_mext|by eapply cmp_cfr].
Qed.
Lemma cmp_call_x c m f g m' r : xmm m → mm_valid m f → mm_valid m g → mext I m m' → mm_cmp c m f g = Some (m', r) → xmm m'.
Proof.
  intros Hx Vf Vg He Heq.
  assert (Hb : ∀ x n, on_b m x = Some (m', n) → (∀ b n, x = Some (b, n) → xmwf b) → xmm m') by eauto using onb_x.
  assert (Hc : ∀ o f g, node_valid (var m) f → node_valid (var m) g → as_bool (mm_cmp_f o (ar_fuel (var m)) m f g) = Some (m', r) → xmm m').
  { intros o f' g' Vf' Vg'. destruct (cmp_x o m f' g' Hx Vf' Vg') as (m1 & r1 & -> & ? & _). cbn. by intros [= <- <-]. }
  assert (Hn : ∀ o f g, node_valid (var m) f → node_valid (var m) g →
    ('(m, tmp) ← mm_cmp_f o (ar_fuel (var m)) m f g; on_b m (mdd_not (mm_b m) tmp)) = Some (m', r) → xmm m').
  { intros o f' g' Vf' Vg'. destruct (cmp_x o m f' g' Hx Vf' Vg') as (m1 & r1 & -> & X1 & Hst & Hv). cbn [mbind option_bind].
    destruct (not_x (mm_b m1) r1 (xm_b _ X1) Hv) as (b & n & -> & (Wb & Eb & Hh) & _). cbn. intros [= <- <-].
    eapply xmm_intro; [exact X1| |done|done]. apply mmstep_mext. apply with_b_step; [apply X1|].
    destruct (nvalid_repr _ _ _ (wb _ _ (xm_wf _ X1)) Hv) as [d Hd].
    destruct He as (W & _ & _). split; [apply (mmw_b _ _ W)|done]. }
  destruct c; cbn [mm_cmp] in Heq; destruct f as [f|f], g as [g|g]; cbn [mm_eq mm_neq mm_lt mm_lte mm_gt mm_gte] in Heq; cbn in Vf, Vg;
    try (injection Heq as <- <-; done); try (eapply Hc; [| |exact Heq]; done); try (eapply Hn; [| |exact Heq]; done).
  - (* eq on booleans *) eapply Hb; [exact Heq|]. intros b n. unfold mdd_xor.
    destruct (bin_x MXOr (mm_b m) f g) as (b1 & n1 & -> & (W1 & _) & V1); try done; [apply Hx|]. cbn [mbind option_bind].
    destruct (not_x b1 n1 W1 V1) as (b2 & n2 & -> & (W2 & _) & _). by intros [= <- <-].
  - eapply Hb; [exact Heq|]. intros b n. unfold mdd_xor.
    destruct (bin_x MXOr (mm_b m) f g) as (b1 & n1 & -> & (W1 & _) & V1); try done; [apply Hx|]. by intros [= <- <-].
  - unfold mm_veq in Heq. destruct (cmp_x CEq m f g Hx Vf Vg) as (m1 & r1 & H1 & X1 & S1 & V1). rewrite H1 in Heq.
    cbn [mbind option_bind] in Heq. destruct (r1 =? mdd_one); [by injection Heq as <- <-|]. unfold mm_vlt in Heq.
    destruct S1 as (_ & _ & Ev & _).
    destruct (cmp_x CLt m1 f g X1) as (m2 & r2 & H2 & X2 & _); [by eapply ext_live|by eapply ext_live|].
    rewrite H2 in Heq. by injection Heq as <- <-.
Qed.

Lemma xmm_exec m c m' : xmm m → mm_legal m c → mm_exec I m c = Some m' → xmm m'.
Proof.
  intros Hx Hl Heq. destruct (mm_exec_ok I m c m' (xm_wf _ Hx) Hl Heq) as [W He].
  destruct c as [l s e|z|h xs|f|o f g|o f g|c f g|f g h|f g|roots|]; cbn [mm_exec mm_legal] in *;
    try (assert (Hm : mext I m m') by (by apply He)); clear He.
  - unfold mm_create_header in Heq. destruct (mt_create_header _ _ _ _) as [v h1]. destruct (mdd_create_header _ _ _ _) as [b h2] eqn:Hb.
    destruct (h1 =? h2); [|done]. cbn in Heq. injection Heq as <-.
    eapply xmm_intro; [exact Hx|exact Hm| |done]. cbn.
    apply xmdd_create_header_ok in Hb as (? & _); try done; [apply Hx|]. by apply hfits_new.
  - eapply xmm_frame; [exact Hx|exact Hm|]. injection Heq as <-. unfold mm_value. destruct (mt_value _ _) as [v x]. done.
  - eapply xmm_frame; [exact Hx|exact Hm|]. destruct (mm_create_node m h xs) as [[m1 r]|] eqn:Hc; [|done]. cbn in Heq.
    injection Heq as <-. unfold mm_create_node in Hc. destruct xs as [|[x|x] xs]; [done| |].
    + destruct (mt_create_node _ _ _) as [v x1]. by injection Hc as <- <-.
    + destruct (mdd_create_node _ _ _) as [b x1] eqn:Hn. injection Hc as <- <-. by eapply create_cfr.
  - destruct f as [f|f]; cbn [mm_not] in Heq; [cbn in Heq; by injection Heq as <-|].
    destruct (not_x (mm_b m) f (xm_b _ Hx) Hl) as (b & n & Hn & (Wb & _) & _). rewrite Hn in Heq. cbn in Heq. injection Heq as <-.
    by eapply xmm_intro.
  - destruct Hl as [Vf Vg]. assert (Hg : ∃ p, p ≠ MNot ∧ mm_gate o = mm_logic p) by (destruct o; [exists MAnd|exists MOr|exists MXOr]; done).
    destruct Hg as (p & Hp & Hg). rewrite Hg in Heq. destruct f as [f|f], g as [g|g]; cbn [mm_logic mm_arith] in Heq; try (cbn in Heq; by injection Heq as <-).
    destruct (bin_x p (mm_b m) f g Hp (xm_b _ Hx) Vf Vg) as (b & n & Hn & (Wb & _) & _). rewrite Hn in Heq. cbn in Heq. injection Heq as <-.
    by eapply xmm_intro.
  - destruct f as [f|f], g as [g|g]; cbn [mm_logic mm_arith] in Heq; try (cbn in Heq; by injection Heq as <-).
    eapply xmm_frame; [exact Hx|exact Hm|]. destruct (mt_bin _ _ _ _ _) as [[v x]|]; [|done]. cbn in Heq. by injection Heq as <-.
  - destruct Hl as [Vf Vg]. destruct (mm_cmp c m f g) as [[m1 r]|] eqn:Hc; [|done]. cbn in Heq. injection Heq as <-.
    exact (cmp_call_x c m f g m1 r Hx Vf Vg Hm Hc).
  - destruct Hl as (Vf & Vg & Vh & Hk). destruct (mm_ite m f g h) as [[m1 r]|] eqn:Hc; [|done]. cbn in Heq. injection Heq as <-.
    destruct f as [f|f], g as [g|g], h as [h|h]; cbn [mm_ite] in Hc; try done; try (by injection Hc as <- <-).
    + cbn in Vf, Vg, Vh. destruct (nvalid_repr _ _ _ (wb _ _ (xm_wf _ Hx)) Vf) as [df Hf].
      destruct (nvalid_repr _ _ _ (wv _ _ (xm_wf _ Hx)) Vg) as [dg Hg]. destruct (nvalid_repr _ _ _ (wv _ _ (xm_wf _ Hx)) Vh) as [dh Hh].
      destruct (xmm_vite_ok I m f g h df dg dh (xmm_xv _ Hx) Hf Hg Hh) as (m2 & r2 & dr2 & Heq & (Wv & Hb & _) & _).
      rewrite Heq in Hc. cbn in Hc. injection Hc as <- <-. destruct Wv. constructor; try done. rewrite Hb. apply Hx.
    + cbn in Vf, Vg, Vh. destruct (nvalid_repr _ _ _ (wb _ _ (xm_wf _ Hx)) Vf) as [df Hf].
      destruct (nvalid_repr _ _ _ (wb _ _ (xm_wf _ Hx)) Vg) as [dg Hg]. destruct (nvalid_repr _ _ _ (wb _ _ (xm_wf _ Hx)) Vh) as [dh Hh].
      eapply onb_x; [exact Hx| |exact Hm|exact Hc].
      destruct (xmdd_ite_ok (mm_b m) f g h df dg dh (xm_b _ Hx) Hf Hg Hh) as (m2 & r2 & dr2 & -> & (Wb & _) & _). by intros b n [= <- <-].
  - destruct (mm_vif m f g) as [[m1 r]|] eqn:Hc; [|done]. cbn in Heq. injection Heq as <-.
    eapply xmm_frame; [exact Hx|exact Hm|by eapply vif_cfr].
  - unfold mm_gc in Heq. destruct (mt_gc (mm_v m) (vroots roots)) as [[v nv]|]; [|done]. cbn [mbind option_bind] in Heq.
    destruct (xmdd_gc_ok (mm_b m) (broots roots) (xm_b _ Hx)) as (b & nb & Hg & Wb & _).
    { intros r Hr%in_broots. rewrite Forall_forall in Hl. by apply (Hl _ Hr). }
    rewrite Hg in Heq. cbn [mbind option_bind fmap option_fmap option_map] in Heq. injection Heq as <-.
    constructor; [done|done|]. apply cache_ok_clear. apply (xm_vi _ Hx).
  - injection Heq as <-. constructor; [done| |].
    + apply xmdd_clear_cache_ok, Hx.
    + apply cache_ok_clear. apply (xm_vi _ Hx).
Qed.
Lemma xmm_run m cs m' : xmm m → mm_run I m cs = Some m' → xmm m'.
Proof.
  revert m. induction cs as [|c cs IH]; intros m Hw; cbn [mm_run]; [by intros [= <-]|].
  destruct (decide (mm_legal m c)) as [Hl|]; [|done].
  destruct (mm_exec I m c) as [m1|] eqn:He; [|done]. cbn [mbind option_bind]. apply IH. by eapply xmm_exec.
Qed.
Lemma reachable_xmm m : mm_reachable I m → xmm m.
Proof.
  intros [cs Hcs]. eapply xmm_run; [|done]. constructor; [apply mm_new_ok|apply xmdd_new_ok|apply cache_ok_new].
Qed.

(** ** Two managers *)
Lemma same_intro {T} (a1 a2 : arena T) f1 f2 :
  (∀ rho, in_range a1 rho → in_range a2 rho → ∃ t, node_value a1 rho f1 t ∧ node_value a2 rho f2 t) → same_node a1 f1 a2 f2.
Proof.
  intros H rho t R1 R2. destruct (H rho R1 R2) as (t' & H1 & H2).
  split; intros Ht; [rewrite (nval_fun _ _ _ _ _ Ht H1)|rewrite (nval_fun _ _ _ _ _ Ht H2)]; done.
Qed.
Lemma same_ext {T} (a1 a2 a1' a2' : arena T) f1 f2 : awf Rn a1 → awf Rn a2 → node_valid a1 f1 → node_valid a2 f2 →
  ext a1 a1' → ext a2 a2' → same_node a1 f1 a2 f2 → same_node a1' f1 a2' f2.
Proof.
  intros W1 W2 V1 V2 E1 E2 Hs rho t R1 R2.
  destruct (nvalid_repr _ _ _ W1 V1) as [d1 H1]. destruct (nvalid_repr _ _ _ W2 V2) as [d2 H2].
  rewrite (nval_eval a1' rho d1 f1 t (repr_mono _ _ _ _ E1 H1)), (nval_eval a2' rho d2 f2 t (repr_mono _ _ _ _ E2 H2)).
  rewrite <- (nval_eval a1 rho d1 f1 t H1), <- (nval_eval a2 rho d2 f2 t H2). apply Hs; by eapply nrange_ext.
Qed.

Section two.
Context (m1 m2 : mm) (X1 : xmm m1) (X2 : xmm m2) (Ag : states_agree (bar m1) (bar m2)).
Context (D1 : levels_distinct (bar m1)) (D2 : levels_distinct (bar m2)).
Definition mpost (x1 x2 : option (mm * mnode)) : Prop :=
  ∃ m1' r1 m2' r2, x1 = Some (m1', r1) ∧ x2 = Some (m2', r2) ∧ mm_valid m1' r1 ∧ mm_valid m2' r2 ∧ same_mnode m1' r1 m2' r2.
Lemma mpost_b x1 x2 : xpost (mm_b m1) (mm_b m2) x1 x2 → mpost (on_b m1 x1) (on_b m2 x2).
Proof using. intros (b1 & r1 & b2 & r2 & -> & -> & _ & _ & V1 & V2 & Hs). cbn. by eexists _, _, _, _. Qed.
Lemma mpost_undetb : mpost (Some (m1, NBool mdd_undet)) (Some (m2, NBool mdd_undet)).
Proof using X1 X2.
  pose proof (mg_undet _ (mw_good _ (mmw_b _ _ (xm_wf _ X1)))) as U1. pose proof (mg_undet _ (mw_good _ (mmw_b _ _ (xm_wf _ X2)))) as U2.
  eexists _, _, _, _. sp; try done; [by eapply repr_live|by eapply repr_live|]. apply same_intro. intros rho _ _. exists TUndet.
  split; [by apply (nval_eval _ _ _ _ _ U1)|by apply (nval_eval _ _ _ _ _ U2)].
Qed.
Lemma mpost_undetv : mpost (Some (m1, NVal mt_undet)) (Some (m2, NVal mt_undet)).
Proof using X1 X2.
  pose proof (tg_undet _ _ (tw_good _ _ (mmw_v _ _ (xm_wf _ X1)))) as U1. pose proof (tg_undet _ _ (tw_good _ _ (mmw_v _ _ (xm_wf _ X2)))) as U2.
  eexists _, _, _, _. sp; try done; [by eapply repr_live|by eapply repr_live|]. apply same_intro. intros rho _ _. exists VUndet.
  split; [by apply (nval_eval _ _ _ _ _ U1)|by apply (nval_eval _ _ _ _ _ U2)].
Qed.
(** operands have a common value under every assignment *)
Lemma val_b f1 f2 rho : mm_valid m1 (NBool f1) → mm_valid m2 (NBool f2) → same_mnode m1 (NBool f1) m2 (NBool f2) → mm_range m1 rho → mm_range m2 rho →
  ∃ t, node_value (bar m1) rho f1 t ∧ node_value (bar m2) rho f2 t.
Proof using X1 X2.
  intros V1 V2 Hs R1 R2. destruct (nvalue_total (bar m1) rho f1) as [t Ht]; try done; [apply (wb I _ (xm_wf _ X1))|apply (mm_hc I _ (xm_wf _ X1))|].
  exists t. split; [done|]. by apply Hs.
Qed.
Lemma val_v f1 f2 rho : mm_valid m1 (NVal f1) → mm_valid m2 (NVal f2) → same_mnode m1 (NVal f1) m2 (NVal f2) → mm_range m1 rho → mm_range m2 rho →
  ∃ t, node_value (var m1) rho f1 t ∧ node_value (var m2) rho f2 t.
Proof using X1 X2.
  intros V1 V2 Hs R1 R2. pose proof (vrange I _ _ (xm_wf _ X1) R1) as Q1. pose proof (vrange I _ _ (xm_wf _ X2) R2) as Q2.
  destruct (nvalue_total (var m1) rho f1) as [t Ht]; try done; [apply (wv I _ (xm_wf _ X1))|rewrite (mmw_h I _ (xm_wf _ X1)); apply (mm_hc I _ (xm_wf _ X1))|].
  exists t. split; [done|]. by apply Hs.
Qed.

(** one comparison of value nodes *)
Lemma cmp_same o f1 g1 f2 g2 : mm_valid m1 (NVal f1) → mm_valid m1 (NVal g1) → mm_valid m2 (NVal f2) → mm_valid m2 (NVal g2) →
  same_mnode m1 (NVal f1) m2 (NVal f2) → same_mnode m1 (NVal g1) m2 (NVal g2) →
  ∃ m1' r1 m2' r2, mm_cmp_f o (ar_fuel (var m1)) m1 f1 g1 = Some (m1', r1) ∧ mm_cmp_f o (ar_fuel (var m2)) m2 f2 g2 = Some (m2', r2) ∧
    xmm m1' ∧ xmm m2' ∧ mmstep I m1 m1' ∧ mmstep I m2 m2' ∧ mm_valid m1' (NBool r1) ∧ mm_valid m2' (NBool r2) ∧
    same_mnode m1' (NBool r1) m2' (NBool r2).
Proof using X1 X2.
  intros Vf1 Vg1 Vf2 Vg2 Sf Sg.
  destruct (cmp_val I o m1 f1 g1 (xm_wf _ X1) Vf1 Vg1) as (m1' & r1 & E1 & S1 & V1 & H1).
  destruct (cmp_val I o m2 f2 g2 (xm_wf _ X2) Vf2 Vg2) as (m2' & r2 & E2 & S2 & V2 & H2).
  exists m1', r1, m2', r2. sp; try done.
  - eapply xmm_frame; [exact X1|by apply mmstep_mext|by eapply cmp_cfr].
  - eapply xmm_frame; [exact X2|by apply mmstep_mext|by eapply cmp_cfr].
  - apply same_intro. intros rho R1 R2.
    assert (Q1 : mm_range m1 rho) by (eapply mext_range; [by apply mmstep_mext|done]).
    assert (Q2 : mm_range m2 rho) by (eapply mext_range; [by apply mmstep_mext|done]).
    destruct (val_v f1 f2 rho) as (a & A1 & A2); try done. destruct (val_v g1 g2 rho) as (b & B1 & B2); try done.
    exists (tvb (ctest o a b)). split; [by apply H1|by apply H2].
Qed.
Lemma one_same r1 r2 : mm_valid m1 (NBool r1) → mm_valid m2 (NBool r2) → same_mnode m1 (NBool r1) m2 (NBool r2) → r1 = mdd_one → r2 = mdd_one.
Proof using All.
  intros V1 V2 Hs ->. pose proof (wb I _ (xm_wf _ X1)) as W1. pose proof (wb I _ (xm_wf _ X2)) as W2.
  destruct (nvalid_repr _ _ _ W1 V1) as [d1 H1]. destruct (nvalid_repr _ _ _ W2 V2) as [d2 H2].
  pose proof (mg_one _ (mw_good _ (mmw_b _ _ (xm_wf _ X1)))) as O1. pose proof (mg_one _ (mw_good _ (mmw_b _ _ (xm_wf _ X2)))) as O2.
  rewrite (repr_fun _ _ _ _ H1 O1) in H1.
  assert (Hst : strip (E12 (ar_headers (bar m1)) (ar_headers (bar m2))) (Leaf TOne) = strip (E12 (ar_headers (bar m1)) (ar_headers (bar m2))) d2).
  { eapply (nsame_strip (bar m1) (bar m2)); try done; [apply (mm_hc I _ (xm_wf _ X1))|apply (mm_hc I _ (xm_wf _ X2))]. }
  destruct d2 as [t|]; [|done]. injection Hst as <-. by eapply repr_inj.
Qed.
Lemma vite_same f1 g1 h1 f2 g2 h2 :
  mm_valid m1 (NBool f1) → mm_valid m1 (NVal g1) → mm_valid m1 (NVal h1) → mm_valid m2 (NBool f2) → mm_valid m2 (NVal g2) → mm_valid m2 (NVal h2) →
  same_mnode m1 (NBool f1) m2 (NBool f2) → same_mnode m1 (NVal g1) m2 (NVal g2) → same_mnode m1 (NVal h1) m2 (NVal h2) →
  mpost (as_val (mm_vite_op m1 f1 g1 h1)) (as_val (mm_vite_op m2 f2 g2 h2)).
Proof using All.
  intros Vf1 Vg1 Vh1 Vf2 Vg2 Vh2 Sf Sg Sh. pose proof (xm_wf _ X1) as M1. pose proof (xm_wf _ X2) as M2.
  destruct (nvalid_repr _ _ _ (wb I _ M1) Vf1) as [df1 Hf1]. destruct (nvalid_repr _ _ _ (wv I _ M1) Vg1) as [dg1 Hg1].
  destruct (nvalid_repr _ _ _ (wv I _ M1) Vh1) as [dh1 Hh1]. destruct (nvalid_repr _ _ _ (wb I _ M2) Vf2) as [df2 Hf2].
  destruct (nvalid_repr _ _ _ (wv I _ M2) Vg2) as [dg2 Hg2]. destruct (nvalid_repr _ _ _ (wv I _ M2) Vh2) as [dh2 Hh2].
  destruct (xmm_vite_ok I m1 f1 g1 h1 df1 dg1 dh1 (xmm_xv _ X1) Hf1 Hg1 Hh1) as (m1' & r1 & dr1 & -> & (Y1 & B1 & Ev1 & Q1) & Hr1 & _ & HX1).
  destruct (xmm_vite_ok I m2 f2 g2 h2 df2 dg2 dh2 (xmm_xv _ X2) Hf2 Hg2 Hh2) as (m2' & r2 & dr2 & -> & (Y2 & B2 & Ev2 & Q2) & Hr2 & _ & HX2).
  cbn. eexists _, _, _, _. sp; try done; [by eapply repr_live|by eapply repr_live|].
  destruct (xheaders (mm_b m1) (mm_b m2) (xm_b _ X1) (xm_b _ X2) Ag D1 D2) as (H1 & H2 & A1 & A2 & HE1 & HE2 & P1 & P2).
  pose proof (xv_wf _ _ Y1) as N1. pose proof (xv_wf _ _ Y2) as N2.
  pose proof (mmw_h I _ M1) as K1. pose proof (mmw_h I _ M2) as K2. pose proof (mmw_h I _ N1) as L1. pose proof (mmw_h I _ N2) as L2.
  assert (PV1 : ∀ d id, repr (var m1) d id → hdby H1 d) by (intros d id; apply hdby_in; by rewrite K1).
  assert (PV2 : ∀ d id, repr (var m2) d id → hdby H2 d) by (intros d id; apply hdby_in; by rewrite K2).
  set (E := E12 (ar_headers (bar m1)) (ar_headers (bar m2))) in *.
  assert (SV : ∀ d1 d2 f1 f2, repr (var m1) d1 f1 → repr (var m2) d2 f2 → same_node (var m1) f1 (var m2) f2 → strip E d1 = strip E d2).
  { intros d1 d2 a b Ra Rb Hs. unfold E. rewrite <- K1, <- K2.
    eapply (nsame_strip (var m1) (var m2)); try done; try apply (wv I); try done.
    - rewrite K1. apply (mm_hc I _ M1).
    - rewrite K2. apply (mm_hc I _ M2).
    - by eapply agree_hdr.
    - by eapply distinct_hdr.
    - by eapply distinct_hdr. }
  eapply (nsame_strip (var m1') (var m2') (wv I _ N1) (wv I _ N2)); try done.
  - rewrite L1. apply (mm_hc I _ N1).
  - rewrite L2. apply (mm_hc I _ N2).
  - eapply agree_hdr; [| |exact Ag]; congruence.
  - eapply distinct_hdr; [|exact D1]; congruence.
  - eapply distinct_hdr; [|exact D2]; congruence.
  - rewrite L1, L2, Q1, Q2. fold E.
    eapply (X3_sim _ _ _ H1 H2 A1 A2 HE1 HE2 VUndet); [exact HX1|exact HX2|..]; eauto.
    eapply (xsame_in (mm_b m1) (mm_b m2)); eauto using xm_b.
Qed.
End two.

Lemma cmp_call_same c m1 m2 (X1 : xmm m1) (X2 : xmm m2) : states_agree (bar m1) (bar m2) → levels_distinct (bar m1) → levels_distinct (bar m2) →
  ∀ f1 g1 f2 g2, mm_valid m1 f1 → mm_valid m1 g1 → mm_valid m2 f2 → mm_valid m2 g2 → same_mnode m1 f1 m2 f2 → same_mnode m1 g1 m2 g2 →
  mpost (mm_cmp c m1 f1 g1) (mm_cmp c m2 f2 g2).
Proof.
  intros Ag D1 D2 f1 g1 f2 g2 Vf1 Vg1 Vf2 Vg2 Sf Sg.
  pose proof (mpost_undetb m1 m2 X1 X2) as Hu.
  assert (Hb : ∀ x1 x2, xpost (mm_b m1) (mm_b m2) x1 x2 → mpost (on_b m1 x1) (on_b m2 x2)) by (intros; by apply mpost_b).
  destruct f1 as [f1|f1], f2 as [f2|f2]; try done; destruct g1 as [g1|g1], g2 as [g2|g2]; try done.
  - (* values *)
    assert (Hc : ∀ o f1 g1 f2 g2, mm_valid m1 (NVal f1) → mm_valid m1 (NVal g1) → mm_valid m2 (NVal f2) → mm_valid m2 (NVal g2) →
      same_mnode m1 (NVal f1) m2 (NVal f2) → same_mnode m1 (NVal g1) m2 (NVal g2) →
      mpost (as_bool (mm_cmp_f o (ar_fuel (var m1)) m1 f1 g1)) (as_bool (mm_cmp_f o (ar_fuel (var m2)) m2 f2 g2))).
    { intros o a1 b1 a2 b2 ? ? ? ? ? ?.
      destruct (cmp_same m1 m2 X1 X2 o a1 b1 a2 b2) as (n1 & r1 & n2 & r2 & -> & -> & _ & _ & _ & _ & ? & ? & ?); try done.
      cbn. by eexists _, _, _, _. }
    assert (Hn : ∀ o, mpost ('(m, tmp) ← mm_cmp_f o (ar_fuel (var m1)) m1 f1 g1; on_b m (mdd_not (mm_b m) tmp))
                            ('(m, tmp) ← mm_cmp_f o (ar_fuel (var m2)) m2 f2 g2; on_b m (mdd_not (mm_b m) tmp))).
    { intros o. destruct (cmp_same m1 m2 X1 X2 o f1 g1 f2 g2) as (n1 & r1 & n2 & r2 & -> & -> & Y1 & Y2 & (_ & _ & _ & Q1) & (_ & _ & _ & Q2) & V1 & V2 & Hs); try done.
      cbn [mbind option_bind]. apply mpost_b. apply xnot_same; try done; [apply Y1|apply Y2|..].
      - by eapply agree_hdr.
      - by eapply distinct_hdr.
      - by eapply distinct_hdr. }
    destruct c; cbn [mm_cmp mm_eq mm_neq mm_lt mm_lte mm_gt mm_gte]; try (by apply Hc); try (by apply Hn).
    unfold mm_veq.
    destruct (cmp_same m1 m2 X1 X2 CEq f1 g1 f2 g2) as (n1 & r1 & n2 & r2 & -> & -> & Y1 & Y2 & (_ & _ & E1 & Q1) & (_ & _ & E2 & Q2) & V1 & V2 & Hs); try done.
    cbn [mbind option_bind].
    assert (Ag' : states_agree (bar n1) (bar n2)) by (by eapply agree_hdr).
    assert (D1' : levels_distinct (bar n1)) by (by eapply distinct_hdr).
    assert (D2' : levels_distinct (bar n2)) by (by eapply distinct_hdr).
    assert (Hs' : same_mnode n2 (NBool r2) n1 (NBool r1)) by (intros rho t R2 R1; symmetry; by apply Hs).
    assert (Ag'' : states_agree (bar n2) (bar n1)) by (intros h2 h1 I2 I1 He; symmetry; by apply Ag').
    pose proof (one_same n1 n2 Y1 Y2 Ag' D1' D2' r1 r2 V1 V2 Hs) as O1.
    pose proof (one_same n2 n1 Y2 Y1 Ag'' D2' D1' r2 r1 V2 V1 Hs') as O2.
    destruct (Nat.eqb_spec r1 mdd_one) as [H1|H1], (Nat.eqb_spec r2 mdd_one) as [H2|H2]; try (exfalso; by auto).
    + subst r1 r2. by eexists _, _, _, _.
    + unfold mm_vlt. cbn in Vf1, Vg1, Vf2, Vg2.
      destruct (cmp_same n1 n2 Y1 Y2 CLt f1 g1 f2 g2) as (k1 & s1 & k2 & s2 & -> & -> & _ & _ & _ & _ & ? & ? & ?); try (by eapply ext_live).
      * cbn. eapply (same_ext (var m1) (var m2)); try done; apply (wv I), xm_wf; done.
      * cbn. eapply (same_ext (var m1) (var m2)); try done; apply (wv I), xm_wf; done.
      * cbn. by eexists _, _, _, _.
  - destruct c; exact Hu.
  - destruct c; exact Hu.
  - (* booleans *)
    destruct c; cbn [mm_cmp mm_eq mm_neq mm_lt mm_lte mm_gt mm_gte]; try exact Hu.
    + apply Hb. apply (xconn_same (mm_b m1) (mm_b m2) (xm_b _ X1) (xm_b _ X2) Ag D1 D2 Xnor); done.
    + apply Hb. apply (xconn_same (mm_b m1) (mm_b m2) (xm_b _ X1) (xm_b _ X2) Ag D1 D2 Xor); done.
Qed.

Lemma ask_same_x m1 m2 c1 c2 : xmm m1 → xmm m2 → states_agree (bar m1) (bar m2) →
  levels_distinct (bar m1) → levels_distinct (bar m2) → mm_legal m1 c1 → mm_legal m2 c2 → mm_safe I m1 c1 → mm_safe I m2 c2 →
  same_mm_call m1 c1 m2 c2 → mpost (mm_ask I m1 c1) (mm_ask I m2 c2).
Proof.
  intros R1 R2 Ag D1 D2 L1 L2 Sa1 Sa2 Hs.
  pose proof (mpost_undetb m1 m2 R1 R2) as Hub. pose proof (mpost_undetv m1 m2 R1 R2) as Huv.
  pose proof (xm_b _ R1) as B1. pose proof (xm_b _ R2) as B2.
  destruct c1 as [| | |f1|o f1 g1|o f1 g1|c f1 g1|f1 g1 h1|f1 g1| |], c2 as [| | |f2|o' f2 g2|o' f2 g2|c' f2 g2|f2 g2 h2|f2 g2| |]; try done;
    cbn [mm_ask same_mm_call mm_legal] in *.
  - destruct f1 as [f1|f1], f2 as [f2|f2]; try done. cbn [mm_not]. apply mpost_b. by apply xnot_same.
  - destruct Hs as (<- & Sf & Sg), L1, L2.
    assert (Hg : ∃ p, p ≠ MNot ∧ mm_gate o = mm_logic p) by (destruct o; [exists MAnd|exists MOr|exists MXOr]; done).
    destruct Hg as (p & Hp & ->).
    destruct f1 as [f1|f1], f2 as [f2|f2]; try done; destruct g1 as [g1|g1], g2 as [g2|g2]; try done.
    cbn [mm_logic]. apply mpost_b. by apply xbin_same.
  - destruct Hs as (<- & Sf & Sg), L1 as [Vf1 Vg1], L2 as [Vf2 Vg2].
    destruct f1 as [f1|f1], f2 as [f2|f2]; try done; destruct g1 as [g1|g1], g2 as [g2|g2]; try done.
    pose proof (mm_arith_l I o m1 (NVal f1) (NVal g1) (xm_wf _ R1) Vf1 Vg1) as H1.
    pose proof (mm_arith_l I o m2 (NVal f2) (NVal g2) (xm_wf _ R2) Vf2 Vg2) as H2.
    destruct (mm_arith I o m1 (NVal f1) (NVal g1)) as [[n1 r1]|] eqn:E1; [|destruct H1 as (rho & a & b & ? & ? & ? & []); by eapply Sa1].
    destruct (mm_arith I o m2 (NVal f2) (NVal g2)) as [[n2 r2]|] eqn:E2; [|destruct H2 as (rho & a & b & ? & ? & ? & []); by eapply Sa2].
    destruct H1 as (S1 & V1 & H1), H2 as (S2 & V2 & H2). exists n1, r1, n2, r2. sp; try done.
    cbn [mm_arith] in E1, E2. destruct (mt_bin I o (mm_v m1) f1 g1) as [[v1 x1]|]; [|done]. destruct (mt_bin I o (mm_v m2) f2 g2) as [[v2 x2]|]; [|done].
    injection E1 as <- <-. injection E2 as <- <-. apply same_intro. intros rho K1 K2.
    assert (Q1 : mm_range m1 rho) by (intros hd Hin; apply K1; destruct S1 as (W & _ & _ & Hh); rewrite (mmw_h I _ W), Hh; done).
    assert (Q2 : mm_range m2 rho) by (intros hd Hin; apply K2; destruct S2 as (W & _ & _ & Hh); rewrite (mmw_h I _ W), Hh; done).
    destruct (val_v m1 m2 R1 R2 f1 f2 rho) as (a & A1 & A2); try done. destruct (val_v m1 m2 R1 R2 g1 g2 rho) as (b & G1 & G2); try done.
    exists (arith_vt o a b).
    assert (a1 : mm_int m1 rho (NVal f1) a) by (by exists f1). assert (b1 : mm_int m1 rho (NVal g1) b) by (by exists g1).
    assert (a2 : mm_int m2 rho (NVal f2) a) by (by exists f2). assert (b2 : mm_int m2 rho (NVal g2) b) by (by exists g2).
    destruct (H1 rho a b Q1 a1 b1 (Sa1 _ _ _ Q1 a1 b1)) as (? & [= <-] & ?). destruct (H2 rho a b Q2 a2 b2 (Sa2 _ _ _ Q2 a2 b2)) as (? & [= <-] & ?). done.
  - destruct Hs as (<- & Sf & Sg), L1, L2. by apply cmp_call_same.
  - destruct Hs as (Sf & Sg & Sh), L1 as (Vf1 & Vg1 & Vh1 & K1), L2 as (Vf2 & Vg2 & Vh2 & K2).
    destruct f1 as [f1|f1], f2 as [f2|f2]; try done; destruct g1 as [g1|g1], g2 as [g2|g2]; try done; destruct h1 as [h1|h1], h2 as [h2|h2]; try done; cbn [mm_ite].
    + by apply vite_same.
    + apply mpost_b. by apply xite_same.
  - destruct Hs as [Sf Sg], L1 as [Vf1 Vg1], L2 as [Vf2 Vg2].
    destruct (mm_vif_l I m1 f1 g1 (xm_wf _ R1) Vf1 Vg1) as (n1 & r1 & -> & S1 & V1 & H1).
    destruct (mm_vif_l I m2 f2 g2 (xm_wf _ R2) Vf2 Vg2) as (n2 & r2 & -> & S2 & V2 & H2).
    cbn. eexists _, _, _, _. sp; try done. apply same_intro. intros rho K1 K2.
    assert (Q1 : mm_range m1 rho) by (intros hd Hin; apply K1; destruct S1 as (W & _ & _ & Hh); rewrite (mmw_h I _ W), Hh; done).
    assert (Q2 : mm_range m2 rho) by (intros hd Hin; apply K2; destruct S2 as (W & _ & _ & Hh); rewrite (mmw_h I _ W), Hh; done).
    destruct (val_b m1 m2 R1 R2 f1 f2 rho) as (a & A1 & A2); try done. destruct (val_v m1 m2 R1 R2 g1 g2 rho) as (b & G1 & G2); try done.
    eexists. split; [by apply H1|by apply H2].
Qed.

Lemma ask_same m1 m2 c1 c2 : mm_reachable I m1 → mm_reachable I m2 → states_agree (bar m1) (bar m2) →
  levels_distinct (bar m1) → levels_distinct (bar m2) → mm_legal m1 c1 → mm_legal m2 c2 → mm_safe I m1 c1 → mm_safe I m2 c2 →
  same_mm_call m1 c1 m2 c2 → mpost (mm_ask I m1 c1) (mm_ask I m2 c2).
Proof. intros R1%reachable_xmm R2%reachable_xmm. by apply ask_same_x. Qed.
Lemma ask_step m c m' r : mmwf I m → mm_legal m c → mm_ask I m c = Some (m', r) → mmstep I m m' ∧ mm_valid m' r.
Proof.
  intros Hw Hl Heq. destruct c as [l s e|z|h xs|f|o f g|o f g|c f g|f g h|f g|roots|]; cbn [mm_ask mm_legal] in *; try done.
  - destruct (mm_not_l I m f Hw Hl) as (m1 & r1 & Hc & Hst & Hv & _). rewrite Hc in Heq. by injection Heq as <- <-.
  - destruct Hl. destruct (mm_gate_l I o m f g) as (m1 & r1 & Hc & Hst & Hv & _); try done. rewrite Hc in Heq. by injection Heq as <- <-.
  - destruct Hl as [Hf Hg]. pose proof (mm_arith_l I o m f g Hw Hf Hg) as Ha. rewrite Heq in Ha. by destruct Ha as (? & ? & _).
  - destruct Hl as [Hf Hg]. assert (c = Lte ∨ c ≠ Lte) as [->|Hne] by (destruct c; auto).
    + destruct (mm_lte_l I m f g Hw Hf Hg) as (m1 & r1 & Hc & Hst & Hv & _). cbn [mm_cmp] in Heq. rewrite Hc in Heq. by injection Heq as <- <-.
    + destruct (mm_cmp_l I c m f g Hne Hw Hf Hg) as (m1 & r1 & Hc & Hst & Hv & _). rewrite Hc in Heq. by injection Heq as <- <-.
  - destruct Hl as (Hf & Hg & Hh & Hk). destruct g as [g|g], h as [h|h]; try done; destruct f as [f|f].
    + cbn in Heq. injection Heq as <- <-. split; [by apply (mmstep_refl I)|]. eapply repr_live. apply (tw_good _ _ (mmw_v _ _ Hw)).
    + destruct (mm_vite_l I m f g h) as (m1 & r1 & Hc & Hst & Hv & _); try done. rewrite Hc in Heq. by injection Heq as <- <-.
    + cbn in Heq. injection Heq as <- <-. split; [by apply (mmstep_refl I)|]. by apply (b_undet I).
    + destruct (mm_bite_l I m f g h) as (m1 & r1 & Hc & Hst & Hv & _); try done. rewrite Hc in Heq. by injection Heq as <- <-.
  - destruct Hl as [Hf Hg]. destruct (mm_vif_l I m f g Hw Hf Hg) as (m1 & r1 & Hc & Hst & Hv & _). rewrite Hc in Heq. by injection Heq as <- <-.
Qed.
Lemma ask_again m c m1 r m2 c2 r2 : mm_reachable I m → levels_distinct (bar m) → mm_legal m c → mm_safe I m c → mm_ask I m c = Some (m1, r) →
  mm_reachable I m2 → levels_distinct (bar m2) → states_agree (bar m) (bar m2) → mm_legal m2 c2 → mm_safe I m2 c2 → mm_valid m2 r2 →
  same_mm_call m c m2 c2 → same_mnode m1 r m2 r2 →
  ∃ m3, mm_ask I m2 c2 = Some (m3, r2).
Proof.
  intros Re D L Sa Heq Re2 D2 Ag L2 Sa2 V2 Sc Sr.
  destruct (ask_same m m2 c c2) as (n1 & s1 & n2 & s2 & E1 & E2 & U1 & U2 & Ss); try done.
  rewrite Heq in E1. injection E1 as <- <-. rewrite E2. exists n2. do 2 f_equal. symmetry.
  pose proof (mm_reachable_wf I _ Re) as M. pose proof (mm_reachable_wf I _ Re2) as M2.
  destruct (ask_step m c m1 r M L Heq) as [(W1 & _ & _ & Q1) _]. destruct (ask_step m2 c2 n2 s2 M2 L2 E2) as [(W3 & Eb & Ev & Q2) _].
  destruct r as [r|r], r2 as [r2|r2], s2 as [s2|s2]; try done; f_equal; cbn in *.
  - pose proof (mmw_h I _ M) as K. pose proof (mmw_h I _ W1) as K1. pose proof (mmw_h I _ M2) as K2. pose proof (mmw_h I _ W3) as K3.
    eapply (again_gen (var m1) (var m2) (var n2)); try done; try (by apply (wv I)).
    + rewrite K1. apply (mm_hc I _ W1).
    + rewrite K2. apply (mm_hc I _ M2).
    + eapply distinct_hdr; [|exact D]; congruence.
    + eapply distinct_hdr; [|exact D2]; congruence.
    + eapply agree_hdr; [| |exact Ag]; congruence.
    + congruence.
  - eapply (again_gen (bar m1) (bar m2) (bar n2)); try done; try (by apply (wb I)); try (by apply (mm_hc I)).
    + by eapply distinct_hdr.
    + eapply agree_hdr; [exact Q1|reflexivity|exact Ag].
Qed.
End mm.
