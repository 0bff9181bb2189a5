(** A caught panic leaves an MddMgr as if nothing had happened. *)
From stdpp Require Import strings.
From Verif Require Import Prelude ComputeCache ComputeCacheProofs Arena Trees ArenaProofs ArenaMore Bdd Mdd MtMdd MtMdd2 NaryProofs MddProofs MtProofs MmProofs.
From Verif Require Import SpecBdd SpecMdd SpecExactM MddMain MmMain MddExact MmExact MmExactMain BssMgr MssMgr MssAlg MssLook SpecBssMgr SpecMss MssMgrProofs MssMgrVar MssRpn Iso IsoM IsoN SpecTransM TransM PanicM.

Section mss.
Context (I : vint).
Local Notation ok := (@gok I mbase0).

(** ** the value forest *)
Lemma t_panic_spec o : ∀ n m f g df dg, twf I m → repr (t_ar m) df f → repr (t_ar m) dg g → rank df `max` rank dg < n →
  (mt_bin_f I o n m f g = None → is_Some (t_panic_f I o n m f g)) ∧ ∀ m', t_panic_f I o n m f g = Some m' → tstep I m m'.
Proof using.
  induction n as [|n IH]; intros m f g df dg Hw Hf Hg Hn; [lia|]. cbn [mt_bin_f t_panic_f].
  assert (Hsw : ∃ f' g' df' dg', (if vop_swap o && (g <? f) then (g, f) else (f, g)) = (f', g') ∧
    repr (t_ar m) df' f' ∧ repr (t_ar m) dg' g' ∧ rank df' `max` rank dg' < S n).
  { destruct (vop_swap o && (g <? f)) eqn:Hs; [exists g, f, dg, df|exists f, g, df, dg]; sp; try done; lia. }
  destruct Hsw as (f' & g' & df' & dg' & -> & Hf' & Hg' & Hn').
  clear f g df dg Hf Hg Hn. rename f' into f, g' into g, df' into df, dg' into dg.
  rename Hf' into Hf, Hg' into Hg, Hn' into Hn.
  pose proof (tw_good _ _ Hw) as Hgd.
  destruct (tcache_get I m o f g df dg Hw Hf Hg) as (hit & -> & Hhit). cbn [mbind option_bind].
  destruct hit as [x|]; [done|].
  destruct (live_lookup _ _ (repr_live _ _ _ Hf)) as [fn Hfn].
  destruct (live_lookup _ _ (repr_live _ _ _ Hg)) as [gn Hgn].
  rewrite Hfn, Hgn. cbn [mbind option_bind].
  pose proof (tarm_spec I o m f g df dg fn gn Hw Hf Hg Hfn Hgn) as Harm.
  destruct (vop_arm I o f g fn gn) as [x|z| | |] eqn:Ea; cbn [fst snd].
  - destruct Harm as (dr & Hr & Hk & Hp). split; [|done]. intros E.
    destruct (tcache_put I m o f g x df dg dr) as (m'' & E2 & _); try done. by rewrite E2 in E.
  - destruct (mt_value_ok I m z Hw) as (m' & r & -> & Hst & Hr). cbn [fst snd]. split; [|done]. intros E. pose proof Hst as (Hw' & He & Hh).
    cbn in Harm.
    destruct (tcache_put I m' o f g r df dg (Leaf (VVal z))) as (m'' & E2 & _); try done; [by eapply repr_mono|by eapply repr_mono|cbn; lia|by rewrite Hh|]. by rewrite E2 in E.
  - split; [done|]. done.
  - split; [by eexists|]. intros m' [= <-]. by apply tstep_refl.
  - cbn in Harm.
    destruct (expand_spec Rn Rn true (t_ar m) (t_ar m) f g df dg fn gn)
      as (h & hd & ps & -> & Hh & Hmax & Hlen & Hps); try done; try apply Hgd.
    cbn [mbind option_bind].
    assert (Hps' : ∀ p, p ∈ ps → ∃ d e, repr (t_ar m) d p.1 ∧ repr (t_ar m) e p.2 ∧ rank d `max` rank e < n).
    { intros p [i Hi]%elem_of_list_lookup. destruct (Hps i p Hi) as (? & ? & ? & ?). exists (cof df (h_level hd) i), (cof dg (h_level hd) i). sp; try done. lia. }
    pose proof (tbin_spec I o (S n) m f g df dg Hw Hf Hg Hn) as HT. 
    match goal with |- (_ → is_Some (?F m ps)) ∧ _ => set (ch := F) end.
    assert (HC : ∀ qs m0, tstep I m m0 → (∀ p, p ∈ qs → p ∈ ps) →
      match mapst (λ m p, mt_bin_f I o n m p.1 p.2) m0 qs with Some (m1, _) => twf I m1 | None => is_Some (ch m0 qs) end ∧ ∀ m', ch m0 qs = Some m' → tstep I m m').
    { induction qs as [|p qs IHq]; intros m0 H0 Hin; [split; [apply H0|done]|]. pose proof H0 as (W0 & E0 & _).
      destruct (Hps' p) as (d & e & Rd & Re & Hr); [apply Hin; by left|].
      apply (repr_mono _ _ _ _ E0) in Rd, Re.
      pose proof (tbin_spec I o n m0 p.1 p.2 d e W0 Rd Re Hr) as HS. destruct (IH m0 p.1 p.2 d e W0 Rd Re Hr) as [IH1 IH2].
      cbn [mapst]. change (ch m0 (p :: qs)) with (match mt_bin_f I o n m0 p.1 p.2 with Some (m, _) => ch m qs | None => t_panic_f I o n m0 p.1 p.2 end).
      destruct (mt_bin_f I o n m0 p.1 p.2) as [[m1 r]|]; cbn [mbind option_bind].
      - destruct HS as [HS _]. destruct (IHq m1) as [Q1 Q2]; [by eapply tstep_trans|intros q Hq; apply Hin; by right|]. split; [|done].
        by destruct (mapst _ m1 qs) as [[??]|].
      - split; [by apply IH1|]. intros m' E. eapply tstep_trans; [exact H0|by apply IH2]. }
    destruct (HC ps m (tstep_refl I m Hw) ltac:(done)) as [C1 C2]. split; [|exact C2].
    intros E. destruct (mapst _ m ps) as [[m1 ns]|] eqn:Em; [exfalso|exact C1]. cbn [mbind option_bind] in E.
    destruct (mt_create_node m1 h ns) as [m2 r] eqn:Ec.
    assert (Hc : t_cache m2 = t_cache m1).
    { unfold mt_create_node in Ec. destruct (all_same ns); [by injection Ec as <- _|]. destruct (ar_hashcons _ _ _). by injection Ec as <- _. }
    cbn [fst snd] in E. unfold mt_cache_put in E. rewrite Hc in E. destruct (tw_c _ _ C1) as [W _].
    destruct (put_spec (t_cache m1) (vop_code o, N.of_nat f, N.of_nat g) (N.of_nat r) W) as (c' & Ep & _). cbn [fst snd] in Ep. by rewrite Ep in E.
Qed.
Lemma t_panic_ok o m f g : twf I m → live (t_ar m) f → live (t_ar m) g →
  (mt_bin I o m f g = None → is_Some (t_panic I o m f g)) ∧ ∀ m', t_panic I o m f g = Some m' → tstep I m m'.
Proof using.
  intros Hw Lf Lg. destruct (repr_exists _ _ _ (tg_wf _ _ (tw_good _ _ Hw)) Lf) as [df Hf]. destruct (repr_exists _ _ _ (tg_wf _ _ (tw_good _ _ Hw)) Lg) as [dg Hg].
  pose proof (a_fuel_enough _ _ _ Hf). pose proof (a_fuel_enough _ _ _ Hg). apply (t_panic_spec o _ m f g df dg); try done. lia.
Qed.

(** ** the combined manager *)
Lemma bin_panic_ok o m f g m' : xmm I m → mm_valid m f → mm_valid m g → bin_panic I o m f g = Some m' → mmstep I m m' ∧ xmm I m'.
Proof using.
  intros X Vf Vg. destruct o as [o| |]; try done. destruct f as [f|f], g as [g|g]; try done. cbn [bin_panic].
  destruct (t_panic I o (mm_v m) f g) as [v|] eqn:E; [|done]. cbn. intros [= <-]. pose proof (xm_wf _ _ X) as W.
  destruct (t_panic_ok o (mm_v m) f g (mmw_v _ _ W) Vf Vg) as [_ Ht]. 
  assert (St : mmstep I m (mm_with_v m v)) by (by apply with_v_step; [|apply Ht]).
  split; [done|]. eapply xmm_frame; [exact X|by apply mmstep_mext|done].
Qed.
Lemma bin_panic_some o m f g : xmm I m → mm_valid m f → mm_valid m g → mm_bin I o m f g = None → is_Some (bin_panic I o m f g).
Proof using.
  intros X Vf Vg. pose proof (xm_wf _ _ X) as W. destruct o as [o|c|o]; cbn [mm_bin].
  - destruct f as [f|f], g as [g|g]; try done. cbn [mm_arith bin_panic]. intros E.
    destruct (t_panic_ok o (mm_v m) f g (mmw_v _ _ W) Vf Vg) as [[v Ht] _]; [by destruct (mt_bin I o (mm_v m) f g) as [[??]|]|]. rewrite Ht. by eexists.
  - intros E. exfalso. destruct c; try (destruct (mm_lte_l I m f g W Vf Vg) as (m' & r & E2 & _); by pose proof (eq_trans (eq_sym E2) E));
      (match type of E with mm_cmp ?c _ _ _ = _ => destruct (mm_cmp_l I c m f g ltac:(done) W Vf Vg) as (m' & r & E2 & _); by rewrite E2 in E end).
  - intros E. exfalso. destruct (mm_gate_l I o m f g W Vf Vg) as (m' & r & E2 & _). by rewrite E2 in E.
Qed.

(** one manager beside itself *)
Lemma iso_refl_live {T} R (a : arena T) i : awf R a → live a i → iso a a i i.
Proof using. intros W L. destruct (repr_exists _ _ _ W L) as [d Hd]. by exists d. Qed.
Lemma miso_refl m x : mmwf I m → mm_valid m x → miso m m x x.
Proof using.
  intros W. destruct x as [f|f]; cbn; intros V; (eapply iso_refl_live; [|exact V]); [apply (tg_wf _ _ (tw_good _ _ (mmw_v _ _ W)))|by apply (wb I)].
Qed.
Lemma fold_panic_ok o xs : ∀ m acc m', pair I m m → mm_valid m acc → Forall (mm_valid m) xs → fold_panic I o m acc xs = Some m' → mmstep I m m' ∧ xmm I m'.
Proof using.
  induction xs as [|x xs IH]; intros m acc m' P Va Vx; [done|]. apply Forall_cons in Vx as [Vx Vxs]. cbn [fold_panic].
  pose proof (pr_1 _ _ _ P) as X. pose proof (xm_wf _ _ X) as W.
  pose proof (bin_sim I m m P o acc x acc x (miso_refl _ _ W Va) (miso_refl _ _ W Vx)) as Hb.
  destruct (mm_bin I o m acc x) as [[m1 r]|].
  - inversion Hb as [? ? Ha|]. destruct Ha as (S1 & _ & P' & Hr). cbn in S1, P', Hr. intros E.
    destruct (IH m1 r m' P') as [S2 X2]; [by eapply miso_l| |done|].
    + eapply Forall_impl; [exact Vxs|]. intros u Vu. eapply miso_l. eapply (miso_ext I); [by apply mmstep_mext|by apply mmstep_mext|by apply miso_refl].
    + split; [by eapply mmstep_trans|done].
  - intros [= <-]. destruct (bin_panic I o m acc x) as [m'|] eqn:E; cbn; [exact (bin_panic_ok _ _ _ _ _ X Va Vx E)|]. split; [by apply mmstep_refl|done].
Qed.

(** ** the slots *)
Lemma iso_sym {T} (a b : arena T) i j : iso a b i j → iso b a j i.
Proof using. intros (d & ? & ?). by exists d. Qed.
Lemma miso_sym m1 m2 x y : miso m1 m2 x y → miso m2 m1 y x.
Proof using. destruct x, y; try done; apply iso_sym. Qed.
Lemma twin_sym w1 S1 w2 S2 : twin I w1 S1 w2 S2 → twin I w2 S2 w1 S1.
Proof using.
  intros [[K1 K2 X1 X2 HH] Hs]. constructor; [by constructor|]. apply Forall2_flip. eapply Forall2_impl; [exact Hs|].
  intros ? ? [x y Hx|]; constructor. by apply miso_sym.
Qed.
Lemma twin_refl w S : ok w (ent S) → xmm I (g_mm w) → twin I w S w S.
Proof using.
  intros K X. constructor; [by constructor|]. apply Forall2_same_length_lookup. split; [done|]. intros i x y E1 E2. rewrite E1 in E2. injection E2 as <-.
  destruct x as [x|]; constructor. apply miso_refl; [apply K|]. apply (gok_valid I (B:=mbase0) w (ent S) x K). by eapply ent_elem.
Qed.
(** the left wrapper moves to one with the same variables *)
Lemma twin_move w1 S1 w2 S2 w : twin I w1 S1 w2 S2 → ok w (ent S1) → xmm I (g_mm w) → mext I (g_mm w1) (g_mm w) → g_vars w = g_vars w1 → twin I w S1 w2 S2.
Proof using.
  intros T K X M E. pose proof T as [[K1 K2 X1 X2 HH] _]. constructor.
  - constructor; try done. rewrite <- HH. destruct M as (_ & [[l Hl] _] & _). destruct l as [|hd l]; [by rewrite app_nil_r in Hl|].
    pose proof (gk_size _ _ _ K) as Z. rewrite E, (gk_size _ _ _ K1), Hl, app_length in Z. cbn in Z. lia.
  - eapply slots_kept; [exact T| |]; intros u _; [by eapply kept_ext|apply kept_refl].
Qed.
Lemma twin_mm w1 S1 w2 S2 m : twin I w1 S1 w2 S2 → mmstep I (g_mm w1) m ∧ xmm I m → twin I (with_mm w1 m) S1 w2 S2.
Proof using.
  intros T [St X]. eapply twin_move; [exact T| |done|by apply mmstep_mext|done]. apply gok_step; [apply T|done].
Qed.

(** ** rpn *)
Lemma mrpn_tag_op t : mrpn_op I t = mm_bin I <$> mrpn_tag t.
Proof using. unfold mrpn_op, mrpn_tag. repeat (destruct (String.eqb t _); [done|]). done. Qed.
Lemma vars_wrap w m : g_vars (with_mm w m) = g_vars w.
Proof using. done. Qed.
(** a token either keeps the variables or is a new variable *)
Lemma step_vars ranges s t s' go : mrpn_step I ranges s t = Some (s', go) →
  g_vars (mr_w s') = g_vars (mr_w s) ∨
  ∃ n w x, ranges !! t = Some n ∧ g_vars (mr_w s) !! t = None ∧ g_defvar (mr_w s) t n = Some (w, x) ∧ mr_w s' = g_drop w x.
Proof using.
  destruct s as [w st sv]. unfold mrpn_step. destruct (mrpn_op I t) as [op|].
  { unfold mrpn_bin. cbn. destruct st as [|b [|a st]]; try done. destruct (op _ a b) as [[??]|]; [|done]. cbn. intros [= <- _]. by left. }
  destruct (String.eqb t "!"). { cbn. destruct st as [|a st]; [done|]. destruct (mm_not _ a) as [[??]|]; [|done]. cbn. intros [= <- _]. by left. }
  destruct (String.eqb t "?"). { cbn. destruct st as [|c [|b [|a st]]]; try done. destruct (mm_ite _ a b c) as [[??]|]; [|done]. cbn. intros [= <- _]. by left. }
  destruct (String.eqb t "True"); [intros [= <- _]; by left|]. destruct (String.eqb t "False"); [intros [= <- _]; by left|].
  destruct (paren_arg "save(" t). { cbn. destruct st; intros [= <- _]; by left. }
  destruct (paren_arg "load(" t). { cbn. destruct (sv !! s); intros [= <- _]; by left. }
  destruct (parse_i32 t). { cbn. destruct (mm_value _ _). intros [= <- _]. by left. }
  cbn [mr_w mr_stack mr_saved]. destruct (ranges !! t) as [n|]; [|done]. cbn [mbind option_bind]. destruct (g_defvar w t n) as [[w' x]|] eqn:E; [|done]. cbn. intros [= <- _]. cbn.
  destruct (g_vars w !! t) as [v|] eqn:V; [left|right; by exists n, w', x]. unfold g_defvar in E. rewrite V in E. by injection E as <- <-.
Qed.
Lemma loop_panic ranges ts : ∀ s, mrpn_loop I ranges s ts = None → is_Some (rpn_panic I ranges s ts).
Proof using.
  induction ts as [|t ts IH]; intros s; [done|]. cbn [mrpn_loop rpn_panic]. destruct (mrpn_step I ranges s t) as [[s' []]|]; cbn; [apply IH|done|by eexists].
Qed.
Lemma seen_same H1 H2 ranges ts : ∀ s1 s2, rsim I H1 H2 s1 s2 → seen I ranges s1 ts = seen I ranges s2 ts.
Proof using.
  induction ts as [|t ts IH]; intros s1 s2 Q; [done|]. cbn [seen].
  assert (Hd : ∀ s1 s2, rsim I H1 H2 s1 s2 → is_Some (g_vars (mr_w s1) !! t) ↔ is_Some (g_vars (mr_w s2) !! t)).
  { clear. intros s1 s2 [[K1 K2 _ _ HH] _ _]. split; intros Hx; [exact (var_dom I _ _ _ _ t K1 K2 HH Hx)|]. exact (var_dom I _ _ _ _ t K2 K1 (eq_sym HH) Hx). }
  pose proof (Hd _ _ Q) as HQ.
  assert (Hs : osim (rnext I H1 H2 s1 s2) (mrpn_step I ranges s1 t) (mrpn_step I ranges s2 t)) by (destruct s1, s2; by apply rstep_sim).
  destruct Hs as [[s1' g1] [s2' g2] (Hg & Q' & _)|]; [|done]. cbn in Hg, Q'. subst g2. destruct g1; [|done]. rewrite (IH _ _ Q'). pose proof (Hd _ _ Q') as HQ'.
  destruct (g_vars (mr_w s1) !! t), (g_vars (mr_w s2) !! t); try (by destruct (proj1 HQ ltac:(by eexists))); try (by destruct (proj2 HQ ltac:(by eexists))); try done.
  destruct (g_vars (mr_w s1') !! t), (g_vars (mr_w s2') !! t); try (by destruct (proj1 HQ' ltac:(by eexists))); try (by destruct (proj2 HQ' ltac:(by eexists))); done.
Qed.
Lemma rpn_tw ranges S1 S2 w' ts : map_Forall (λ _ n, 1 ≤ n) ranges → ∀ s v, rsim I (ent S1) (ent S1) s s → twin I (mr_w s) S1 v S2 →
  rpn_panic I ranges s ts = Some w' → twin I w' S1 (define v (seen I ranges s ts)) S2.
Proof using.
  intros HR. induction ts as [|t ts IH]; intros s v Q T; [done|]. cbn [rpn_panic seen].
  assert (Hs : osim (rnext I (ent S1) (ent S1) s s) (mrpn_step I ranges s t) (mrpn_step I ranges s t)) by (destruct s; by apply rstep_sim).
  destruct (mrpn_step I ranges s t) as [[s' go]|] eqn:E.
  - inversion Hs as [? ? Hn|]; subst. destruct Hn as (_ & Q' & M & _). cbn in Q', M. destruct go; [|done].
    destruct (step_vars _ _ _ _ _ E) as [HV|(n & w & x & Hn & V & D & Ew)].
    + assert (T' : twin I (mr_w s') S1 v S2). { eapply twin_move; [exact T| | |done|done]; apply Q'. }
      rewrite HV. destruct (g_vars (mr_w s) !! t) eqn:V; [by apply IH|]. by apply IH.
    + pose proof T as [DT _]. pose proof (defvar_sim I _ _ _ _ t n DT) as HD. rewrite D in HD. inversion HD as [? [v' y] HD'|]; subst. clear HD.
      destruct HD' as (D' & _ & M1 & M2). cbn [fst snd] in D', M1, M2. destruct (defvar_ok I _ _ _ _ _ _ (du_1 _ _ _ _ _ DT) D) as (_ & _ & V').
      rewrite V, Hn, Ew. cbn [g_drop g_vars]. rewrite V'. cbn [define foldl]. 
      match goal with E : Some (v', y) = _ |- _ => rewrite <- E end. cbn [mbind option_bind default]. apply IH; [done|].
      rewrite Ew. destruct D' as [K1 K2 X1 X2 HH]. constructor; [constructor; try done; by eapply gok_drop|].
      eapply slots_kept; [exact T| |]; intros u _; by eapply kept_ext.
  - intros [= <-]. cbn [define foldl]. unfold step_panic. pose proof (rs_st _ _ _ _ _ Q) as Hst.
    destruct (mrpn_tag t) as [o|].
    + destruct (mr_stack s) as [|b [|a st]]; try exact T. apply Forall2_cons in Hst as [Hb [Ha _]%Forall2_cons]. destruct (bin_panic I o (g_mm (mr_w s)) a b) as [m|] eqn:Eb; cbn; [|exact T].
      apply twin_mm; [exact T|]. exact (bin_panic_ok _ _ _ _ _ (du_x1 _ _ _ _ _ (rs_d _ _ _ _ _ Q)) (miso_l _ _ _ _ Ha) (miso_l _ _ _ _ Hb) Eb).
    + destruct (_ || _); [exact T|]. destruct (ranges !! t) as [n|] eqn:Hn; [|exact T]. apply HR in Hn. unfold defvar_panic. cbn.
      destruct (g_vars (mr_w s) !! t), n; try exact T. lia.
Qed.

(** ** programs *)
Section prog.
Context {R : Type} (rO rI : R) (radd rmul rsub : R → R → R).
Local Notation mdo := (mdo I rO rI radd rmul rsub).
Local Notation caught := (caught I rO rI radd rmul rsub).
Local Notation ideal := (ideal I rO rI radd rmul rsub).

Lemma do_both w1 S1 w2 S2 c : twin I w1 S1 w2 S2 → osim (tw I) (mdo w1 S1 c) (mdo w2 S2 c).
Proof using.
  intros T. destruct (decide (mhouse c)) as [Hc|Hc]; [|by apply do_tw].
  destruct (house_tw I rO rI radd rmul rsub _ _ _ _ T c Hc) as (w1' & E1 & T1).
  destruct (house_tw I rO rI radd rmul rsub _ _ _ _ (twin_sym _ _ _ _ T1) c Hc) as (w2' & E2 & T2). rewrite E1, E2. constructor. split; [|done]. cbn. by apply twin_sym.
Qed.
Lemma list_valid w S l xs : ok w (ent S) → mslot_list S l = Some xs → Forall (mm_valid (g_mm w)) xs.
Proof using.
  intros K E. apply mapM_Some in E. eapply Forall2_Forall_r; [exact E|]. apply Forall_forall. intros i _ x. cbn. unfold mslot.
  destruct (S !! i) as [o|] eqn:Ei; [|done]. cbn. intros ->. apply (gok_valid I (B:=mbase0) w (ent S) x K). by eapply ent_elem.
Qed.
Lemma list_panic_ok o m xs m' : pair I m m → Forall (mm_valid m) xs → list_panic I o m xs = Some m' → mmstep I m m' ∧ xmm I m'.
Proof using.
  intros P V. pose proof (xm_wf _ _ (pr_1 _ _ _ P)) as W.
  assert (V1 : mm_valid m mm_one). { eapply repr_live. apply mg_one. apply (mw_good _ (mmw_b _ _ W)). }
  assert (V0 : mm_valid m mm_zero). { eapply repr_live. apply mg_zero. apply (mw_good _ (mmw_b _ _ W)). }
  destruct o; cbn [list_panic]; [by apply fold_panic_ok|by apply fold_panic_ok|..]; (destruct V as [|x xs Vx Vxs]; [done|by apply fold_panic_ok]).
Qed.
Definition good (c : mcmd R) : Prop := match c with DVar _ n => 1 ≤ n | DExpr _ ranges => map_Forall (λ _ n, 1 ≤ n) ranges | _ => True end.
Lemma panic_tw w1 S1 w2 S2 c : twin I w1 S1 w2 S2 → good c → mdo w1 S1 c = None → 
  match g_panic I w1 S1 c with
  | Some w1' => match c with
     | DMake _ _ => False
     | DExpr e ranges => twin I w1' S1 (define w2 (seen I ranges (MRpn w2 [] ∅) (split_whitespace e))) S2
     | _ => twin I w1' S1 w2 S2
     end
  | None => match c with DMake _ _ => True | _ => mslot_list S1 (used c) = None end
  end.
Proof using.
  intros T G E. unfold g_panic. destruct (mslot_list S1 (used c)) as [xs|] eqn:Ex; cbn [mbind option_bind]; [|by destruct c].
  pose proof T as [D _]. pose proof D as [K1 K2 X1 X2 HH]. pose proof (list_valid _ _ _ _ K1 Ex) as V.
  assert (P : pair I (g_mm w1) (g_mm w1)) by (eapply duo_pair, tn_d, twin_refl; done).
  destruct c; try done.
  - cbn. unfold defvar_panic. cbn in G. destruct (g_vars w1 !! x), range; try done. lia.
  - apply mapM_Some in Ex. cbn [used] in Ex. apply Forall2_cons_inv_l in Ex as (f & ? & _ & Ex & ->). apply Forall2_cons_inv_l in Ex as (g & ? & _ & Ex & ->).
    apply Forall2_nil_inv_l in Ex as ->.
    apply Forall_cons in V as [Vf V]. apply Forall_cons in V as [Vg _].
    destruct (bin_panic I o (g_mm w1) f g) as [m|] eqn:Eb; cbn; [|done]. apply twin_mm; [done|]. exact (bin_panic_ok _ _ _ _ _ X1 Vf Vg Eb).
  - destruct (list_panic I o (g_mm w1) xs) as [m|] eqn:El; cbn; [|done]. apply twin_mm; [done|]. exact (list_panic_ok _ _ _ _ P V El).
  - assert (Q : rsim I (ent S1) (ent S2) (MRpn w1 [] ∅) (MRpn w2 [] ∅)).
    { constructor; cbn; [done|constructor|]. intros y. rewrite !lookup_empty. constructor. }
    rewrite <- (seen_same _ _ ranges (split_whitespace e) _ _ Q).
    assert (Q1 : rsim I (ent S1) (ent S1) (MRpn w1 [] ∅) (MRpn w1 [] ∅)).
    { constructor; cbn; [by eapply tn_d, twin_refl|constructor|]. intros y. rewrite !lookup_empty. constructor. }
    destruct (rpn_panic I ranges (MRpn w1 [] ∅) (split_whitespace e)) as [w'|] eqn:Ep.
    + eapply (rpn_tw ranges S1 S2 w' _ G (MRpn w1 [] ∅)); done.
    + exfalso. cbn [SpecTransM.mdo] in E. unfold g_rpn in E. pose proof (loop_panic ranges (split_whitespace e) (MRpn w1 [] ∅)) as HL.
      pose proof (rloop_sim I _ _ ranges (split_whitespace e) _ _ Q1) as HS.
      destruct (mrpn_loop I ranges (MRpn w1 [] ∅) (split_whitespace e)) as [[s go]|]; [|destruct (HL eq_refl); congruence].
      inversion HS as [? ? Hn|]; subst. destruct Hn as (_ & Q' & _). cbn in Q'. cbn [mbind option_bind] in E. destruct go; [|done].
      pose proof (rs_st _ _ _ _ _ Q') as Hst. destruct (mr_stack s) as [|x [|? ?]]; try done. apply Forall2_cons in Hst as [Hx _].
      destruct (wrap_sim I _ _ _ _ _ _ (rs_d _ _ _ _ _ Q') Hx) as (v1 & _ & E1 & _). by rewrite E1 in E.
Qed.
Definition st2 (p q : mmgr * mslots * option (mans R)) : Prop := twin I p.1.1 p.1.2 q.1.1 q.1.2 ∧ p.2 = q.2.
Lemma slots_none w1 S1 w2 S2 l : twin I w1 S1 w2 S2 → mslot_list S1 l = None ↔ mslot_list S2 l = None.
Proof using. intros T. pose proof (slots_tw I _ _ _ _ T l) as H. by destruct H. Qed.
Lemma step_tw w1 S1 w2 S2 c : twin I w1 S1 w2 S2 → good c → osim st2 (caught w1 S1 c) (ideal w2 S2 c).
Proof using.
  intros T G. unfold PanicM.caught, PanicM.ideal. pose proof (do_both _ _ _ _ c T) as Hd. pose proof (panic_tw _ _ _ _ c T G) as HP.
  destruct Hd as [[[v1 T1] a1] [[v2 T2] a2] [T' Ha]|].
  { cbn in Ha, T'. subst. constructor. by split. }
  specialize (HP eq_refl). pose proof (slots_none _ _ _ _ (used c) T) as HN.
  assert (Hfin : ∀ w1' w2', twin I w1' S1 w2' S2 → osim st2 (Some (w1', S1, None)) (Some (w2', S2, None))) by (intros; constructor; by split).
  destruct (g_panic I w1 S1 c) as [w1'|] eqn:Eg; cbn [mbind option_bind].
  - unfold g_panic in Eg. destruct (mslot_list S1 (used c)); [|done]. destruct (mslot_list S2 (used c)); [|by pose proof (proj2 HN eq_refl)].
    cbn [mbind option_bind]. destruct c; try done; by apply Hfin.
  - destruct (mslot_list S2 (used c)) eqn:E2; [|constructor]. cbn [mbind option_bind]. destruct c; try constructor; by pose proof (proj1 HN HP).
Qed.
Lemma run_tw p : ∀ w1 S1 w2 S2, twin I w1 S1 w2 S2 → with_states p → run caught w1 S1 p = run ideal w2 S2 p.
Proof using.
  induction p as [|c p IH]; intros w1 S1 w2 S2 T G; [done|]. apply Forall_cons in G as [Gc G]. cbn [run].
  pose proof (step_tw _ _ _ _ c T Gc) as Hs. destruct Hs as [[[v1 T1] a1] [[v2 T2] a2] [T' Ha]|]; [|done]. cbn in Ha, T'. subst. cbn [mbind option_bind].
  by rewrite (IH _ _ _ _ T' G).
Qed.
Lemma new_twin : twin I g_new [] g_new [].
Proof using. constructor; [|constructor]. constructor; cbn; try done; try apply gok_new; (constructor; [apply mm_new_ok|apply xmdd_new_ok|apply cache_ok_new]). Qed.
Lemma caught_ideal p : with_states p → run caught g_new [] p = run ideal g_new [] p.
Proof using. apply run_tw, new_twin. Qed.

(** leaving out the calls that panic *)
Lemma ideal_drop p : Forall (λ c, match c with DExpr _ _ => False | _ => True end) p → ∀ w S l, run ideal w S p = Some l →
  run ideal w S (returned p l) = Some (filter is_Some l).
Proof using.
  induction 1 as [|c p Hc Hp IH]; intros w S l; cbn [run]; [by intros [= <-]|].
  destruct (ideal w S c) as [[[w' S'] a]|] eqn:E; [|done]. cbn [mbind option_bind]. destruct (run ideal w' S' p) as [l'|] eqn:Er; [|done]. cbn. intros [= <-].
  specialize (IH _ _ _ Er). destruct a as [a|]; cbn [returned].
  - cbn [run]. rewrite E. cbn [mbind option_bind]. rewrite IH. done.
  - unfold PanicM.ideal in E. destruct (mdo w S c) as [[[??]?]|]; [done|]. destruct (mslot_list S (used c)); [|done]. cbn in E. 
    rewrite filter_cons_False by (by intros [? ?]). destruct c; try done; by injection E as <- <-.
Qed.
Lemma returned_all (Q : mcmd R → Prop) p : ∀ l : list (option (mans R)), Forall Q p → Forall Q (returned p l).
Proof using. induction p as [|c p IH]; intros [|[a|] l] H; cbn [returned]; try constructor; apply Forall_cons in H as [? ?]; auto. Qed.
Lemma caught_drop p l : with_states p → Forall (λ c, match c with DExpr _ _ => False | _ => True end) p → run caught g_new [] p = Some l →
  run caught g_new [] (returned p l) = Some (filter is_Some l).
Proof using.
  intros G N E. rewrite caught_ideal in E by done. rewrite caught_ideal by by apply returned_all. by apply ideal_drop.
Qed.
End prog.
End mss.
