(** MddPath and ZmddPath in progress while the manager is used. *)
From stdpp Require Import strings.
From Verif Require Import Prelude ComputeCache Arena Bdd Mdd MtMdd MtMdd2 Zmdd ZmddAlg BssMgr MddMinsol MssConv MssMgr
  Trees ArenaProofs Keeps ArenaMore SpecBdd SpecMdd SpecZmdd SpecZmddAlg SpecBss SpecBssMgr SpecMss NaryProofs MddProofs MddMain MtProofs MmProofs MmMain
  BssMgrProofs ZmddTrees ZmddProofs ZmddMain ZmddAlgProofs MssTrees MssSol MddMinsolProofs MssConvProofs MssSolMain MssMgrProofs MssMgrVar MssRpn MssSolMgr MssFam
  MssExtract MssAlg MssAlgProofs SpecMssAlg MssAlgMain Iter SpecIter IterProofs MIter SpecMIter.
Notation bar m := (d_ar (mm_b m)).
Notation var m := (t_ar (mm_v m)).
Notation hdrs m := (ar_headers (bar m)).

(** ** one half of the manager *)
Notation ghalted := (λ p : mdpath, match dp_stack p with [] => true | _ :: _ => false end).
Section half.
Context {T : Type} (hit : T → option bool).
Lemma gcollect_drain k (a : arena T) tab p : mdpath_collect k hit a tab p = drain ghalted (mdpath_step hit a tab) k p.
Proof.
  revert p. induction k as [|k IH]; intros p; cbn [mdpath_collect drain]; destruct (dp_stack p) eqn:Hp; try done.
  destruct (mdpath_step hit a tab p) as [[p' o]|]; [|done]. cbn [mbind option_bind]. by rewrite IH.
Qed.
Definition gwithin (a0 : arena T) (f : nat) (p : mdpath) : Prop := ∀ l id, DSNode l id ∈ dp_stack p → reach a0 [f] id.
Lemma md_push_in x l i cs l' id : DSNode l' id ∈ md_push x l i cs → id ∈ cs.
Proof.
  revert i. induction cs as [|c cs IH]; intros i; cbn [md_push]; [by intros ?%elem_of_nil|].
  cbn. rewrite !elem_of_cons. intros [?|[?|[?|Hin]]]; simplify_eq; [by left|]. right. by eapply IH.
Qed.
Lemma gwithin_step a0 f tab p p' o : gwithin a0 f p → mdpath_step hit a0 tab p = Some (p', o) → gwithin a0 f p'.
Proof.
  intros Hi. unfold mdpath_step. destruct (dp_stack p) as [|x st] eqn:Hp; [done|].
  assert (Hst : ∀ l id, DSNode l id ∈ st → reach a0 [f] id) by (intros l id H; eapply Hi; rewrite Hp; by right).
  destruct x as [level id|x i|x].
  2,3: by intros [= <- <-].
  assert (Hid : reach a0 [f] id) by (eapply Hi; rewrite Hp; by left).
  destruct (ar_nodes a0 !! id) as [nd|] eqn:Hn; [|done]. cbn [mbind option_bind].
  destruct (ar_node_level a0 id) as [nl|]; [|done]. cbn [mbind option_bind].
  destruct (_ && _).
  - destruct level as [l|]; [|done]. cbn [mbind option_bind]. destruct (tab !! l) as [[x e]|]; [|done]. cbn [mbind option_bind].
    intros [= <- <-] l' i'. cbn [dp_stack]. rewrite elem_of_app. intros [Hin%md_push_in|Hin]; [|by eapply Hst].
    apply elem_of_replicate in Hin as [-> _]. done.
  - destruct nd as [t|h cs]; [by intros [= <- _]|].
    destruct level as [l|]; [|done]. cbn [mbind option_bind]. destruct (tab !! l) as [[x e]|]; [|done]. cbn [mbind option_bind].
    intros [= <- <-] l' i'. cbn [dp_stack]. rewrite elem_of_app. intros [Hin%md_push_in|Hin]; [|by eapply Hst].
    by eapply reach_step.
Qed.
Lemma gstep_kept a0 a f tab p : awf Rn a0 → live a0 f → keeps a0 [f] a → gwithin a0 f p →
  mdpath_step hit a tab p = mdpath_step hit a0 tab p.
Proof.
  intros Hw Hf Hk Hi. unfold mdpath_step. destruct (dp_stack p) as [|x st] eqn:Hp; [done|]. destruct x as [level id|x i|x]; [|done..].
  assert (Hid : reach a0 [f] id) by (eapply Hi; rewrite Hp; by left).
  rewrite (keeps_level Rn a0 [f] a id Hw); [|by intros r ->%elem_of_list_singleton|done|done].
  by rewrite (proj2 (proj2 Hk _ Hid)).
Qed.
Lemma gnext_kept a0 a f tab k p : awf Rn a0 → live a0 f → keeps a0 [f] a → gwithin a0 f p →
  iter_next ghalted (mdpath_step hit a tab) k p = iter_next ghalted (mdpath_step hit a0 tab) k p.
Proof.
  intros Hw Hf Hk Hi. apply (next_agree ghalted _ _ (gwithin a0 f)); [|intros s s' x; apply gwithin_step|done].
  intros s Hs _. by eapply gstep_kept.
Qed.
Lemma named_kept (a0 a : arena T) f e id t : keeps a0 [f] a → reach a0 [f] id → named_value a0 e id t → named_value a e id t.
Proof.
  intros Hk Hid Hv. revert Hid. induction Hv as [id t Hn|id h cs hd c t Hn Hh Hc _ IH]; intros Hid.
  - constructor. by rewrite (proj2 (proj2 Hk _ Hid)).
  - eapply mv_node; [by rewrite (proj2 (proj2 Hk _ Hid))|by eapply prefix_lookup; [|apply Hk]|done|].
    apply IH. eapply reach_step; [exact Hid|exact Hn|]. by eapply elem_of_list_lookup_2.
Qed.
End half.

(** ** both halves *)
Section mss.
Context (I : vint).

Lemma nkeeps_refl m x : mmwf I m → mm_valid m x → nkeeps m x m.
Proof.
  intros Hw Hx. destruct x as [f|f]; cbn in *; (eapply keeps_refl; [apply Hw|]); by intros r ->%elem_of_list_singleton.
Qed.
Lemma nkeeps_hdrs m0 x m : mmwf I m0 → mmwf I m → nkeeps m0 x m → hdrs m0 `prefix_of` hdrs m.
Proof. intros H0 Hw Hk. destruct x; cbn in Hk; [|by apply Hk]. rewrite <- (mmw_h _ _ H0), <- (mmw_h _ _ Hw). by apply Hk. Qed.
Lemma nkeeps_mden m0 x m F : mmwf I m0 → mmwf I m → nkeeps m0 x m → mden m0 x F → mden m x F.
Proof.
  intros H0 Hw Hk [Vx Hd]. pose proof (nkeeps_hdrs _ _ _ H0 Hw Hk) as [t Ht]. split.
  - destruct x as [f|f]; cbn in *; apply Hk; constructor; by left.
  - intros k HF e He. assert (He0 : mrange m0 e). { intros hd Hin. apply He. rewrite Ht, elem_of_app. by left. }
    specialize (Hd k HF e He0). destruct x as [f|f], (k e) as [b|v]; cbn in *; try done;
      (eapply named_kept; [exact Hk|constructor; by left|done]).
Qed.
Lemma nkeeps_level w0 x w : mmwf I (g_mm w0) → mm_valid (g_mm w0) x → nkeeps (g_mm w0) x (g_mm w) → g_level w x = g_level w0 x.
Proof.
  intros H0 Vx Hk. destruct x as [f|f]; cbn in *; unfold nlevel; f_equal;
    (eapply (keeps_level Rn); [apply H0| |exact Hk|constructor; by left]); by intros r ->%elem_of_list_singleton.
Qed.
Lemma level_lt w0 x l : lvl_ok (g_mm w0) → mmwf I (g_mm w0) → g_level w0 x = Some l → l < length (declared w0).
Proof.
  intros Hl Hw. unfold declared. rewrite fmap_length. destruct x as [f|f]; cbn; unfold nlevel, ar_node_level; cbn.
  - destruct (ar_nodes _ !! f) as [[t|h cs]|]; [done| |done]. cbn. rewrite (mmw_h _ _ Hw).
    destruct (hdrs _ !! h) as [hd|] eqn:Hh; [|done]. cbn. intros [= <-]. rewrite (Hl _ _ Hh). by eapply lookup_lt_Some.
  - destruct (ar_nodes _ !! f) as [[t|h cs]|]; [done| |done]. cbn.
    destruct (hdrs _ !! h) as [hd|] eqn:Hh; [|done]. cbn. intros [= <-]. rewrite (Hl _ _ Hh). by eapply lookup_lt_Some.
Qed.
Lemma nkeeps_scope w0 x w : lvl_ok (g_mm w0) → mmwf I (g_mm w0) → mmwf I (g_mm w) → mm_valid (g_mm w0) x →
  nkeeps (g_mm w0) x (g_mm w) → scope w x = scope w0 x.
Proof.
  intros Hl H0 Hw Vx Hk. unfold scope. rewrite (nkeeps_level _ _ _ H0 Vx Hk). destruct (g_level w0 x) as [l|] eqn:Hlev; [|done].
  pose proof (level_lt _ _ _ Hl H0 Hlev) as Hlt. destruct (nkeeps_hdrs _ _ _ H0 Hw Hk) as [t Ht].
  unfold declared in *. rewrite Ht, fmap_app, take_app_le; [done|]. lia.
Qed.
(** the list of solutions does not depend on variables declared later *)
Lemma sols_kept w0 x w F ss L : lvl_ok (g_mm w0) → mmwf I (g_mm w0) → mmwf I (g_mm w) → NoDup (h_label <$> hdrs (g_mm w)) →
  nkeeps (g_mm w0) x (g_mm w) → mden (g_mm w0) x (Some F) →
  solutions (declared w0) (scope w0 x) F ss L → solutions (declared w) (scope w x) F ss L.
Proof.
  intros Hl H0 Hw Hln Hk [Vx Hd] [Hnd HL]. split; [done|]. rewrite (nkeeps_scope w0 x w Hl H0 Hw Vx Hk).
  destruct (nkeeps_hdrs _ _ _ H0 Hw Hk) as [t Ht]. pose proof (mm_hc I _ Hw) as Hc.
  assert (Hdecl : declared w = declared w0 ++ ((λ hd, (h_label hd, h_edges hd)) <$> t)) by (unfold declared; by rewrite Ht, fmap_app).
  intros M. rewrite HL. split.
  - intros (e & He & Hch & ->). set (e' := λ s, if decide (s ∈ (declared w0).*1) then e s else 0).
    assert (Hsame : ∀ s n, (s, n) ∈ declared w0 → e' s = e s).
    { intros s n Hs. unfold e'. rewrite decide_True; [done|]. apply elem_of_list_fmap. by exists (s, n). }
    assert (He0 : states (declared w0) e') by (intros s n Hs; rewrite (Hsame _ _ Hs); by apply He).
    exists e'. sp.
    + intros s n Hs. rewrite Hdecl, elem_of_app in Hs. destruct Hs as [Hs|Hs]; [by apply He0|].
      apply elem_of_list_fmap in Hs as (hd & [= -> ->] & Hin'). unfold e'. destruct (decide _) as [Hin|].
      * exfalso. rewrite Ht, fmap_app in Hln. apply NoDup_app in Hln as (_ & Hdis & _). apply (Hdis (h_label hd)).
        -- unfold declared in Hin. rewrite <- list_fmap_compose in Hin. exact Hin.
        -- by apply elem_of_list_fmap_1.
      * apply Hc. rewrite Ht, elem_of_app. by right.
    + replace (F e') with (F e); [done|].
      assert (Hr : ∀ e, states (declared w0) e → mrange (g_mm w0) e).
      { intros e1 He1. exact (proj1 (states_iff (hdrs (g_mm w0)) e1) He1). }
      pose proof (rho_agree (g_mm w0) e Hl) as Ha.
      assert (Ha' : nagree (g_mm w0) (rho_of (g_mm w0) e) e').
      { intros hd Hin. rewrite (Ha _ Hin). symmetry. apply (Hsame _ (h_edges hd)). unfold declared.
        apply (elem_of_list_fmap_1 (λ hd, (h_label hd, h_edges hd)) _ _ Hin). }
      eapply lval_fun; [eapply (mvalue_lval I); [exact H0|exact Ha|]|eapply (mvalue_lval I); [exact H0|exact Ha'|]].
      * apply (Hd F eq_refl). by apply Hr.
      * apply (Hd F eq_refl). by apply Hr.
    + unfold dense. f_equal. apply list_fmap_ext. intros i [s n] Hs. cbn. f_equal. symmetry. apply (Hsame s n).
      apply elem_of_list_lookup_2 in Hs. unfold scope in Hs. destruct (g_level w0 x); [|by apply elem_of_nil in Hs].
      by eapply elem_of_take in Hs as (j & Hs & _); apply elem_of_list_lookup_2 in Hs.
  - intros (e & He & Hch & ->). exists e. sp; try done. intros s n Hs. apply He. rewrite Hdecl, elem_of_app. by left.
Qed.

(** ** one iterator *)
Definition gwithin' (m : mm) (it : giter) : Prop :=
  match gi_node it with NVal f => gwithin (var m) f (gi_p it) | NBool f => gwithin (bar m) f (gi_p it) end.
Definition gdrain (m : mm) (it : giter) (k : nat) : option (list (gmap string nat)) :=
  match gi_node it with
  | NVal _ => drain ghalted (mdpath_step (vhit (gi_ss it)) (var m) (gi_tab it)) k (gi_p it)
  | NBool _ => drain ghalted (mdpath_step (bhit (gi_ss it)) (bar m) (gi_tab it)) k (gi_p it)
  end.
Record giok (w0 : mmgr) (r : grun) : Prop := {
  go_wf : mmwf I (g_mm w0);
  go_lvl : lvl_ok (g_mm w0);
  go_valid : mm_valid (g_mm w0) (gi_node (gr_it r));
  go_within : gwithin' (g_mm w0) (gr_it r);
  go_list : ∀ F, gr_fun r = Some F → mden (g_mm w0) (gi_node (gr_it r)) (Some F) ∧
    ∃ L k0, solutions (declared w0) (scope w0 (gi_node (gr_it r))) F (gi_ss (gr_it r)) L ∧
      gr_out r `prefix_of` L ∧ gdrain (g_mm w0) (gr_it r) k0 = Some (drop (length (gr_out r)) L);
}.

Lemma giter_next_kept w0 w it k : mmwf I (g_mm w0) → mm_valid (g_mm w0) (gi_node it) → nkeeps (g_mm w0) (gi_node it) (g_mm w) →
  gwithin' (g_mm w0) it → giter_next k w it = giter_next k w0 it.
Proof.
  intros Hw Hv Hk Hi. unfold giter_next, gwithin' in *. destruct (gi_node it) as [f|f]; cbn in Hk, Hv.
  - rewrite (gnext_kept _ (var (g_mm w0)) (var (g_mm w)) f); [done|apply Hw|done|done|done].
  - rewrite (gnext_kept _ (bar (g_mm w0)) (bar (g_mm w)) f); [done|apply Hw|done|done|done].
Qed.
Lemma next_giok w0 w r k it' o : giok w0 r → nkeeps (g_mm w0) (gi_node (gr_it r)) (g_mm w) →
  giter_next k w (gr_it r) = Some (it', o) →
  gi_node it' = gi_node (gr_it r) ∧ giok w0 (GRun it' (gr_fun r) (yield (gr_out r) o)).
Proof.
  intros [Hw Hl Hv Hi HL] Hk. rewrite (giter_next_kept w0) by done. unfold giter_next. destruct r as [[p x tab ss] G out].
  cbn [gr_it gr_fun gr_out gi_p gi_node gi_tab gi_ss] in *. unfold gwithin', gdrain in *. cbn [gi_p gi_node gi_tab gi_ss] in *.
  destruct x as [f|f]; (destruct (iter_next _ _ k _) as [[p' o']|] eqn:Hn; [|done]); cbn [mbind option_bind]; intros [= <- <-];
    (split; [done|]); constructor; unfold gwithin', gdrain; cbn [gr_it gr_fun gr_out gi_p gi_node gi_tab gi_ss]; try done.
  1,3: (eapply next_keeps; [|exact Hi|exact Hn]; intros s s' y; apply gwithin_step).
  all: intros F HF; destruct (HL F HF) as (Hd & L & k0 & HS & Hpre & Hdr); (split; [done|]).
  all: rewrite <- (list_fmap_id L) in Hpre, Hdr; destruct (next_split ghalted id _ _ _ _ _ _ _ _ Hdr Hpre Hn) as (_ & Hpre' & k1 & Hd').
  all: rewrite list_fmap_id in Hpre', Hd'; by exists L, k1.
Qed.
Lemma start_giok {B : mbase} w H x F ss w' it : gok I w H → (x, F) ∈ H → giter_start w x ss = Some (w', it) →
  w' = g_clone w x ∧ gi_node it = x ∧ gi_ss it = ss ∧ giok w (GRun it F []).
Proof.
  intros Hk Hx. pose proof (gk_wf _ _ _ Hk) as Hw. pose proof (gk_held _ _ _ Hk _ _ Hx) as Hd. unfold giter_start.
  destruct (match x with NVal _ => _ | NBool _ => _ end) as [tab|] eqn:Ht; [|done]. cbn [mbind option_bind].
  intros [= <- <-]. sp; try done. constructor; cbn [gr_it gr_fun gr_out gi_p gi_node gi_tab gi_ss].
  - done.
  - apply Hk.
  - apply Hd.
  - unfold gwithin'. cbn [gi_node gi_p]. destruct x as [f|f]; intros l id; cbn [dp_stack node_id]; rewrite elem_of_list_singleton;
      intros [= _ ->]; constructor; by left.
  - intros G ->. split; [done|]. pose proof (held_half I w H x G ss Hk Hx) as Hh.
    assert (∃ L k, solutions (declared w) (scope w x) G ss L ∧ ∀ fuel, k ≤ fuel → g_extract fuel w x ss = Some L) as (L & k & HL & Hex).
    { unfold solutions, scope, g_extract, g_level. destruct x as [f|f]; apply (gen_extract I w H Hk _ _ f _ Hh);
        by rewrite (mmw_h _ _ Hw). }
    exists L, k. sp; [done|apply prefix_nil|]. specialize (Hex k (le_n _)). unfold gdrain. cbn [gi_node gi_p gi_tab gi_ss length]. rewrite drop_0.
    unfold g_extract, nextract in Hex. destruct x as [f|f]; rewrite Ht in Hex; cbn [mbind option_bind] in Hex;
      rewrite gcollect_drain in Hex; exact Hex.
Qed.
Lemma gstart_some {B : mbase} w H x F ss : gok I w H → (x, F) ∈ H → is_Some (giter_start w x ss).
Proof.
  intros Hk Hx. pose proof (gk_wf _ _ _ Hk) as Hw. pose proof (mmw_h _ _ Hw) as Hh. pose proof (gk_lvl _ _ _ Hk) as Hl. unfold giter_start.
  destruct x as [f|f].
  - rewrite (tables_ok (var (g_mm w))); [by eexists|]. rewrite Hh. exact Hl.
  - rewrite Hh, (tables_ok (bar (g_mm w))); [by eexists|exact Hl].
Qed.

(** ** the handles of iterators *)
Definition gpins_of (snaps : list mmgr) (its : list grun) : mbase := MBase (zip (g_mm <$> snaps) ((λ r, gi_node (gr_it r)) <$> its)).
Lemma gok_own ps x F w H : @gok I (MBase ps) w H → (x, F) ∈ H → @gok I (MBase ((g_mm w, x) :: ps)) (g_clone w x) H.
Proof.
  intros [Hw Hl Hs Hv Hla Hnd [l [Hr Hp]] Hh Hb] Hx. constructor; cbn [g_clone g_pin g_mm g_vars g_roots]; try done.
  - exists (x :: l). split; [by rewrite Hr|]. rewrite Hp. cbn. rewrite !app_assoc. by rewrite Permutation_middle.
  - intros m0 y [Hy|Hy]%elem_of_cons; [|by apply Hb]. injection Hy as -> ->. apply nkeeps_refl; [done|]. by apply (Hh _ _ Hx).
Qed.
Lemma gok_disown ps1 m0 x ps2 w H : @gok I (MBase (ps1 ++ (m0, x) :: ps2)) w H → @gok I (MBase (ps1 ++ ps2)) (g_drop w x) H.
Proof.
  intros [Hw Hl Hs Hv Hla Hnd [l [Hr Hp]] Hh Hb]. constructor; cbn [g_drop g_mm g_vars g_roots]; try done.
  - exists (H.*1 ++ (map_to_list (g_vars w)).*2 ++ (ps1 ++ ps2).*2). split; [|done].
    rewrite Hr, (mroots_perm l (x :: H.*1 ++ (map_to_list (g_vars w)).*2 ++ (ps1 ++ ps2).*2)); [apply munpin_pin|].
    rewrite Hp. cbn [mb_pins]. rewrite !fmap_app. cbn. rewrite !app_assoc. by rewrite Permutation_middle.
  - intros m1 y Hy. apply Hb. cbn. apply elem_of_app in Hy as [Hy|Hy]; apply elem_of_app; [by left|right; by right].
Qed.
Lemma gpins_lookup snaps its i w0 r : snaps !! i = Some w0 → its !! i = Some r →
  (g_mm w0, gi_node (gr_it r)) ∈ @mb_pins (gpins_of snaps its).
Proof.
  intros Ha Hr. cbn. apply elem_of_list_lookup. exists i. apply lookup_zip_with_Some.
  exists (g_mm w0), (gi_node (gr_it r)). rewrite !list_lookup_fmap, Ha, Hr. done.
Qed.
Definition giters (w : mmgr) (H : handles) (its : list grun) : Prop :=
  ∃ snaps, @gok I (gpins_of snaps its) w H ∧ Forall2 giok snaps its.
Lemma giters_start w H its x F ss w' it : giters w H its → (x, F) ∈ H → giter_start w x ss = Some (w', it) →
  g_mm w' = g_mm w ∧ giters w' H (GRun it F [] :: its).
Proof.
  intros (sn & Hk & Hf) HxH He. destruct (start_giok _ _ _ _ _ _ _ Hk HxH He) as (-> & Hid & _ & Hb). split; [done|]. exists (w :: sn).
  split; [|by constructor]. unfold gpins_of. cbn [fmap list_fmap zip zip_with gr_it]. rewrite Hid. by eapply gok_own.
Qed.
Lemma giters_next w H its i r k it' o : giters w H its → its !! i = Some r → giter_next k w (gr_it r) = Some (it', o) →
  giters w H (<[i := GRun it' (gr_fun r) (yield (gr_out r) o)]> its).
Proof.
  intros (sn & Hk & Hf) Hi Hn. destruct (Forall2_lookup_r _ _ _ _ _ Hf Hi) as (w0 & Ha & Hb).
  assert (Hkp : nkeeps (g_mm w0) (gi_node (gr_it r)) (g_mm w)) by (eapply (gk_base _ _ _ Hk); by eapply gpins_lookup).
  destruct (next_giok _ _ _ _ _ _ Hb Hkp Hn) as [Hid Hb']. exists sn. split.
  - replace (gpins_of sn (<[i:=GRun it' (gr_fun r) (yield (gr_out r) o)]> its)) with (gpins_of sn its); [done|].
    unfold gpins_of. do 2 f_equal. rewrite list_fmap_insert. cbn [gr_it]. rewrite list_insert_id; [done|].
    rewrite list_lookup_fmap, Hi. cbn. by rewrite Hid.
  - rewrite <- (list_insert_id sn i w0) by done. by apply Forall2_insert.
Qed.
Lemma giters_stop w H its1 r its2 : giters w H (its1 ++ r :: its2) → giters (giter_drop w (gr_it r)) H (its1 ++ its2).
Proof.
  intros (sn & Hk & Hf). apply Forall2_app_inv_r in Hf as (s1 & s' & Hf1 & Hf2 & ->). apply Forall2_cons_inv_r in Hf2 as (w0 & s2 & Hb & Hf2 & ->).
  exists (s1 ++ s2). split; [|by apply Forall2_app].
  unfold giter_drop, gpins_of in *. rewrite !fmap_app in Hk |- *. rewrite zip_with_app in Hk |- *
    by (rewrite !fmap_length; by eapply Forall2_length). cbn in Hk. by eapply gok_disown.
Qed.
Lemma mdd_iter_ok w H its : mdd_iter I w H its → giters w H its.
Proof.
  induction 1 as [|w H its w' H' _ (sn & Hk & Hf) Hs|w H its x F ss w' it _ IH HxH He
    |w H its i r k it' o _ IH Hi Hn|w H its1 r its2 _ IH].
  - exists []. split; [apply gok_new|constructor].
  - exists sn. split; [|done]. by eapply step_gok.
  - by eapply giters_start.
  - by eapply giters_next.
  - by apply giters_stop.
Qed.

Lemma giters_exact w H its r F : giters w H its → r ∈ its → gr_fun r = Some F →
  let x := gi_node (gr_it r) in
  ∃ L, solutions (declared w) (scope w x) F (gi_ss (gr_it r)) L ∧
    gr_out r `prefix_of` L ∧
    (∃ k0, ∀ k, k0 ≤ k → ∃ it', giter_next k w (gr_it r) = Some (it', L !! length (gr_out r))) ∧
    (g_level w x ≠ None → match x with NVal _ => True | NBool f => one_entry (bar (g_mm w)) f end →
      giter_len w (gr_it r) = Some (N.of_nat (length L))).
Proof.
  intros (sn & Hk & Hf) [i Hi]%elem_of_list_lookup HF x.
  destruct (Forall2_lookup_r _ _ _ _ _ Hf Hi) as (w0 & Ha & [Hw Hl Hv Hin HL]).
  destruct (HL F HF) as (Hd & L & k0 & HS & Hpre & Hdr). pose proof (gk_wf _ _ _ Hk) as Hw'.
  assert (Hkp : nkeeps (g_mm w0) x (g_mm w)) by (eapply (gk_base _ _ _ Hk); by eapply gpins_lookup).
  assert (HS' : solutions (declared w) (scope w x) F (gi_ss (gr_it r)) L) by (eapply sols_kept; try done; apply Hk).
  exists L. sp.
  - done.
  - done.
  - exists k0. intros k Hkk. rewrite (giter_next_kept w0) by done. rewrite <- (list_fmap_id L) in Hpre, Hdr.
    unfold giter_next, gdrain in *. destruct (gi_node (gr_it r)) as [f|f];
      destruct (next_drain _ _ _ _ _ Hdr) as (s' & Hn & _); pose proof (next_mono ghalted _ k0 k _ _ Hkk Hn) as Hn';
      destruct (next_split ghalted id _ _ _ _ _ _ _ _ Hdr Hpre Hn) as (Ho & _); rewrite Hn'; cbn [mbind option_bind];
      rewrite Ho, list_fmap_id; by eexists.
  - intros Hlev Hone. destruct (g_level w x) as [l|] eqn:El; [|done].
    pose proof (nkeeps_mden _ _ _ _ Hw Hw' Hkp Hd) as Hd'. pose proof (gok_pin I w H x (Some F) Hk Hd') as Hk'.
    pose proof (held_half I (g_pin w x) _ x F (gi_ss (gr_it r)) Hk' ltac:(by left)) as Hh.
    unfold solutions, scope in HS'. rewrite El in HS'. unfold giter_len, g_count. fold x. destruct x as [f|f].
    + exact (gen_count I (g_pin w _) _ Hk' _ _ f _ Hh l L El HS').
    + exact (gen_count_one I (g_pin w _) _ Hk' _ _ f _ Hh l L Hone El HS').
Qed.
End mss.

(** ** ZmddPath *)
Notation qhalted := (λ p : zmpath, match mp_stack p with [] => true | _ :: _ => false end).
Lemma qcollect_drain k a rv base ss p : zmpath_collect k a rv base ss p = drain qhalted (zmpath_step a rv base ss) k p.
Proof.
  revert p. induction k as [|k IH]; intros p; cbn [zmpath_collect drain]; destruct (mp_stack p) eqn:Hp; try done.
  destruct (zmpath_step a rv base ss p) as [[p' o]|]; [|done]. cbn [mbind option_bind]. by rewrite IH.
Qed.
Definition qwithin (a0 : arena vt) (f : nat) (p : zmpath) : Prop := ∀ id, MSNode id ∈ mp_stack p → reach a0 [f] id.
Lemma zm_push_in rv x last i cs id : MSNode id ∈ zm_push rv x last i cs → id ∈ cs.
Proof.
  revert i. induction cs as [|c cs IH]; intros i; cbn [zm_push]; [by intros ?%elem_of_nil|]. rewrite elem_of_app.
  intros [Hin|Hin%IH]; [|by right]. destruct i; rewrite ?elem_of_cons, ?elem_of_nil in Hin; destruct_or? Hin; simplify_eq; by left.
Qed.
Lemma qwithin_step a0 f rv base ss p p' o : qwithin a0 f p → zmpath_step a0 rv base ss p = Some (p', o) → qwithin a0 f p'.
Proof.
  intros Hi. unfold zmpath_step. destruct (mp_stack p) as [|x st] eqn:Hp; [done|].
  assert (Hst : ∀ id, MSNode id ∈ st → reach a0 [f] id) by (intros id H; eapply Hi; rewrite Hp; by right).
  destruct x as [id|x i|x].
  2,3: by intros [= <- <-].
  assert (Hid : reach a0 [f] id) by (eapply Hi; rewrite Hp; by left).
  destruct (ar_nodes a0 !! id) as [nd|] eqn:Hn; [|done]. cbn [mbind option_bind].
  destruct nd as [[|z]|h cs]; [by intros [= <- _]..|].
  destruct (ar_headers a0 !! h) as [hd|]; [|done]. cbn [mbind option_bind]. destruct cs as [|c cs]; [done|].
  intros [= <- <-] i0 Hin. change (MSNode i0 ∈ zm_push rv (h_label hd) (length (c :: cs) - 1) 0 (c :: cs) ++ st) in Hin.
  apply elem_of_app in Hin as [Hin%zm_push_in|Hin]; [|by apply Hst]. by eapply reach_step.
Qed.
Lemma qstep_kept a0 a f rv base ss p : awf Rz a0 → live a0 f → keeps a0 [f] a → qwithin a0 f p →
  zmpath_step a rv base ss p = zmpath_step a0 rv base ss p.
Proof.
  intros Hw Hf Hk Hi. unfold zmpath_step. destruct (mp_stack p) as [|x st] eqn:Hp; [done|]. destruct x as [id|x i|x]; [|done..].
  assert (Hid : reach a0 [f] id) by (eapply Hi; rewrite Hp; by left).
  rewrite (proj2 (proj2 Hk _ Hid)). destruct (ar_nodes a0 !! id) as [[t|h cs]|] eqn:Hn; [done| |done]. cbn [mbind option_bind].
  destruct (aw_nt _ _ Hw id h cs) as (hd & Hh & _); [|done|].
  - eapply reach_live; [exact Hw| |exact Hid]. by intros r ->%elem_of_list_singleton.
  - by rewrite Hh, (prefix_lookup _ _ _ _ Hh (proj1 Hk)).
Qed.

Definition qmembers (x : zmnode) (R : family) (ss : list Z) (L : list (gmap string nat)) : Prop :=
  NoDup L ∧ ∀ M, M ∈ L ↔ ∃ y v, length y = length (zn_vars x) ∧ v ∈ ss ∧ R (vec y) v ∧ M = report (zn_rev x) (zn_vars x) y.
Notation qstep a it := (zmpath_step a (zn_rev (qi_node it)) (qi_base it) (qi_ss it)).
Record qiok (a0 : arena vt) (r : qrun) : Prop := {
  qo_wf : awf Rz a0;
  qo_live : live a0 (zn_id (qi_node (qr_it r)));
  qo_vars : vars_ok (zn_vars (qi_node (qr_it r)));
  qo_within : qwithin a0 (zn_id (qi_node (qr_it r))) (qi_p (qr_it r));
  qo_list : ∀ R, qr_fam r = Some R → ∃ L k0, qmembers (qi_node (qr_it r)) R (qi_ss (qr_it r)) L ∧
    qr_out r `prefix_of` L ∧ drain qhalted (qstep a0 (qr_it r)) k0 (qi_p (qr_it r)) = Some (drop (length (qr_out r)) L);
}.
Lemma qiter_next_kept a0 q it k : awf Rz a0 → live a0 (zn_id (qi_node it)) → keeps a0 [zn_id (qi_node it)] (t_ar (q_z q)) →
  qwithin a0 (zn_id (qi_node it)) (qi_p it) →
  iter_next qhalted (qstep (t_ar (q_z q)) it) k (qi_p it) = iter_next qhalted (qstep a0 it) k (qi_p it).
Proof.
  intros Hw Hl Hk Hi. apply (next_agree qhalted _ _ (qwithin a0 (zn_id (qi_node it)))); [|intros s s' x; apply qwithin_step|done].
  intros s Hs _. by eapply qstep_kept.
Qed.
Lemma next_qiok a0 q r k it' o : qiok a0 r → keeps a0 [zn_id (qi_node (qr_it r))] (t_ar (q_z q)) →
  qiter_next k q (qr_it r) = Some (it', o) →
  qi_node it' = qi_node (qr_it r) ∧ qiok a0 (QRun it' (qr_fam r) (yield (qr_out r) o)).
Proof.
  intros [Hw Hl Hv Hi HL] Hk. unfold qiter_next. rewrite (qiter_next_kept a0) by done.
  destruct (iter_next _ _ k _) as [[p o']|] eqn:Hn; [|done]. cbn [mbind option_bind]. intros [= <- <-]. split; [done|].
  constructor; cbn [qr_it qr_fam qr_out qi_node qi_p qi_base qi_ss]; try done.
  - eapply next_keeps; [|exact Hi|exact Hn]. intros s s' x. apply qwithin_step.
  - intros R HR. destruct (HL R HR) as (L & k0 & HM & Hpre & Hd). rewrite <- (list_fmap_id L) in Hpre, Hd.
    destruct (next_split qhalted id _ _ _ _ _ _ _ _ Hd Hpre Hn) as (_ & Hpre' & k1 & Hd'). rewrite list_fmap_id in Hpre', Hd'. by exists L, k1.
Qed.

Section fam.
Context (I : vint).
Lemma qstart_some {B : mbase} {C : qbase} w q H Q x R ss : gok I w H → qok (hdrs (g_mm w)) q Q → (x, R) ∈ Q →
  is_Some (qiter_start q x ss).
Proof.
  intros Hk Hq Hx. pose proof (qk_fam _ _ _ Hq _ _ Hx) as Hf.
  pose proof (famok_vars _ _ _ _ (gok_hc I _ _ Hk) (gk_nodup _ _ _ Hk) Hf) as [_ Hpos].
  unfold qiter_start, zm_baseline. replace (existsb (λ v, v.2 =? 0) (zn_vars x)) with false; [rewrite andb_false_r; by eexists|].
  symmetry. apply not_true_iff_false. rewrite existsb_exists. intros (v & Hv & H0%Nat.eqb_eq).
  rewrite Forall_forall in Hpos. specialize (Hpos v ltac:(by apply elem_of_list_In)). cbn in Hpos. lia.
Qed.
Lemma start_qiok {B : mbase} {C : qbase} w q H Q x R ss q' it : gok I w H → qok (hdrs (g_mm w)) q Q → (x, R) ∈ Q →
  qiter_start q x ss = Some (q', it) → q' = q_clone q x ∧ qi_node it = x ∧ qiok (t_ar (q_z q)) (QRun it R []).
Proof.
  intros Hk Hq Hx. pose proof (qk_fam _ _ _ Hq _ _ Hx) as Hf. pose proof (qk_re _ _ _ Hq) as Hre.
  pose proof (famok_vars _ _ _ _ (gok_hc I _ _ Hk) (gk_nodup _ _ _ Hk) Hf) as Hok.
  pose proof (famok_cover _ _ _ _ (gk_lvl _ _ _ Hk) Hre (qk_hd _ _ _ Hq) Hf) as Hcov.
  unfold qiter_start. destruct (zm_baseline _ _) as [base|] eqn:Hb; [|done]. cbn [mbind option_bind]. intros [= <- <-]. sp; [done|done|].
  constructor; cbn [qr_it qr_fam qr_out qi_node qi_p qi_base qi_ss].
  - exact (zmg_wf _ _ (zmw_good _ (zm_reachable_wf _ Hre))).
  - apply Hf.
  - done.
  - intros id. cbn [mp_stack]. rewrite elem_of_list_singleton. intros [= ->]. constructor. by left.
  - intros R' ->. pose proof (fo_den _ _ _ _ Hf R' eq_refl) as Hden. pose proof (fo_val _ _ _ _ Hf) as Vx. destruct x as [f rv vars].
    cbn [zn_id zn_rev zn_vars] in *.
    destruct (zm_extract_l _ ss f rv vars Hre Vx Hok Hcov) as (Ls & k0 & _ & Hnd & _ & Hin & Hex & _).
    exists (map (report rv vars) Ls), k0. sp.
    + split; [done|]. cbn [zn_rev zn_vars]. intros M. change (map ?g ?l) with (g <$> l). rewrite elem_of_list_fmap. split.
      * intros (y & -> & (Hl & z & Hz & Hm)%Hin). exists y, z. sp; try done. by apply Hden.
      * intros (y & z & Hl & Hz & HR & ->). exists y. split; [done|]. apply Hin. split; [done|]. exists z. split; [done|]. by apply Hden.
    + apply prefix_nil.
    + specialize (Hex k0 (le_n _)). unfold zm_extract in Hex. cbn [zn_id zn_rev zn_vars] in Hex. rewrite Hb in Hex.
      cbn [mbind option_bind] in Hex. rewrite qcollect_drain in Hex. exact Hex.
Qed.

Definition qpins_of (snaps : list (arena vt)) (its : list qrun) : qbase := QBase (zip snaps ((λ r, zn_id (qi_node (qr_it r))) <$> its)).
Lemma qok_own ps hs x R q Q : @qok (QBase ps) hs q Q → (x, R) ∈ Q → @qok (QBase ((t_ar (q_z q), zn_id x) :: ps)) hs (q_clone q x) Q.
Proof.
  intros [Hre Hhd [l [Hl Hp]] Hfam Hb] Hx. constructor; cbn [q_clone q_pin q_z q_roots]; try done.
  - exists (zn_id x :: l). split; [by rewrite Hl|]. rewrite Hp. cbn. by rewrite Permutation_middle.
  - intros a0 y [Hy|Hy]%elem_of_cons; [|by apply Hb]. injection Hy as -> ->.
    eapply keeps_refl; [exact (zmg_wf _ _ (zmw_good _ (zm_reachable_wf _ Hre)))|]. intros r ->%elem_of_list_singleton. by apply (Hfam _ _ Hx).
Qed.
Lemma qok_disown ps1 a0 x ps2 hs q Q : @qok (QBase (ps1 ++ (a0, zn_id x) :: ps2)) hs q Q → @qok (QBase (ps1 ++ ps2)) hs (q_drop q x) Q.
Proof.
  intros [Hre Hhd [l [Hl Hp]] Hfam Hb]. constructor; cbn [q_drop q_z q_roots]; try done.
  - exists ((zn_id <$> Q.*1) ++ (ps1 ++ ps2).*2). split; [|done].
    rewrite Hl, (roots_perm l (zn_id x :: (zn_id <$> Q.*1) ++ (ps1 ++ ps2).*2)); [apply unpin_pin|].
    rewrite Hp. cbn [qb_pins]. rewrite !fmap_app. cbn. rewrite !app_assoc. by rewrite Permutation_middle.
  - intros a1 y Hy. apply Hb. cbn. apply elem_of_app in Hy as [Hy|Hy]; apply elem_of_app; [by left|right; by right].
Qed.
Lemma qpins_lookup snaps its i a0 r : snaps !! i = Some a0 → its !! i = Some r →
  (a0, zn_id (qi_node (qr_it r))) ∈ @qb_pins (qpins_of snaps its).
Proof.
  intros Ha Hr. cbn. apply elem_of_list_lookup. exists i. apply lookup_zip_with_Some.
  exists a0, (zn_id (qi_node (qr_it r))). by rewrite list_lookup_fmap, Hr.
Qed.
Definition qiters (hs : list header) (q : zmgr) (Q : families) (its : list qrun) : Prop :=
  ∃ snaps, @qok (qpins_of snaps its) hs q Q ∧ Forall2 qiok snaps its.
Lemma qiters_next hs q Q its i r k it' o : qiters hs q Q its → its !! i = Some r → qiter_next k q (qr_it r) = Some (it', o) →
  qiters hs q Q (<[i := QRun it' (qr_fam r) (yield (qr_out r) o)]> its).
Proof.
  intros (sn & Hk & Hf) Hi Hn. destruct (Forall2_lookup_r _ _ _ _ _ Hf Hi) as (a0 & Ha & Hb).
  assert (Hkp : keeps a0 [zn_id (qi_node (qr_it r))] (t_ar (q_z q))) by (eapply (qk_base _ _ _ Hk); by eapply qpins_lookup).
  destruct (next_qiok _ _ _ _ _ _ Hb Hkp Hn) as [Hid Hb']. exists sn. split.
  - replace (qpins_of sn (<[i:=QRun it' (qr_fam r) (yield (qr_out r) o)]> its)) with (qpins_of sn its); [done|].
    unfold qpins_of. do 2 f_equal. rewrite list_fmap_insert. cbn [qr_it]. rewrite list_insert_id; [done|].
    rewrite list_lookup_fmap, Hi. cbn. by rewrite Hid.
  - rewrite <- (list_insert_id sn i a0) by done. by apply Forall2_insert.
Qed.
Lemma qiters_stop hs q Q its1 r its2 : qiters hs q Q (its1 ++ r :: its2) → qiters hs (qiter_drop q (qr_it r)) Q (its1 ++ its2).
Proof.
  intros (sn & Hk & Hf). apply Forall2_app_inv_r in Hf as (s1 & s' & Hf1 & Hf2 & ->). apply Forall2_cons_inv_r in Hf2 as (a0 & s2 & Hb & Hf2 & ->).
  exists (s1 ++ s2). split; [|by apply Forall2_app].
  unfold qiter_drop, qpins_of in *. rewrite !fmap_app in Hk |- *. rewrite zip_with_app in Hk |- *
    by (rewrite fmap_length; by eapply Forall2_length). cbn in Hk. by eapply qok_disown.
Qed.
Lemma mss_iter_ok s H Q IG IQ : mss_iter I s H Q IG IQ →
  giters I (s_m s) H IG ∧ qiters (hdrs (g_mm (s_m s))) (s_z s) Q IQ.
Proof.
  induction 1 as [|s H Q IG IQ s' H' Q' _ [(sg & Hg & Fg) (sq & Hq & Fq)] Hs|w q H Q IG IQ x F ss w' it _ [Hg Hq] Hx He
    |s H Q IG IQ i r k it' o _ [Hg Hq] Hi Hn|w q H Q IG1 r IG2 IQ _ [Hg Hq]|w q H Q IG IQ x R ss q' it _ [Hg Hq] Hx He
    |s H Q IG IQ i r k it' o _ [Hg Hq] Hi Hn|w q H Q IG IQ1 r IQ2 _ [Hg Hq]]; cbn [s_m s_z] in *.
  - split; exists []; (split; [|constructor]); [apply gok_new|apply qok_new].
  - destruct (mss_step_ok I s H Q s' H' Q' Hg Hq Hs) as (Hg' & Hq' & _). split; [by exists sg|by exists sq].
  - destruct (giters_start I _ _ _ _ _ _ _ _ Hg Hx He) as [Hm Hg']. rewrite Hm. done.
  - split; [by eapply giters_next|done].
  - split; [by apply giters_stop|done].
  - split; [done|]. destruct Hg as (sg & Hg & Fg), Hq as (sq & Hq & Fq).
    destruct (start_qiok _ _ _ _ _ _ _ _ _ Hg Hq Hx He) as (-> & Hid & Hb). exists (t_ar (q_z q) :: sq).
    split; [|by constructor]. unfold qpins_of. cbn [fmap list_fmap zip zip_with qr_it]. rewrite Hid. by eapply qok_own.
  - split; [done|by eapply qiters_next].
  - split; [done|by apply qiters_stop].
Qed.

Lemma qiters_exact hs q Q its r R : qiters hs q Q its → r ∈ its → qr_fam r = Some R →
  vars_ok (zn_vars (qi_node (qr_it r))) ∧ ∃ L, qmembers (qi_node (qr_it r)) R (qi_ss (qr_it r)) L ∧ qr_out r `prefix_of` L ∧
    ∃ k0, ∀ k, k0 ≤ k → ∃ it', qiter_next k q (qr_it r) = Some (it', L !! length (qr_out r)).
Proof.
  intros (sn & Hk & Hf) [i Hi]%elem_of_list_lookup HR.
  destruct (Forall2_lookup_r _ _ _ _ _ Hf Hi) as (a0 & Ha & [Hw Hl Hv Hin HL]). split; [done|].
  destruct (HL R HR) as (L & k0 & HM & Hpre & Hdr).
  assert (Hkp : keeps a0 [zn_id (qi_node (qr_it r))] (t_ar (q_z q))) by (eapply (qk_base _ _ _ Hk); by eapply qpins_lookup).
  exists L. sp; [done|done|]. exists k0. intros k Hkk. unfold qiter_next. rewrite (qiter_next_kept a0) by done.
  rewrite <- (list_fmap_id L) in Hpre, Hdr. destruct (next_drain _ _ _ _ _ Hdr) as (s' & Hn & _).
  pose proof (next_mono qhalted _ k0 k _ _ Hkk Hn) as Hn'. destruct (next_split qhalted id _ _ _ _ _ _ _ _ Hdr Hpre Hn) as (Ho & _).
  rewrite Hn'. cbn [mbind option_bind]. rewrite Ho, list_fmap_id. by eexists.
Qed.
(** the members of a family of extremal vectors *)
Lemma qmembers_lists x phi ss L : vars_ok (zn_vars x) → qmembers x (extremal (zn_rev x) (zn_vars x) phi) ss L →
  NoDup L ∧ ∀ M, M ∈ L ↔ ∃ v, v ∈ ss ∧ lists (zn_rev x) (zn_vars x) phi v M.
Proof.
  intros Hok [Hnd HL]. split; [done|]. intros M. rewrite HL. split.
  - intros (y & v & Hl & Hv & HR & ->). exists v. split; [done|]. by apply lists_iff.
  - intros (v & Hv & e & He & ->). exists (olist (zn_vars x) (zn_rev x) e), v. sp.
    + apply olist_length.
    + done.
    + exists e. split; [done|]. intros l. apply olist_vec.
    + symmetry. apply olist_report. by apply ext_iff in He as [? _].
Qed.
Lemma mss_iter_families s H Q IG IQ p R : mss_iter I s H Q IG IQ → (p, Some R) ∈ Q →
  ∀ y z, zmember (t_ar (q_z (s_z s))) (zn_id p) y z ↔ R y z.
Proof. intros (_ & sq & Hq & _)%mss_iter_ok Hp. exact (fo_den _ _ _ _ (qk_fam _ _ _ Hq _ _ Hp) R eq_refl). Qed.
Lemma mss_iter_handles s H Q IG IQ x F : mss_iter I s H Q IG IQ → (x, Some F) ∈ H →
  ∀ e, mrange (g_mm (s_m s)) e → mvalue (g_mm (s_m s)) e x (F e).
Proof. intros ((sg & Hg & _) & _)%mss_iter_ok Hx. exact (proj2 (gk_held _ _ _ Hg _ _ Hx) F eq_refl). Qed.
Lemma mdd_iter_handles w H its x F : mdd_iter I w H its → (x, Some F) ∈ H →
  ∀ e, mrange (g_mm w) e → mvalue (g_mm w) e x (F e).
Proof. intros (sg & Hg & _)%mdd_iter_ok Hx. exact (proj2 (gk_held _ _ _ Hg _ _ Hx) F eq_refl). Qed.
Lemma mdd_iter_start w H its x F ss : mdd_iter I w H its → (x, F) ∈ H → is_Some (giter_start w x ss).
Proof. intros (sg & Hg & _)%mdd_iter_ok. by eapply gstart_some. Qed.
Lemma mss_iter_start s H Q IG IQ : mss_iter I s H Q IG IQ →
  (∀ x F ss, (x, F) ∈ H → is_Some (giter_start (s_m s) x ss)) ∧ ∀ p R ss, (p, R) ∈ Q → is_Some (qiter_start (s_z s) p ss).
Proof.
  intros ((sg & Hg & _) & sq & Hq & _)%mss_iter_ok. split; [intros x F ss; by eapply gstart_some|].
  intros p R ss. by eapply qstart_some.
Qed.
End fam.
