(** Collections by MddMgr and ZmddMgr leave exactly what is held. *)
From Coq Require Import ZArith.
From stdpp Require Import strings.
From Verif Require Import Prelude ComputeCache Arena Bdd Mdd MtMdd MtMdd2 Zmdd ZmddAlg BssMgr MddMinsol MssConv MssMgr
  Trees ArenaProofs Keeps ArenaMore BddMain SpecBdd SpecMdd SpecZmdd SpecZmddAlg SpecBssMgr SpecMss NaryProofs MddProofs MddMain MtProofs MmProofs MmMain
  BssMgrProofs ZmddTrees ZmddProofs ZmddMain ZmddAlgProofs MssMgrProofs MssMgrVar MssRpn MssSolMgr MssFam SpecMCollect.

Lemma reach_same {T} (a a' : arena T) rs rs' id : ar_nodes a' = ar_nodes a → (∀ r, r ∈ rs ↔ r ∈ rs') →
  reach a rs id ↔ reach a' rs' id.
Proof.
  intros Hn Hr. split; induction 1 as [r Hi|? ? ? ? ? IH Hnn Hc].
  - constructor. by apply Hr.
  - eapply reach_step; [exact IH|by rewrite Hn|done].
  - constructor. by apply Hr.
  - eapply reach_step; [exact IH|by rewrite <- Hn|done].
Qed.
Lemma all_live {T} R (a : arena T) : awf R a → ∃ l, NoDup l ∧ (∀ id, id ∈ l ↔ live a id) ∧
  length l + length (ar_free a) = length (ar_nodes a).
Proof.
  intros Hw. set (l := filter (live a) (seq 0 (length (ar_nodes a)))).
  assert (Hin : ∀ id, id ∈ l ↔ live a id).
  { intros id. unfold l. rewrite elem_of_list_filter, elem_of_seq. split; [by intros [? _]|].
    intros Hl. split; [done|]. destruct Hl as [Hlt _]. lia. }
  assert (NoDup l) as Hnd by apply NoDup_filter, NoDup_seq.
  exists l. sp; try done. exact (free_count R a l Hw Hnd Hin).
Qed.

(** ** MddMgr *)
Section mdd.
Context (I : vint).
#[local] Existing Instance mbase0.

Lemma mm_all_live m : mmwf I m → ∃ l, NoDup l ∧ (∀ x, x ∈ l ↔ mm_valid m x) ∧ mm_live_node_count m = length l.
Proof.
  intros Hw. destruct (all_live Rn (var m)) as (lv & Nv & Iv & Cv); [apply (tw_good _ _ (mmw_v _ _ Hw))|].
  destruct (all_live Rn (bar m)) as (lb & Nb & Ib & Cb); [apply (mw_good _ (mmw_b _ _ Hw))|].
  exists ((NVal <$> lv) ++ (NBool <$> lb)). sp.
  - apply NoDup_app. sp.
    + apply NoDup_fmap_2; [|done]. by intros ? ? [= ->].
    + intros x (f & -> & _)%elem_of_list_fmap (g & Hg & _)%elem_of_list_fmap. done.
    + apply NoDup_fmap_2; [|done]. by intros ? ? [= ->].
  - intros x. rewrite elem_of_app, !elem_of_list_fmap. destruct x as [f|f]; cbn [mm_valid].
    + rewrite <- (Iv f : _ ↔ node_valid _ f). split; [intros [(y & [= ->] & ?)|(y & [=] & _)]; done|]. intros ?. left. by exists f.
    + rewrite <- (Ib f : _ ↔ node_valid _ f). split; [intros [(y & [=] & _)|(y & [= ->] & ?)]; done|]. intros ?. right. by exists f.
  - rewrite app_length, !fmap_length. unfold mm_live_node_count, mt_live_node_count, mdd_live_node_count, ar_live_count. lia.
Qed.
Lemma m_live_count m : mmwf I m → ∀ l, NoDup l → (∀ x, x ∈ l ↔ mm_valid m x) → mm_live_node_count m = length l.
Proof.
  intros Hw l Hnd Hin. destruct (mm_all_live m Hw) as (l' & Hnd' & Hin' & ->). apply Permutation_length, NoDup_Permutation; [done..|].
  intros x. by rewrite Hin, Hin'.
Qed.

Lemma m_gc_no_garbage w H roots m n t fl : gok I w H → mm_gc (g_mm w) roots = Some (m, n) →
  (∀ r, r ∈ roots ↔ r ∈ mroot_keys (g_roots w)) →
  mmwf I m ∧ m_no_garbage (MMgr m (g_roots w) t fl (g_vars w)) H.*1 ∧
  n.1 + n.2 + mm_live_node_count m = length (ar_nodes (var (g_mm w))) + length (ar_nodes (bar (g_mm w))).
Proof.
  intros Hk E Hroots. pose proof (gk_wf _ _ _ Hk) as Hw.
  destruct (mm_gc_ok I (g_mm w) roots Hw) as (m' & nv & nb & E' & Hw' & Hh & Nb & Nv & Lb & Lv & Sb & Sv & Fv & Fb).
  { intros f Hf%Hroots. by apply (gok_root_valid I w H (NVal f) Hk). }
  { intros f Hf%Hroots. by apply (gok_root_valid I w H (NBool f) Hk). }
  rewrite E in E'. injection E' as <- ->. split; [done|].
  assert (Hr : ∀ x, x ∈ roots ↔ x ∈ H.*1 ++ (map_to_list (g_vars w)).*2).
  { intros r. rewrite Hroots. destruct (gk_roots _ _ _ Hk) as (l & -> & Hp). rewrite mroot_keys_elem, Hp. cbn. by rewrite app_nil_r. }
  split.
  - intros [f|f]; cbn [mm_valid mm_reaches g_mm g_vars]; rewrite nreaches_reach.
    + rewrite (Lv f : node_valid _ f ↔ _). rewrite elem_of_list_singleton.
      rewrite (reach_same (var (g_mm w)) (var m) (vroots roots) (vroots (H.*1 ++ (map_to_list (g_vars w)).*2))); [|done|].
      * split; (intros [Hc|?]; [left|by right]).
        -- subst f. right. right. right. by left.
        -- unfold mm_zero, mm_one, mm_undet_value in Hc. set_solver.
      * intros r. rewrite <- !in_vroots. apply Hr.
    + rewrite (Lb f : node_valid _ f ↔ _).
      rewrite (reach_same (bar (g_mm w)) (bar m) (broots roots) (broots (H.*1 ++ (map_to_list (g_vars w)).*2))); [|done|].
      * split; (intros [Hc|?]; [left|by right]); unfold mm_zero, mm_one, mm_undet_value in *; set_solver.
      * intros r. rewrite <- !in_broots. apply Hr.
  - cbn [fst snd]. subst nv nb. unfold mm_live_node_count, mt_live_node_count, mdd_live_node_count, ar_live_count. rewrite Nb, Nv.
    destruct (all_live Rn (var m)) as (lv & _ & _ & Cv); [apply (tw_good _ _ (mmw_v _ _ Hw'))|].
    destruct (all_live Rn (bar m)) as (lb & _ & _ & Cb); [apply (mw_good _ (mmw_b _ _ Hw'))|]. rewrite Nv in Cv. rewrite Nb in Cb. lia.
Qed.

Lemma m_explicit_gc w H keep : gok I w H → Forall (λ f, f ∈ H.*1) keep →
  ∃ w' nv nb, g_gc w keep = Some (w', (nv, nb)) ∧ m_no_garbage w' H.*1 ∧ m_counts_live w' ∧
    nv + nb + mm_live_node_count (g_mm w') = length (ar_nodes (var (g_mm w))) + length (ar_nodes (bar (g_mm w))).
Proof.
  intros Hk Hkeep. destruct (g_gc_ok I w H Hk keep Hkeep) as (w' & [nv nb] & E & Hk' & _).
  exists w', nv, nb. split; [done|]. pose proof (m_live_count _ (gk_wf _ _ _ Hk')) as Hc.
  unfold g_gc in E. destruct (mm_gc _ _) as [[m n']|] eqn:Eg; [|done].
  cbn in E. injection E as <- ->.
  destruct (m_gc_no_garbage w H _ m (nv, nb) (g_thr w) (g_floor w) Hk Eg) as (_ & Hg & Hn); [|done].
  intros r. rewrite elem_of_app. split; [|by left]. intros [?|Hr]; [done|]. rewrite Forall_forall in Hkeep. apply Hkeep in Hr.
  destruct (gk_roots _ _ _ Hk) as (l & -> & Hp). rewrite mroot_keys_elem, Hp, elem_of_app. by left.
Qed.

Lemma m_op_bounded w H res w' r :
  (∀ t, match g_op (MMgr (g_mm w) (g_roots w) t (g_floor w) (g_vars w)) res with
        | Some (w1, r1) => gok I w1 ((r1, None) :: H) | None => True end) →
  g_op w res = Some (w', r) → m_bounded w w' (r :: H.*1).
Proof.
  intros Hall E. unfold g_op in E. destruct res as [[m r']|]; [|done]. cbn [mbind option_bind] in E.
  specialize (Hall (Datatypes.S (mm_live_node_count m))).
  unfold g_op, g_wrap, g_maybe_gc in Hall. cbn [mbind option_bind g_pin with_mm g_mm g_roots g_thr g_floor g_vars] in Hall.
  assert (mm_live_node_count m <? Datatypes.S (mm_live_node_count m) = true) as Hlt by (apply Nat.ltb_lt; lia).
  rewrite Hlt in Hall. cbn [mbind option_bind] in Hall.
  unfold g_wrap, g_maybe_gc in E. cbn [mbind option_bind g_pin with_mm g_mm g_roots g_thr g_floor g_vars] in E.
  destruct (_ <? g_thr w) eqn:Et.
  - cbn in E. injection E as <- <-. apply Nat.ltb_lt in Et. split; [done|]. by left.
  - destruct (mm_gc m _) as [[m' n]|] eqn:Eg; [|done]. cbn [mbind option_bind] in E. injection E as <- <-.
    destruct (m_gc_no_garbage _ _ _ m' n ((mm_live_node_count m' * 2) `max` g_floor w) (g_floor w) Hall Eg) as (Hw & Hg & _); [done|].
    destruct (mm_all_live m' Hw) as (l & Hnd & Hin & Hc).
    assert (0 < mm_live_node_count m').
    { rewrite Hc. assert (mm_zero ∈ l) as Hz; [|destruct l; [by apply elem_of_nil in Hz|cbn; lia]].
      apply Hin. apply (Hg mm_zero). left. by left. }
    split; cbn [g_mm g_thr]; [lia|]. right. split; [lia|]. exact Hg.
Qed.
Lemma g_wrap_op w x : g_wrap w x = g_op w (Some (g_mm w, x)).
Proof. by destruct w. Qed.
Lemma gok_forget w r (F : option mfn) H : gok I w ((r, F) :: H) → gok I w ((r, None) :: H).
Proof.
  intros [H1 H2 H3 H4 H5 H6 H7 H8 H9]. constructor; try done. intros x G [[= -> ->]|Hg]%elem_of_cons.
  - destruct (H8 r F) as [Hv _]; [by left|]. by split.
  - apply H8. by right.
Qed.
Lemma m_held_list (H : handles) xs : Forall (λ f, f ∈ H.*1) xs → ∃ L : handles, xs = L.*1 ∧ ∀ x, x ∈ L → x ∈ H.
Proof.
  induction 1 as [|f xs Hf _ (L & -> & HL)]; [by exists []; split; [|intros x ?%elem_of_nil]|].
  apply elem_of_list_fmap in Hf as ([f' F] & -> & Hf). exists ((f', F) :: L). split; [done|].
  intros x [->|Hx]%elem_of_cons; [done|by apply HL].
Qed.

Lemma m_call_bounded w H c w' r : gok I w H → Forall (λ f, f ∈ H.*1) (gcall_args c) →
  gcall_run I c w = Some (w', r) → m_bounded w w' (r :: H.*1).
Proof.
  intros Hk Ha.
  assert (Hp : ∀ t, gok I (MMgr (g_mm w) (g_roots w) t (g_floor w) (g_vars w)) H) by (intros t; by apply gok_params).
  destruct c as [b|z| | |f|o f g|c f g|l xs]; cbn [gcall_args gcall_run] in *.
  - unfold g_boolean. rewrite g_wrap_op. apply (m_op_bounded w H). intros t. rewrite <- (g_wrap_op (MMgr (g_mm w) (g_roots w) t (g_floor w) (g_vars w))).
    destruct (g_boolean_ok I _ _ (Hp t) b) as (w1 & E & Hk1 & _). unfold g_boolean in E. rewrite E. by eapply gok_forget.
  - apply (m_op_bounded w H). intros t.
    destruct (g_value_ok I _ _ (Hp t) z) as (w1 & r1 & E & Hk1 & _). unfold g_value in E. cbn [g_mm] in E. rewrite E. by eapply gok_forget.
  - unfold g_undet_value. rewrite g_wrap_op. apply (m_op_bounded w H). intros t. rewrite <- (g_wrap_op (MMgr (g_mm w) (g_roots w) t (g_floor w) (g_vars w))).
    destruct (g_undet_value_ok I _ _ (Hp t)) as (w1 & E & Hk1 & _). unfold g_undet_value in E. rewrite E. by eapply gok_forget.
  - unfold g_undet_boolean. rewrite g_wrap_op. apply (m_op_bounded w H). intros t. rewrite <- (g_wrap_op (MMgr (g_mm w) (g_roots w) t (g_floor w) (g_vars w))).
    destruct (g_undet_boolean_ok I _ _ (Hp t)) as (w1 & E & Hk1 & _). unfold g_undet_boolean in E. by rewrite E.
  - apply Forall_cons in Ha as [([f' F] & -> & Hf)%elem_of_list_fmap _]. apply (m_op_bounded w H). intros t.
    destruct (g_not_ok I _ _ (Hp t) f' F None Hf Logic.I) as (w1 & r1 & E & Hk1 & _). unfold g_not in E. cbn [g_mm fst] in *. by rewrite E.
  - apply Forall_cons in Ha as [([f' F] & -> & Hf)%elem_of_list_fmap Ha].
    apply Forall_cons in Ha as [([g' G] & -> & Hg)%elem_of_list_fmap _]. apply (m_op_bounded w H). intros t.
    pose proof (g_bin_ok I _ _ (Hp t) o f' F g' G Hf Hg) as Hb. unfold g_bin in Hb. cbn [g_mm fst] in *.
    destruct (g_op _ _) as [[w1 r1]|]; [|done]. by apply (Hb None).
  - apply Forall_cons in Ha as [([c' C] & -> & Hc)%elem_of_list_fmap Ha].
    apply Forall_cons in Ha as [([f' F] & -> & Hf)%elem_of_list_fmap Ha].
    apply Forall_cons in Ha as [([g' G] & -> & Hg)%elem_of_list_fmap _]. apply (m_op_bounded w H). intros t.
    pose proof (g_ite_ok I _ _ (Hp t) c' C f' F g' G None Hc Hf Hg Logic.I) as Hb. unfold g_ite in Hb. cbn [g_mm fst] in *.
    destruct (g_op _ _) as [[w1 r1]|]; [|done]. by destruct Hb.
  - destruct (m_held_list _ _ Ha) as (L & -> & HL).
    pose proof (λ t, g_list_ok I _ _ (Hp t) l L None HL Logic.I) as Hb.
    destruct l; cbn [g_list] in *.
    + apply (m_op_bounded w H). intros t. specialize (Hb t). unfold g_and_list in Hb. cbn [g_mm] in Hb. destruct (g_op _ _) as [[w1 r1]|]; [|done]. by destruct Hb.
    + apply (m_op_bounded w H). intros t. specialize (Hb t). unfold g_or_list in Hb. cbn [g_mm] in Hb. destruct (g_op _ _) as [[w1 r1]|]; [|done]. by destruct Hb.
    + unfold g_min_list, g_fold1 in *. destruct L.*1 as [|x xs]; [done|].
      apply (m_op_bounded w H). intros t. specialize (Hb t). cbn [g_mm] in Hb. destruct (g_op _ _) as [[w1 r1]|]; [|done]. by destruct Hb.
    + unfold g_max_list, g_fold1 in *. destruct L.*1 as [|x xs]; [done|].
      apply (m_op_bounded w H). intros t. specialize (Hb t). cbn [g_mm] in Hb. destruct (g_op _ _) as [[w1 r1]|]; [|done]. by destruct Hb.
Qed.
End mdd.

(** ** ZmddMgr *)
Section zmdd.
Context (I : vint).
#[local] Existing Instance mbase0.
#[local] Existing Instance qbase0.

Lemma q_live_count m : zm_reachable m → ∀ l, NoDup l → (∀ id, id ∈ l ↔ node_valid (t_ar m) id) → zm_live_node_count m = length l.
Proof.
  intros Hre l Hnd Hin. pose proof (free_count Rz (t_ar m) l (zmg_wf _ _ (zmw_good _ (zm_reachable_wf _ Hre))) Hnd Hin).
  unfold zm_live_node_count, mt_live_node_count, ar_live_count. lia.
Qed.
Lemma q_gc_no_garbage hs q Q z n t fl : qok hs q Q → zm_gc (q_z q) (root_keys (q_roots q)) = Some (z, n) →
  0 < zm_live_node_count z ∧ q_no_garbage (ZMgr z (q_roots q) t fl) Q.*1.
Proof.
  intros Hq E. pose proof (zm_reachable_wf _ (qk_re _ _ _ Hq)) as Hw.
  assert (Hr : ∀ r, r ∈ root_keys (q_roots q) ↔ r ∈ zn_id <$> Q.*1).
  { intros r. destruct (qk_roots _ _ _ Hq) as (l & -> & Hp). rewrite root_keys_elem, Hp. cbn. by rewrite app_nil_r. }
  destruct (zm_gc_ok (q_z q) (root_keys (q_roots q)) Hw) as (z' & n' & E' & Hw' & Hhd & Hns & Hl & Hsub & Hn).
  { intros r (x & -> & ([y R] & -> & Hy)%elem_of_list_fmap)%Hr%elem_of_list_fmap. by apply (qk_fam _ _ _ Hq _ _ Hy). }
  rewrite E in E'. injection E' as <- <-.
  assert (Hg : q_no_garbage (ZMgr z (q_roots q) t fl) Q.*1).
  { intros id. cbn [q_z]. rewrite nreaches_reach.
    rewrite <- (reach_same (t_ar (q_z q)) (t_ar z) (root_keys (q_roots q))); [|done|done]. rewrite <- elem_of_list_singleton. apply Hl. }
  split; [|done]. destruct (all_live Rz (t_ar z)) as (l & Hnd & Hin & Hc); [apply (zmw_good _ Hw')|].
  unfold zm_live_node_count, mt_live_node_count, ar_live_count.
  assert (zm_undet ∈ l) as Hz; [|destruct l; [by apply elem_of_nil in Hz|cbn in Hc; lia]].
  apply Hin. apply (Hg zm_undet). by left.
Qed.
Lemma q_wrap_bounded hs q q0 Q id rv vars q' r : q_thr q = q_thr q0 → q_floor q = q_floor q0 →
  (∀ t, match q_wrap (ZMgr (q_z q) (q_roots q) t (q_floor q)) id rv vars with
        | Some (q1, r1) => qok hs q1 ((r1, None) :: Q) | None => True end) →
  q_wrap q id rv vars = Some (q', r) → q_bounded q0 q' (r :: Q.*1).
Proof.
  intros Ht Hf Hall E. specialize (Hall (Datatypes.S (zm_live_node_count (q_z q)))).
  unfold q_wrap, q_maybe_gc in Hall, E. cbn [mbind option_bind q_pin q_z q_roots q_thr q_floor] in Hall, E.
  assert (zm_live_node_count (q_z q) <? Datatypes.S (zm_live_node_count (q_z q)) = true) as Hlt by (apply Nat.ltb_lt; lia).
  rewrite Hlt in Hall. cbn [mbind option_bind] in Hall.
  destruct (_ <? q_thr q) eqn:Et.
  - cbn in E. injection E as <- <-. apply Nat.ltb_lt in Et. split; [done|]. by left.
  - destruct (zm_gc _ _) as [[z n]|] eqn:Eg; [|done]. cbn [mbind option_bind] in E. injection E as <- <-.
    destruct (q_gc_no_garbage hs _ _ z n ((zm_live_node_count z * 2) `max` q_floor q) (q_floor q) Hall Eg) as (Hpos & Hg).
    split; cbn [q_z q_thr]; [lia|]. right. split; [lia|]. exact Hg.
Qed.
Lemma qok_forget hs q r R Q : qok hs q ((r, R) :: Q) → qok hs q ((r, None) :: Q).
Proof.
  intros [H1 H2 H3 H4 H5]. constructor; try done. intros x S [[= -> ->]|Hg]%elem_of_cons.
  - destruct (H4 r R) as [? ? ? _]; [by left|]. constructor; done.
  - apply H4. by right.
Qed.
Lemma q_call_bounded s H Q c s' r : gok I (s_m s) H → qok (hdrs (g_mm (s_m s))) (s_z s) Q → qcall_ok c H Q →
  qcall_run I c s = Some (s', Some r) → q_bounded (s_z s) (s_z s') (r :: Q.*1).
Proof.
  intros Hk Hq Hok E. destruct s as [w q]. cbn [s_m s_z] in *.
  assert (Hp : ∀ t, qok (hdrs (g_mm w)) (ZMgr (q_z q) (q_roots q) t (q_floor q)) Q) by (intros t; by apply qok_params).
  destruct c as [rv x|x y|x y]; cbn [qcall_ok qcall_run s_z s_m] in *.
  - destruct Hok as [F Hx]. pose proof (λ t, s_sol_ok I rv w _ H Q x F Hk (Hp t) Hx) as Hall.
    pose proof (s_sol_ok I rv w q H Q x F Hk Hq Hx) as Hme.
    destruct (g_varorder w) as [vars0|]; [|congruence]. clear Hme.
    rewrite s_sol_unfold in E.
    destruct (s_inner I rv (g_mm w) x) as [[m fake]|] eqn:E1; [|done]. cbn [mbind option_bind] in E.
    destruct (g_varorder (with_mm w m)) as [vars|] eqn:E2; [|done]. cbn [mbind option_bind] in E.
    destruct (eval_extreme m x rv) as [bl|] eqn:E3; [|done]. cbn [mbind option_bind] in E.
    destruct fake as [f|]; [|done]. unfold q_convert in E.
    destruct (to_zmdd m f (q_z q) rv) as [[z id]|] eqn:E4; [|done]. cbn [mbind option_bind] in E.
    destruct (zm_set_baseline z id bl) as [[z2 id2]|] eqn:E5; [|done]. cbn [mbind option_bind] in E.
    destruct (q_wrap (with_z q z2) id2 rv vars) as [[q1 r1]|] eqn:E6; [|done]. cbn [mbind option_bind] in E. injection E as <- <-.
    cbn [s_z]. eapply (q_wrap_bounded (hdrs (g_mm w)) (with_z q z2) q Q); [done|done| |exact E6].
    intros t. specialize (Hall t). destruct Hall as (w2 & q2 & r2 & Es & _ & _ & _ & Hr).
    rewrite s_sol_unfold, E1 in Es. cbn [mbind option_bind] in Es. rewrite E2 in Es. cbn [mbind option_bind] in Es. rewrite E3 in Es.
    cbn [mbind option_bind] in Es. unfold q_convert in Es. cbn [q_z] in Es. rewrite E4 in Es. cbn [mbind option_bind] in Es. rewrite E5 in Es.
    cbn [mbind option_bind] in Es. unfold with_z in Es |- *. cbn [q_z q_roots q_thr q_floor] in Es |- *.
    clear E6. destruct (q_wrap _ _ _ _) as [[q3 r3]|]; [|done]. cbn [mbind option_bind] in Es. injection Es as <- <- <-. destruct Hr as (_ & _ & _ & Hr). by apply Hr.
  - destruct Hok as [([x' R] & -> & Hx)%elem_of_list_fmap ([y' S] & -> & Hy)%elem_of_list_fmap]. cbn [fst] in *.
    pose proof (λ t, qok_bin _ _ Q false x' R y' S (Hp t) Hx Hy) as Hall. unfold q_intersect in *. cbn [q_z] in *.
    destruct (zm_intersect _ _ _) as [[z id]|]; [|done]. cbn [mbind option_bind] in *.
    destruct (q_wrap (with_z q z) _ _ _) as [[q1 r1]|] eqn:E6; [|done]. cbn [mbind option_bind] in E. injection E as <- <-.
    cbn [s_z]. eapply (q_wrap_bounded (hdrs (g_mm w)) (with_z q z) q Q); [done|done| |exact E6].
    intros t. destruct (Hall t) as (q2 & r2 & Es & _ & _ & Hr). unfold with_z in Es |- *. cbn [q_z q_roots q_thr q_floor] in Es |- *. rewrite Es. by eapply qok_forget.
  - destruct Hok as [([x' R] & -> & Hx)%elem_of_list_fmap ([y' S] & -> & Hy)%elem_of_list_fmap]. cbn [fst] in *.
    pose proof (λ t, qok_bin _ _ Q true x' R y' S (Hp t) Hx Hy) as Hall. unfold q_setdiff in *. cbn [q_z] in *.
    destruct (zm_setdiff _ _ _) as [[z id]|]; [|done]. cbn [mbind option_bind] in *.
    destruct (q_wrap (with_z q z) _ _ _) as [[q1 r1]|] eqn:E6; [|done]. cbn [mbind option_bind] in E. injection E as <- <-.
    cbn [s_z]. eapply (q_wrap_bounded (hdrs (g_mm w)) (with_z q z) q Q); [done|done| |exact E6].
    intros t. destruct (Hall t) as (q2 & r2 & Es & _ & _ & Hr). unfold with_z in Es |- *. cbn [q_z q_roots q_thr q_floor] in Es |- *. rewrite Es. by eapply qok_forget.
Qed.
End zmdd.
