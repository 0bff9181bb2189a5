(** Bounds on diagram sizes: proofs. *)
From stdpp Require Import strings.
From Verif Require Import Prelude ComputeCache ComputeCacheProofs Arena Trees ArenaProofs ArenaMore Subdd Bdd BddProofs SpecBdd SpecBss BddMain BssAlg BssSize
  BssMgr SpecBssMgr BssMgrProofs BssMgrMain BssLook SpecSize.

(** one canonical diagram, operands given by lists that contain all their subdiagrams *)
Lemma comb_bound {T U} R E (a : arena T) (Φ : list (option U) → option T) (lr : list nat) r dr (ds : list (dd U)) (Ls : list (list (dd U))) :
  awf R a → (∀ l, 0 < E l) → (∀ d i, repr a d i → okdd E d) →
  (∀ d1 d2 i j, repr a d1 i → repr a d2 j → (∀ ρ, vok E ρ → eval ρ d1 = eval ρ d2) → d1 = d2) →
  repr a dr r → NoDup lr → (∀ x, x ∈ lr → reach a [r] x) →
  Forall (okdd E) ds → Forall2 (λ d l, ∀ s, sub s d → s ∈ l) ds Ls →
  (∀ ρ, vok E ρ → eval ρ dr = Φ (map (eval ρ) ds)) →
  length lr ≤ foldr (λ l n, length l * n) 1 Ls.
Proof.
  intros Hwf HE Hok Hcan Hr Hnd Hlr Hds HL Heq. rewrite <- choices_length.
  apply (count_inj (λ x ts, ∃ s, repr a s x ∧ ∀ ρ, vok E ρ → eval ρ s = Φ (map (eval ρ) ts))); [done| |].
  - intros x Hx%Hlr. assert (live a x) as Hl.
    { eapply (reach_live R); [done| |exact Hx]. intros ? ->%elem_of_list_singleton. by eapply repr_live. }
    destruct (repr_exists R _ _ Hwf Hl) as [s Hs]. pose proof (reach_sub R a Hwf dr r s x Hr Hx Hs) as Hsub.
    destruct (sub_comb E Φ HE (rank dr `max` max_list (map rank ds)) dr ds) with (s := s) as (ts & Hts & He); try done.
    + by eapply Hok.
    + lia.
    + apply Forall_forall. intros d Hd. rewrite Forall_forall in Hds. split; [by apply Hds|].
      assert (rank d ≤ max_list (map rank ds)); [|lia]. clear -Hd. induction ds as [|d' ds IH]; [by apply elem_of_nil in Hd|].
      cbn. apply elem_of_cons in Hd as [->|Hd]; [lia|]. specialize (IH Hd). lia.
    + exists ts. split; [|by exists s]. apply choices_elem. clear -Hts HL. revert ts Hts.
      induction HL as [|d l ds Ls Hl _ IH]; intros ts Hts; inversion Hts; subst; [constructor|]. constructor; auto.
  - intros x x' ts _ _ (s & Hs & He) (s' & Hs' & He'). assert (s = s') as <-.
    { eapply Hcan; try done. intros ρ Hv. by rewrite He, He'. }
    by eapply repr_inj.
Qed.

(** ** BDD *)
Lemma size_nodes m f : bwf m → bdd_valid m f → ∃ l s, bdd_node_size m f = Some s ∧ vertices s = N.of_nat (length l) ∧
  NoDup l ∧ ∀ x, x ∈ l ↔ reach (b_ar m) [f] x.
Proof.
  intros Hw Vf. pose proof (bw_good _ Hw) as Hgd. pose proof (gd_wf _ Hgd) as Hg. pose proof (gd_edges _ Hgd) as He.
  destruct (repr_exists _ _ _ Hg Vf) as [d Hd]. unfold bdd_node_size.
  destruct (node_count_spec Rb (ar_fuel (b_ar m)) (b_ar m) Hg He d f ∅ Hd) as (c' & l & Heq & Nd & Hl & Hc & Hid & Hcl);
    [by eapply a_fuel_enough|by intros ? ? ? ? ?%elem_of_empty|].
  rewrite Heq. cbn [mbind option_bind]. eexists l, _. split; [done|].
  assert (Hlr : ∀ x, x ∈ l ↔ reach (b_ar m) [f] x).
  { intros x. split; [intros Hx; apply (Hl x Hx)|]. intros Hx.
    assert (x ∈ c') as Hxc; [|apply Hc in Hxc as [?%elem_of_empty|?]; done].
    induction Hx as [r Hr|id h cs c _ IH Hnd Hin]; [by apply elem_of_list_singleton in Hr as ->|by eapply Hcl]. }
  sp; try done. unfold vertices. cbn.
  assert (Hall : ∀ x, x ∈ l → is_Some (ar_nodes (b_ar m) !! x)).
  { intros x Hx%Hlr. apply lookup_lt_is_Some. assert (live (b_ar m) x) as [? _]; [|done].
    eapply (reach_live Rb); [done| |exact Hx]. by intros ? ->%elem_of_list_singleton. }
  clear -Hall. induction l as [|x l IH]; [done|]. unfold nnt, ntm in *. rewrite !filter_cons.
  specialize (IH (λ y Hy, Hall y (elem_of_list_further _ _ _ Hy))). destruct (Hall x) as [nd Hx]; [by left|].
  unfold is_nt, is_term in *. destruct nd; (destruct (decide _) as [D|D]; destruct (decide _) as [D'|D']); rewrite Hx in *; try done; cbn [length] in *; lia.
Qed.

Lemma nodes_trees {T} R (a : arena T) f d l : awf R a → repr a d f → (∀ x, x ∈ l ↔ reach a [f] x) →
  ∃ L, length L = length l ∧ ∀ s, sub s d → s ∈ L.
Proof.
  intros Hwf Hd Hl. assert (∃ L, Forall2 (λ x s, repr a s x) l L) as [L HL].
  { assert (∀ x, x ∈ l → live a x) as Hlive.
    { intros x Hx%Hl. eapply (reach_live R); [done| |exact Hx]. intros ? ->%elem_of_list_singleton. by eapply repr_live. }
    clear Hl. induction l as [|x l IH]; [by exists []|]. destruct IH as [L HL]; [intros y Hy; apply Hlive; by right|].
    destruct (repr_exists R a x Hwf) as [s Hs]; [apply Hlive; by left|]. exists (s :: L). by constructor. }
  exists L. split; [symmetry; by eapply Forall2_length|]. intros s Hs.
  destruct (sub_reach a d f s Hd Hs) as (x & Hx%Hl & Hsx). apply elem_of_list_lookup in Hx as [k Hk].
  destruct (Forall2_lookup_l _ _ _ _ _ HL Hk) as (s' & Hs' & Hr'). rewrite (repr_fun _ _ _ _ Hsx Hr'). by eapply elem_of_list_lookup_2.
Qed.

Lemma canon_eval m d1 d2 i j : bwf m → bdd_levels_distinct m → repr (b_ar m) d1 i → repr (b_ar m) d2 j →
  (∀ ρ, vok E2 ρ → eval ρ d1 = eval ρ d2) → d1 = d2.
Proof. intros Hw Hd H1 H2 He. eapply canon_tree; try done. intros ρ Hv. unfold ev. by rewrite He. Qed.

(** trees of held handles evaluate to the functions *)
Lemma held_eval {B} w H f F d ρ : @wok B w H → denotes (w_bdd w) f F → repr (b_ar (w_bdd w)) d f → vok E2 ρ →
  ∀ e, (∀ l, l < length (ar_headers (b_ar (w_bdd w))) → rho_of (w_bdd w) e l = (ρ l =? 1)) → eval ρ d = Some (tvb (F e)).
Proof.
  intros Hk Hf Hd Hv e He. pose proof (wk_wf _ _ Hk) as Hw. pose proof (denotes_value w H f F e Hk Hf) as Vf.
  eapply val_ev in Vf; [|apply Hw|done]. pose proof (good_ok _ _ _ (bw_good _ Hw) Hd) as Ho. unfold ev in Vf.
  destruct (eval_total E2 ρ d Ho Hv) as [t Ht]. rewrite Ht. f_equal. rewrite <- Vf.
  rewrite (eval_agree E2 (asg (rho_of (w_bdd w) e)) ρ d Ho); [by rewrite Ht|].
  intros l Hl. unfold asg. rewrite He.
  { by destruct (vok_2 ρ l Hv) as [-> | ->]. }
  destruct d as [|hd ds]; cbn [rank] in Hl; [lia|]. apply repr_br in Hd as [_ (h & cs & _ & Hh & _)].
  pose proof (wk_lvl _ _ Hk _ _ Hh). apply lookup_lt_Some in Hh. lia.
Qed.

Definition obool (o : option tv) : bool := match o with Some TOne => true | _ => false end.
Lemma obool_tvb b : obool (Some (tvb b)) = b.
Proof. by destruct b. Qed.

Lemma held_comb w H (L : list (nat * nfun)) r R (op : list bool → bool) s ss : bss_held w H → (∀ x, x ∈ L → x ∈ H) → (r, R) ∈ H →
  (∀ e, R e = op ((λ x, x.2 e) <$> L)) → w_size w r = Some s → Forall2 (λ x s, w_size w x.1 = Some s) L ss →
  (vertices s ≤ foldr (λ s n, vertices s * n) 1 ss)%N.
Proof.
  intros Hh HL Hr HR Hs Hss. apply held_wok in Hh as Hk. pose proof (wk_wf _ _ Hk) as Hw. pose proof (bw_good _ Hw) as Hgd.
  pose proof (gd_wf _ Hgd) as Hwf. pose proof (levels_distinct _ _ Hk) as Hlv. set (a := b_ar (w_bdd w)) in *.
  assert (∃ ds Ls, Forall2 (λ x d, repr a d x.1) L ds ∧ Forall2 (λ d l, ∀ s, sub s d → s ∈ l) ds Ls ∧
    foldr (λ s n, vertices s * n)%N 1%N ss = N.of_nat (foldr (λ l n, length l * n) 1 Ls)) as (ds & Ls & Hds & HLs & Hprod).
  { clear HR. revert ss Hss. induction L as [|[f F] L IH]; intros ss Hss; inversion Hss as [|? s1 ? ss1 Hs1 Hss1]; subst; [by exists [], []|].
    destruct (IH (λ x Hx, HL x (elem_of_list_further _ _ _ Hx)) ss1 Hss1) as (ds & Ls & H1 & H2 & H3).
    assert (bdd_valid (w_bdd w) f) as Vf by (apply (wk_held _ _ Hk f F); apply HL; by left).
    destruct (valid_repr _ _ Hw Vf) as [d Hd]. destruct (size_nodes _ _ Hw Vf) as (l & s' & Hs' & Hv & _ & Hl).
    destruct (nodes_trees Rb a f d l Hwf Hd Hl) as (Lt & Hlen & HLt). exists (d :: ds), (Lt :: Ls). sp; [by constructor..|].
    cbn [foldr]. unfold w_size in Hs1. cbn [fst] in Hs1. rewrite Hs1 in Hs'. injection Hs' as <-. rewrite H3, Hv, Hlen. lia. }
  assert (bdd_valid (w_bdd w) r) as Vr by (apply (wk_held _ _ Hk r R); done).
  destruct (valid_repr _ _ Hw Vr) as [dr Hdr]. destruct (size_nodes _ _ Hw Vr) as (lr & s' & Hs' & Hv & Hnd & Hlr).
  unfold w_size in Hs. rewrite Hs in Hs'. injection Hs' as <-. rewrite Hv, Hprod.
  assert (length lr ≤ foldr (λ l n, length l * n) 1 Ls); [|lia].
  apply (comb_bound Rb E2 a (λ os, Some (tvb (op (obool <$> os)))) lr r dr ds Ls); try done.
  - unfold E2. lia.
  - intros d i. by apply good_ok.
  - intros d1 d2 i j. by apply canon_eval.
  - intros x. apply Hlr.
  - apply Forall_lookup. intros i d Hd. destruct (Forall2_lookup_r _ _ _ _ _ Hds Hd) as (x & _ & Hx). by eapply good_ok.
  - intros ρ Hvk. destruct (env_of_rho w H (λ l, ρ l =? 1) Hk) as [e He].
    rewrite (held_eval w H r R dr ρ Hk) with (e := e) by (try done; by apply Hk). do 2 f_equal. rewrite HR. f_equal.
    clear HLs Hprod HR Hss. induction Hds as [|[f F] d L ds Hd _ IH]; [done|]. rewrite map_cons, !fmap_cons. f_equal.
    + rewrite (held_eval w H f F d ρ Hk) with (e := e); try done; [by rewrite obool_tvb|]. apply Hk, HL. by left.
    + apply IH. intros x Hx. apply HL. by right.
Qed.

(** ** any other decision graph with the same order *)
Inductive gtree (hs : list header) (g : list vertex) : dd tv → nat → Prop :=
  | gt_answer i b : g !! i = Some (Answer b) → gtree hs g (Leaf (tvb b)) i
  | gt_test i hd lo hi d0 d1 : g !! i = Some (Test (h_label hd) lo hi) → hs !! h_level hd = Some hd →
      gtree hs g d0 lo → gtree hs g d1 hi → gtree hs g (Br hd [d0; d1]) i.
Lemma gtree_exists hs g : (∀ i hd, hs !! i = Some hd → h_level hd = i) → NoDup (h_label <$> hs) → graph_ordered (h_label <$> hs) g →
  ∀ k j, earlier (h_label <$> hs) g k j → ∃ d, gtree hs g d j ∧ okdd E2 d ∧ rank d ≤ k.
Proof.
  intros Hlv Hnd Hg. induction k as [k IH] using lt_wf_ind. intros j Hj. unfold earlier in Hj. destruct (g !! j) as [[b|y lo hi]|] eqn:E; [| |done].
  { exists (Leaf (tvb b)). sp; [by constructor|done|cbn; lia]. }
  destruct Hj as (l & Hl & Hy). destruct (Hg _ _ _ _ E) as (l' & Hy' & Hlo & Hhi). rewrite (NoDup_lookup _ _ _ _ Hnd Hy' Hy) in Hlo, Hhi. clear l' Hy'.
  rewrite list_lookup_fmap in Hy. destruct (hs !! l) as [hd|] eqn:Eh; [|done]. injection Hy as <-.
  destruct (IH l Hl lo Hlo) as (d0 & G0 & O0 & R0). destruct (IH l Hl hi Hhi) as (d1 & G1 & O1 & R1). pose proof (Hlv _ _ Eh) as Hhl.
  exists (Br hd [d0; d1]). sp.
  - eapply gt_test; try done. by rewrite Hhl.
  - apply okdd_br. split; [done|]. rewrite Hhl. repeat constructor; done.
  - cbn [rank]. lia.
Qed.
Lemma gtree_fun hs g d d' i : (∀ i hd, hs !! i = Some hd → h_level hd = i) → NoDup (h_label <$> hs) → gtree hs g d i → gtree hs g d' i → d = d'.
Proof.
  intros Hlv Hnd Hd. revert d'. induction Hd as [i b Hb|i hd lo hi d0 d1 Hi Hh _ IH0 _ IH1]; intros d' Hd'; inversion Hd' as [i' b' Hb'|i' hd' lo' hi' d0' d1' Hi' Hh' H0 H1]; subst;
    [congruence|congruence|congruence|].
  rewrite Hi in Hi'. injection Hi' as Hlab -> ->. rewrite (IH0 _ H0), (IH1 _ H1). f_equal.
  assert (h_level hd = h_level hd') as He; [|rewrite He in Hh; congruence].
  eapply NoDup_lookup; [exact Hnd|rewrite list_lookup_fmap, Hh; done|]. rewrite list_lookup_fmap, Hh'. cbn. by rewrite Hlab.
Qed.
Lemma gtree_sub hs g d s i : gtree hs g d i → sub s d → ∃ j, gtree hs g s j.
Proof.
  intros Hd Hs. revert i Hd. induction Hs as [|hd cs c Hc _ IH]; intros i Hd; [by exists i|].
  inversion Hd; subst. apply elem_of_cons in Hc as [->|Hc]; [by eapply IH|]. apply elem_of_list_singleton in Hc as ->. by eapply IH.
Qed.
Lemma gtree_eval hs g d i e b ρ : vok E2 ρ → (∀ l hd, hs !! l = Some hd → e (h_label hd) = (ρ l =? 1)) →
  gtree hs g d i → answer_of g e i b → eval ρ d = Some (tvb b).
Proof.
  intros Hv He Hd Ha. revert d Hd. induction Ha as [i b Hb|i x lo hi b Hi _ IH]; intros d Hd; inversion Hd as [i' b' Hb'|i' hd lo' hi' d0 d1 Hi' Hh H0 H1]; subst;
    [cbn; congruence|congruence|congruence|].
  rewrite Hi in Hi'. injection Hi' as -> -> ->. rewrite eval_br. pose proof (He _ _ Hh) as Hx. rewrite Hx in IH.
  destruct (vok_2 ρ (h_level hd) Hv) as [Hz|Hz]; rewrite Hz in *; cbn; by apply IH.
Qed.

Lemma held_minimal w H f F names g i s : bss_held w H → (f, F) ∈ H → w_varorder w = Some names → graph_ordered names g →
  (∀ e, answer_of g e i (F e)) → w_size w f = Some s → (vertices s ≤ N.of_nat (length g))%N.
Proof.
  intros Hh Hf Hn Hg Ha Hs. assert (i < length g) as Hi by (destruct (Ha (λ _, false)); by eapply lookup_lt_Some). apply held_wok in Hh as Hk. pose proof (wk_wf _ _ Hk) as Hw. pose proof (bw_good _ Hw) as Hgd.
  pose proof (gd_wf _ Hgd) as Hwf. pose proof (levels_distinct _ _ Hk) as Hlv. rewrite (varorder_ok w H Hk) in Hn. injection Hn as <-.
  set (a := b_ar (w_bdd w)) in *. set (hs := ar_headers a) in *. pose proof (wk_lvl _ _ Hk) as Hl. pose proof (wk_nodup _ _ Hk) as Hnd. fold a hs in Hl, Hnd.
  assert (Hall : ∀ j, j < length g → ∃ d, gtree hs g d j ∧ okdd E2 d).
  { intros j Hj. destruct (gtree_exists hs g Hl Hnd Hg (length hs) j) as (d & ? & ? & _); [|by exists d].
    unfold earlier. destruct (lookup_lt_is_Some_2 g j Hj) as [[b|x lo hi] E]; rewrite E; [done|].
    destruct (Hg _ _ _ _ E) as (k & Hx & _). exists k. split; [|done]. apply lookup_lt_Some in Hx. by rewrite fmap_length in Hx. }
  assert (∃ Lt, length Lt = length g ∧ ∀ j d, gtree hs g d j → d ∈ Lt) as (Lt & Hlen & HLt).
  { assert (∃ Lt, Forall2 (λ j d, gtree hs g d j) (seq 0 (length g)) Lt) as [Lt HLt].
    { assert (∀ j, j ∈ seq 0 (length g) → ∃ d, gtree hs g d j) as Hex.
      { intros j [_ Hj]%elem_of_seq. destruct (Hall j Hj) as (d & ? & _). by exists d. }
      revert Hex. generalize (seq 0 (length g)). induction l as [|j l IH]; intros Hex; [by exists []|]. destruct IH as [L HL]; [intros j' Hj'; apply Hex; by right|].
      destruct (Hex j) as [d Hd]; [by left|]. exists (d :: L). by constructor. }
    exists Lt. split; [by rewrite <- (Forall2_length _ _ _ HLt), seq_length|]. intros j d Hd.
    assert (j < length g) as Hj by (inversion Hd; by eapply lookup_lt_Some).
    destruct (Forall2_lookup_l _ _ _ j j HLt) as (d' & Hd' & Hg'); [rewrite lookup_seq_lt by done; done|].
    rewrite (gtree_fun hs g d d' j Hl Hnd Hd Hg'). by eapply elem_of_list_lookup_2. }
  assert (bdd_valid (w_bdd w) f) as Vf by (apply (wk_held _ _ Hk f F); done).
  destruct (valid_repr _ _ Hw Vf) as [df Hdf]. destruct (size_nodes _ _ Hw Vf) as (lf & s' & Hs' & Hv & Hndf & Hlf).
  unfold w_size in Hs. rewrite Hs in Hs'. injection Hs' as <-. rewrite Hv.
  assert (length lf ≤ length Lt * 1); [|lia]. destruct (Hall i Hi) as (dg & Hdg & Hog).
  apply (comb_bound Rb E2 a (λ os, match os with [o] => o | _ => None end) lf f df [dg] [Lt]); try done.
  - unfold E2. lia.
  - intros d j. by apply good_ok.
  - intros d1 d2 j j'. by apply canon_eval.
  - intros x. apply Hlf.
  - by constructor.
  - constructor; [|constructor]. intros t Ht. destruct (gtree_sub hs g dg t i Hdg Ht) as [j Hj]. by eapply HLt.
  - intros ρ Hvk. destruct (env_of_rho w H (λ l, ρ l =? 1) Hk) as [e He].
    rewrite (held_eval w H f F df ρ Hk) with (e := e) by (try done; by apply Hk). cbn [map]. symmetry.
    eapply gtree_eval; [done| |exact Hdg|apply Ha]. intros l hd Hh'. rewrite <- He by (by eapply lookup_lt_Some). unfold rho_of, lab. fold a hs. by rewrite Hh'.
Qed.

(** ** dual *)
Fixpoint mir (d : dd tv) : dd tv := match d with Leaf t => Leaf (knot t) | Br hd cs => Br hd (rev (map mir cs)) end.
Lemma mir_rank d : rank (mir d) = rank d.
Proof. by destruct d. Qed.
Lemma mir_ok d : okdd E2 d → okdd E2 (mir d).
Proof.
  induction d as [t|hd cs IH] using dd_ind'; [done|]. intros [Hl Hcs]%okdd_br. cbn [mir]. apply okdd_br. split; [by rewrite rev_length, map_length|].
  rewrite Forall_forall in *. intros c Hc%elem_of_list_In%in_rev%in_map_iff. destruct Hc as (c' & <- & Hc'%elem_of_list_In).
  rewrite mir_rank. destruct (Hcs _ Hc'). split; [done|]. by apply IH.
Qed.
Lemma mir_mir d : mir (mir d) = d.
Proof.
  induction d as [t|hd cs IH] using dd_ind'; [by destruct t|]. cbn [mir]. f_equal. rewrite map_rev, rev_involutive, map_map.
  rewrite <- (map_id cs) at 2. apply map_ext_in. intros c Hc%elem_of_list_In. rewrite Forall_forall in IH. by apply IH.
Qed.
Lemma mir_sub s d : sub s (mir d) → sub (mir s) d.
Proof.
  intros Hs. remember (mir d) as d' eqn:Hd. revert d Hd. induction Hs as [|hd cs c Hc _ IH]; intros d Hd.
  - subst. rewrite mir_mir. constructor.
  - destruct d as [t|hd' cs']; [done|]. cbn [mir] in Hd. injection Hd as -> ->.
    apply elem_of_list_In, in_rev, in_map_iff in Hc as (c' & <- & Hc'%elem_of_list_In). eapply sub_child; [done|by apply IH].
Qed.
Lemma mir_eval d ρ : okdd E2 d → vok E2 ρ → eval ρ (mir d) = knot <$> eval (λ l, 1 - ρ l) d.
Proof.
  induction d as [t|hd cs IH] using dd_ind'; [done|]. intros [Hl Hcs]%okdd_br Hv. cbn [mir]. rewrite !eval_br.
  destruct cs as [|c0 [|c1 [|]]]; try done. rewrite !Forall_cons in Hcs, IH. destruct IH as (I0 & I1 & _), Hcs as ([_ O0] & [_ O1] & _).
  cbn [map rev app]. destruct (vok_2 ρ (h_level hd) Hv) as [-> | ->]; cbn; auto.
Qed.
Lemma held_dual_le w H f F r R s s' : bss_held w H → (f, F) ∈ H → (r, R) ∈ H → (∀ e, R e = negb (F (λ x, negb (e x)))) →
  w_size w f = Some s → w_size w r = Some s' → (vertices s' ≤ vertices s)%N.
Proof.
  intros Hh Hf Hr HR Hs Hs'. apply held_wok in Hh as Hk. pose proof (wk_wf _ _ Hk) as Hw. pose proof (bw_good _ Hw) as Hgd.
  pose proof (gd_wf _ Hgd) as Hwf. pose proof (levels_distinct _ _ Hk) as Hlv. set (a := b_ar (w_bdd w)) in *.
  assert (bdd_valid (w_bdd w) f) as Vf by (apply (wk_held _ _ Hk f F); done).
  assert (bdd_valid (w_bdd w) r) as Vr by (apply (wk_held _ _ Hk r R); done).
  destruct (valid_repr _ _ Hw Vf) as [df Hdf]. destruct (size_nodes _ _ Hw Vf) as (lf & s1 & Hs1 & Hv & Hndf & Hlf).
  destruct (valid_repr _ _ Hw Vr) as [dr Hdr]. destruct (size_nodes _ _ Hw Vr) as (lr & s2 & Hs2 & Hv2 & Hndr & Hlr).
  unfold w_size in Hs, Hs'. rewrite Hs in Hs1. injection Hs1 as <-. rewrite Hs' in Hs2. injection Hs2 as <-. rewrite Hv, Hv2.
  destruct (nodes_trees Rb a f df lf Hwf Hdf Hlf) as (Lt & Hlen & HLt). pose proof (good_ok _ _ _ Hgd Hdf) as Hof.
  assert (length lr ≤ length (mir <$> Lt) * 1); [|rewrite fmap_length in *; lia].
  apply (comb_bound Rb E2 a (λ os, match os with [o] => o | _ => None end) lr r dr [mir df] [mir <$> Lt]); try done.
  - unfold E2. lia.
  - intros d j. by apply good_ok.
  - intros d1 d2 j j'. by apply canon_eval.
  - intros x. apply Hlr.
  - constructor; [|done]. by apply mir_ok.
  - constructor; [|constructor]. intros t Ht%mir_sub%HLt. apply elem_of_list_fmap. exists (mir t). by rewrite mir_mir.
  - intros ρ Hvk. destruct (env_of_rho w H (λ l, ρ l =? 1) Hk) as [e He]. cbn [map].
    rewrite (held_eval w H r R dr ρ Hk) with (e := e) by (try done; by apply Hk). rewrite mir_eval by done.
    rewrite (held_eval w H f F df (λ l, 1 - ρ l) Hk) with (e := λ x, negb (e x)); try done.
    + cbn. rewrite HR. by destruct (F _).
    + by apply Hk.
    + intros l. unfold E2. lia.
    + intros l Hl. specialize (He l Hl). unfold rho_of in *. rewrite He. by destruct (vok_2 ρ l Hvk) as [-> | ->].
Qed.
