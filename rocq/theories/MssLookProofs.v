(** What a multi-state handle's diagram shows of its function: variables occurring are variables the function needs. *)
From stdpp Require Import strings.
From Verif Require Import Prelude ComputeCache Arena Bdd Mdd MtMdd MtMdd2 Zmdd ZmddAlg BssMgr MddMinsol MssConv MssMgr MssAlg
  Trees ArenaProofs ArenaMore SpecBdd SpecMdd SpecZmdd SpecZmddAlg SpecBss SpecBssMgr SpecMss SpecMssAlg NaryProofs MddProofs MddMain MtProofs MmProofs MmMain
  BssSize MssTrees MssSolMain MssMgrProofs MssMgrVar MssRpn MssSolMgr MssAlgProofs MssMeas MssAlgMain MssLook SpecMssLook.

(** ** by level *)
Section level.
Context {T : Type} `{EqDecision T} (a : arena T) (Hwf : awf Rn a) (Hc : hcons (ar_headers a))
  (Hlv : ∀ i hd, ar_headers a !! i = Some hd → h_level hd = i).
Notation hs := (ar_headers a).
Notation E := (Ehs hs).
Implicit Types d : dd T.

Definition ndep d (l : nat) : Prop := ∃ ρ hd i j,
  hs !! l = Some hd ∧ vokh hs ρ ∧ i < h_edges hd ∧ j < h_edges hd ∧ eval (upd ρ l i) d ≠ eval (upd ρ l j) d.

Lemma ndistinct : levels_distinct a.
Proof.
  unfold levels_distinct. apply NoDup_alt. intros i j l. rewrite !list_lookup_fmap, !fmap_Some.
  intros (hd1 & H1 & ->) (hd2 & H2 & He). by rewrite (Hlv _ _ H1), (Hlv _ _ H2) in He.
Qed.

Lemma ndep_rank d id l : repr a d id → ndep d l → l < rank d.
Proof.
  intros Hr (ρ & hd & i & j & _ & _ & _ & _ & H). destruct (decide (l < rank d)); [done|]. destruct H.
  pose proof (repr_E a Hwf Hc _ _ Hr) as O. rewrite !(eval_upd E) by (done || lia). done.
Qed.

(** two different nodes are told apart by some assignment *)
Lemma ndiffer d1 d2 i j : repr a d1 i → repr a d2 j → i ≠ j → ∃ ρ, vokh hs ρ ∧ eval ρ d1 ≠ eval ρ d2.
Proof.
  intros H1 H2 Hne. pose proof (repr_E a Hwf Hc _ _ H1) as O1. pose proof (repr_E a Hwf Hc _ _ H2) as O2.
  set (n := rank d1 `max` rank d2). set (L := enum (λ _ : unit, Some true) E n (Leaf tt)).
  assert (HL : ∀ v, v ∈ L ↔ length v = n ∧ inE E v).
  { intros v. unfold L. rewrite elem_of_enum by (done || (cbn; lia)). split; [tauto|]. intros [? ?]. sp; [done|done|]. by exists tt. }
  destruct (decide (Exists (λ v, eval (vec v) d1 ≠ eval (vec v) d2) L)) as [He|Hn].
  { apply Exists_exists in He as (v & [_ Hin]%HL & Hv). exists (vec v). split; [|done].
    apply (vok_vokh hs (λ _, 0) (vec v) Hc). intros l. unfold vec. destruct (v !! l) as [k|] eqn:Hk; [by apply Hin|cbn; by apply Eof_pos]. }
  destruct Hne. apply (ncanon a); try done; [apply ndistinct|by eapply repr_live|by eapply repr_live|].
  intros ρ t Hρ Ht. rewrite (nval_eval a ρ d1 i t H1) in Ht. apply (nval_eval a ρ d2 j t H2). rewrite <- Ht.
  set (v := ρ <$> seq 0 n).
  assert (Hv : ∀ l, l < n → ρ l = vec v l).
  { intros l Hl. unfold vec, v. by rewrite list_lookup_fmap, lookup_seq_lt by done. }
  destruct (decide (n ≤ length hs)) as [Hnl|Hnl].
  2: { exfalso. pose proof (repr_rank a Hlv _ _ H1). pose proof (repr_rank a Hlv _ _ H2). lia. }
  rewrite (eval_agree E ρ (vec v) d1), (eval_agree E ρ (vec v) d2) by (done || (intros; apply Hv; lia)).
  destruct (decide (eval (vec v) d1 = eval (vec v) d2)) as [|Hx]; [done|]. destruct Hn. apply Exists_exists.
  exists v. split; [|done]. apply HL. unfold v. split; [by rewrite fmap_length, seq_length|].
  intros l k Hk. rewrite list_lookup_fmap in Hk. apply fmap_Some in Hk as (l' & Hl' & ->). apply lookup_seq in Hl' as [-> Hl'].
  cbn. destruct (lookup_lt_is_Some_2 hs l) as [hd Hh]; [lia|]. rewrite (Ehs_at hs l hd) by done.
  rewrite <- (Hlv _ _ Hh) at 1. apply Hρ. by eapply elem_of_list_lookup_2.
Qed.

Lemma repr_br_at hd ds id : repr a (Br hd ds) id → ∃ cs, ar_nodes a !! id = Some (NT (h_level hd) cs) ∧ hs !! h_level hd = Some hd ∧
  length cs = h_edges hd ∧ Forall2 (repr a) ds cs ∧ Rn cs.
Proof.
  intros Hr. pose proof (repr_live _ _ _ Hr) as Hl. apply repr_br in Hr as [_ (h & cs & Hn & Hh & Hf)].
  pose proof (Hlv _ _ Hh) as El. rewrite <- El in *. destruct (aw_nt _ _ Hwf _ _ _ Hl Hn) as (hd' & Hh' & Hlen & HR & _).
  rewrite El in Hh'. rewrite El in *. rewrite Hh in Hh'. injection Hh' as <-. exists cs. sp; try done.
Qed.
Lemma ndep_child hd ds i d l id : repr a (Br hd ds) id → ds !! i = Some d → ndep d l → ndep (Br hd ds) l.
Proof.
  intros Hr Hi Hdep. destruct (repr_br_at _ _ _ Hr) as (cs & Hn & Hh & Hlen & Hf & _).
  pose proof (repr_E a Hwf Hc _ _ Hr) as O. pose proof O as [_ Hk]%okdd_br. rewrite Forall_lookup in Hk. destruct (Hk _ _ Hi) as [Rd Od].
  destruct (list.Forall2_lookup_l _ _ _ _ _ Hf Hi) as (c & Hci & Hrc).
  pose proof (ndep_rank _ _ _ Hrc Hdep) as Hl. destruct Hdep as (ρ & hd' & p & q & Hh' & Hv & Hp & Hq & Hne).
  assert (Hie : i < h_edges hd) by (rewrite <- Hlen; by eapply lookup_lt_Some).
  exists (upd ρ (h_level hd) i), hd', p, q. sp; [done|by apply vokh_upd; [..|by eapply elem_of_list_lookup_2|]|done|done|].
  assert (Hev : ∀ k, eval (upd (upd ρ (h_level hd) i) l k) (Br hd ds) = eval (upd ρ l k) d).
  { intros k. rewrite eval_br, upd_other, upd_same, Hi by lia. cbn. apply (eval_agree E); [done|]. intros m Hm.
    unfold upd. repeat case_decide; try done; lia. }
  by rewrite !Hev.
Qed.
Lemma ndep_top hd ds id : repr a (Br hd ds) id → ndep (Br hd ds) (h_level hd).
Proof.
  intros Hr. destruct (repr_br_at _ _ _ Hr) as (cs & Hn & Hh & Hlen & Hf & HR).
  pose proof (repr_E a Hwf Hc _ _ Hr) as O. pose proof O as [_ Hk]%okdd_br. rewrite Forall_lookup in Hk.
  assert (∃ i j c c', cs !! i = Some c ∧ cs !! j = Some c' ∧ c ≠ c') as (i & j & c & c' & Hi & Hj & Hne).
  { destruct cs as [|c cs]; [by destruct HR; exists 0|]. destruct (decide (Forall (eq c) cs)) as [Ha|Ha].
    { destruct HR. exists c. by constructor. }
    apply not_Forall_Exists, Exists_exists in Ha; [|intros ?; apply _]. destruct Ha as (c' & [j Hj]%elem_of_list_lookup & Hne).
    by exists 0, (S j), c, c'. }
  destruct (list.Forall2_lookup_r _ _ _ _ _ Hf Hi) as (d & Hdi & Hd). destruct (list.Forall2_lookup_r _ _ _ _ _ Hf Hj) as (d' & Hdj & Hd').
  destruct (ndiffer d d' c c' Hd Hd' Hne) as (ρ & Hv & Hev).
  exists ρ, hd, i, j. sp; [done|done|rewrite <- Hlen; by eapply lookup_lt_Some|rewrite <- Hlen; by eapply lookup_lt_Some|].
  destruct (Hk _ _ Hdi) as [R1 O1]. destruct (Hk _ _ Hdj) as [R2 O2].
  rewrite !eval_br, !upd_same, Hdi, Hdj. cbn. by rewrite !(eval_upd E) by done.
Qed.

Lemma reach_consn id h cs c y : ar_nodes a !! id = Some (NT h cs) → c ∈ cs → reach a [c] y → reach a [id] y.
Proof.
  intros Hn Hin. induction 1 as [r Hr|x h' cs' c' _ IH Hx Hc'].
  - apply elem_of_list_singleton in Hr as ->. eapply reach_step; [constructor; by left|done|done].
  - eapply reach_step; [exact IH|done|done].
Qed.
(** a level the value depends on is the level of some node of the diagram *)
Lemma ndep_occurs d : ∀ id l, repr a d id → ndep d l →
  ∃ y cs hd, reach a [id] y ∧ ar_nodes a !! y = Some (NT l cs) ∧ hs !! l = Some hd.
Proof.
  induction d as [t|hd ds IH] using dd_ind'; intros id l Hr Hdep.
  { destruct Hdep as (ρ & hd & i & j & _ & _ & _ & _ & H). by destruct H. }
  destruct (repr_br_at _ _ _ Hr) as (cs & Hn & Hh & Hlen & Hf & HR).
  destruct (decide (h_level hd = l)) as [<-|Nl].
  { exists id, cs, hd. sp; try done. constructor. by left. }
  destruct Hdep as (ρ & hd' & i & j & Hh' & Hv & Hi & Hj & H). rewrite !eval_br, !upd_other in H by done.
  destruct (ds !! ρ (h_level hd)) as [d|] eqn:Hd; [|done]. cbn in H.
  destruct (list.Forall2_lookup_l _ _ _ _ _ Hf Hd) as (c & Hci & Hrc). rewrite Forall_lookup in IH.
  destruct (IH _ _ Hd c l Hrc) as (y & cs' & hd'' & Hy & ?); [by exists ρ, hd', i, j|].
  exists y, cs', hd''. split; [|done]. eapply reach_consn; [done|by eapply elem_of_list_lookup_2|done].
Qed.
(** ... and conversely *)
Lemma noccurs_dep d id y l cs : repr a d id → reach a [id] y → ar_nodes a !! y = Some (NT l cs) → ndep d l.
Proof.
  intros Hr Hy Hn.
  assert (Hup : ∃ dy, repr a dy y ∧ ∀ l, ndep dy l → ndep d l).
  { clear Hn. induction Hy as [r Hin|x h' cs' c _ IH Hx Hcc].
    - apply elem_of_list_singleton in Hin as ->. by exists d.
    - destruct IH as (dx & Hdx & Hup). destruct dx as [t|hdx ds].
      { apply repr_leaf in Hdx as [_ Hx']. congruence. }
      destruct (repr_br_at _ _ _ Hdx) as (cs2 & Hnx & Hh & _ & Hf & _). rewrite Hx in Hnx. injection Hnx as -> ->.
      apply elem_of_list_lookup in Hcc as [i Hi]. destruct (list.Forall2_lookup_r _ _ _ _ _ Hf Hi) as (dc & Hdi & Hdc).
      exists dc. split; [done|]. intros k Hk. apply Hup. by eapply ndep_child. }
  destruct Hup as (dy & Hdy & Hup). apply Hup. destruct dy as [t|hdy ds].
  { apply repr_leaf in Hdy as [_ Hx']. congruence. }
  destruct (repr_br_at _ _ _ Hdy) as (cs2 & Hny & _). rewrite Hn in Hny. injection Hny as -> ->. by eapply ndep_top.
Qed.
End level.

(** ** by name, on one half of a manager *)
Section gen.
Context (I : vint) {B : mbase} (w : mmgr) (H : handles) (Hk : gok I w H).
Local Notation vars := (declared w).
Definition lookok {T} (inj : T → option mval) (a : arena T) (f : nat) (F : mfn) : Prop :=
  awf Rn a ∧ ar_headers a = hdrs (g_mm w) ∧ (∀ t t' v, inj t = Some v → inj t' = Some v → t = t') ∧
  ∃ d, repr a d f ∧ ∀ e rho, states vars e → nagree (g_mm w) rho e → ∃ t, eval rho d = Some t ∧ inj t = Some (F e).

Lemma nagree_upd rho e l hd i : nagree (g_mm w) rho e → hdrs (g_mm w) !! l = Some hd →
  nagree (g_mm w) (upd rho l i) (menv_set e (h_label hd) i).
Proof.
  intros Ha Hl hd' Hin. unfold upd, menv_set. pose proof (gk_lvl _ _ _ Hk _ _ Hl) as El.
  apply elem_of_list_lookup in Hin as [l' Hl']. pose proof (gk_lvl _ _ _ Hk _ _ Hl') as El'.
  case_decide as H1; case_decide as H2; try done.
  - destruct H2. congruence.
  - destruct H1. rewrite El'. eapply NoDup_lookup; [apply (gk_nodup _ _ _ Hk)|rewrite list_lookup_fmap, Hl'; cbn; by rewrite H2|].
    by rewrite list_lookup_fmap, Hl.
  - apply Ha. by eapply elem_of_list_lookup_2.
Qed.
Lemma states_mrange e : states vars e ↔ mrange (g_mm w) e.
Proof. exact (states_iff (hdrs (g_mm w)) e). Qed.
Lemma decl_name l : vars.*1 !! l = h_label <$> hdrs (g_mm w) !! l.
Proof. unfold declared. rewrite <- list_fmap_compose, list_lookup_fmap. done. Qed.

Context {T : Type} `{EqDecision T} (inj : T → option mval) (a : arena T) (f : nat) (F : mfn) (Hh : lookok inj a f F).
Lemma look_hyps : awf Rn a ∧ hcons (ar_headers a) ∧ (∀ i hd, ar_headers a !! i = Some hd → h_level hd = i).
Proof. destruct Hh as (Hwf & -> & _). sp; [done|by eapply gok_hc|apply (gk_lvl _ _ _ Hk)]. Qed.

Lemma gen_ev d e e' rho rho' : repr a d f → states vars e → nagree (g_mm w) rho e → states vars e' → nagree (g_mm w) rho' e' →
  eval rho d = eval rho' d ↔ F e = F e'.
Proof.
  intros Hd He Ha He' Ha'. destruct Hh as (_ & _ & Hinj & d' & Hd' & HF). rewrite (repr_fun _ _ _ _ Hd' Hd) in HF.
  destruct (HF e rho He Ha) as (t & -> & Ht). destruct (HF e' rho' He' Ha') as (t' & -> & Ht'). split.
  - intros [= ->]. rewrite Ht in Ht'. by injection Ht'.
  - intros Heq. rewrite <- Heq in Ht'. by rewrite (Hinj _ _ _ Ht Ht').
Qed.
Lemma mneeds_dep d x : repr a d f → mneeds vars F x ↔ ∃ l, vars.*1 !! l = Some x ∧ ndep a d l.
Proof.
  intros Hd. destruct look_hyps as (Hwf & Hc & Hlv). assert (Hhs : ar_headers a = hdrs (g_mm w)) by apply Hh. split.
  - intros (e & i & j & Hi & Hj & Hne). pose proof (rho_agree (g_mm w) (menv_set e x i) (gk_lvl _ _ _ Hk)) as Ai.
    set (rho := rho_of (g_mm w) (menv_set e x i)) in *.
    destruct (decide (x ∈ h_label <$> hdrs (g_mm w))) as [Hx|Hx].
    + apply elem_of_list_lookup in Hx as [l Hl]. rewrite list_lookup_fmap in Hl. exists l. rewrite decl_name. split; [done|].
      apply fmap_Some in Hl as (hd & Hl & ->). pose proof (elem_of_list_lookup_2 _ _ _ Hl) as Hin.
      apply states_mrange in Hi as Ri. apply states_mrange in Hj as Rj.
      exists rho, hd, i, j. rewrite Hhs. sp; [done| | | |].
      * intros hd' Hin'. rewrite (Ai hd' Hin'). by apply Ri.
      * specialize (Ri _ Hin). unfold menv_set in Ri. by rewrite decide_True in Ri.
      * specialize (Rj _ Hin). unfold menv_set in Rj. by rewrite decide_True in Rj.
      * assert (Hset : ∀ k, nagree (g_mm w) (upd rho l k) (menv_set e (h_label hd) k)).
        { intros k hd' Hin'. rewrite (nagree_upd rho _ l hd k Ai Hl hd' Hin'). unfold menv_set. by case_decide. }
        by rewrite (gen_ev d _ _ _ _ Hd Hi (Hset i) Hj (Hset j)).
    + destruct Hne. apply (gen_ev d _ _ rho rho Hd Hi Ai Hj); [|done]. intros hd Hin. rewrite (Ai hd Hin). unfold menv_set.
      rewrite !decide_False; [done|..]; intros <-; apply Hx; by apply elem_of_list_fmap_1.
  - intros (l & Hl & ρ & hd & i & j & Hhd & Hv & Hi & Hj & Hne). rewrite decl_name in Hl. rewrite Hhs in Hhd. rewrite Hhd in Hl.
    injection Hl as <-. destruct (menv_of_rho _ ρ (gk_lvl _ _ _ Hk) (gk_nodup _ _ _ Hk)) as [e He].
    exists e, i, j. pose proof (nagree_upd ρ e l hd i He Hhd) as Ai. pose proof (nagree_upd ρ e l hd j He Hhd) as Aj.
    assert (∀ k, k < h_edges hd → states vars (menv_set e (h_label hd) k)) as Hst.
    { intros k Hkk. apply states_mrange, (mrange_rho _ _ _ (nagree_upd ρ e l hd k He Hhd)). unfold mm_range, in_range.
      rewrite Hhs in Hv. pose proof (gk_lvl _ _ _ Hk _ _ Hhd) as <-. apply vokh_upd; [by eapply gok_hc|done|by eapply elem_of_list_lookup_2|done]. }
    sp; [by apply Hst|by apply Hst|]. by rewrite <- (gen_ev d _ _ _ _ Hd (Hst i Hi) Ai (Hst j Hj) Aj).
Qed.

Lemma gen_occurs x : occurs_in a f x ↔ mneeds vars F x.
Proof.
  destruct look_hyps as (Hwf & Hc & Hlv). pose proof Hh as (_ & Hhs & _ & d & Hd & _). rewrite (mneeds_dep d x Hd). split.
  - intros (y & h & cs & hd & Hr & Hn & Hhd & <-). exists h. rewrite decl_name, <- Hhs, Hhd. split; [done|].
    eapply noccurs_dep; [done..|by apply nreaches_reach|done].
  - intros (l & Hl & Hdep). destruct (ndep_occurs a Hwf Hlv d f l Hd Hdep) as (y & cs & hd & Hy & Hn & Hhd).
    exists y, l, cs, hd. sp; [by apply nreaches_reach|done|done|]. rewrite decl_name, <- Hhs, Hhd in Hl. by injection Hl.
Qed.
Lemma gen_const t : ar_nodes a !! f = Some (Term t) → ∃ v, inj t = Some v ∧ always vars F v.
Proof.
  intros Hn. destruct Hh as (_ & _ & Hinj & d & Hd & HF). destruct d as [t'|hd ds].
  2: { apply repr_br in Hd as [_ (h & cs & Hn' & _)]. congruence. }
  apply repr_leaf in Hd as [_ Hn']. rewrite Hn in Hn'. injection Hn' as <-.
  assert (He0 : states vars (λ _, 0)).
  { apply states_mrange. intros hd Hin. destruct (gok_hc _ _ _ Hk) as [Hp _]. by apply Hp. }
  destruct (HF _ _ He0 (rho_agree (g_mm w) _ (gk_lvl _ _ _ Hk))) as (t0 & [= <-] & H0). eexists. split; [done|].
  intros e He. destruct (HF _ _ He (rho_agree (g_mm w) _ (gk_lvl _ _ _ Hk))) as (t1 & [= <-] & H1). rewrite H0 in H1. by injection H1.
Qed.
Lemma gen_node h cs : ar_nodes a !! f = Some (NT h cs) → ∃ hd, ar_headers a !! h = Some hd ∧ h_level hd = h ∧ length cs = h_edges hd ∧ Rn cs ∧
  node_fits a h cs ∧ mtop_var vars F h (h_label hd).
Proof.
  intros Hn. destruct look_hyps as (Hwf & Hc & Hlv). pose proof Hh as (_ & Hhs & _ & d & Hd & _). destruct d as [t'|hd ds].
  { apply repr_leaf in Hd as [_ Hn']. congruence. }
  destruct (repr_br_at a Hwf Hlv _ _ _ Hd) as (cs' & Hn' & Hhd & Hlen & Hf & HR). rewrite Hn in Hn'. injection Hn' as -> ->.
  exists hd. sp; [done|done|done|done| |].
  { unfold node_fits. rewrite Hhd. split; [done|]. apply Forall_lookup. intros i c Hi.
    destruct (list.Forall2_lookup_r _ _ _ _ _ Hf Hi) as (dc & Hdi & Hdc). split; [by eapply repr_live|].
    pose proof (repr_E a Hwf Hc _ _ Hd) as [_ Hrk]%okdd_br. rewrite Forall_lookup in Hrk. destruct (Hrk _ _ Hdi) as [Hr' _].
    unfold node_below. rewrite (a_node_level _ _ _ Hdc). destruct dc; cbn in *; [done|lia]. }
  unfold mtop_var. sp.
  - by rewrite decl_name, <- Hhs, Hhd.
  - apply (mneeds_dep _ _ Hd). exists (h_level hd). rewrite decl_name, <- Hhs, Hhd. split; [done|]. by eapply ndep_top.
  - intros l' y Hl' Hy. apply (mneeds_dep _ _ Hd) in Hy as (l & Hl & Hdl).
    assert (l = l') as ->.
    { rewrite decl_name in Hl, Hl'. eapply NoDup_lookup; [apply (gk_nodup _ _ _ Hk)|rewrite list_lookup_fmap; exact Hl|by rewrite list_lookup_fmap]. }
    apply (ndep_rank a Hwf Hc _ _ _ Hd) in Hdl. cbn in Hdl. lia.
Qed.
Lemma gen_live : is_Some (ar_nodes a !! f).
Proof.
  destruct Hh as (_ & _ & _ & d & Hd & _). destruct d as [t|hd ds]; [apply repr_leaf in Hd as [_ ->]; done|].
  apply repr_br in Hd as [_ (h & cs & -> & _)]. done.
Qed.
End gen.

(** ** both halves *)
Global Instance mval_eq_dec : EqDecision mval.
Proof. solve_decision. Defined.
Definition binj (t : tv) : option mval := match t with TZero => Some (VB false) | TOne => Some (VB true) | TUndet => None end.
Definition vinj (t : vt) : option mval := Some (VI t).
Lemma held_look I {B : mbase} w H x F : gok I w H → (x, Some F) ∈ H →
  match x with
  | NVal f => lookok w vinj (var (g_mm w)) f F
  | NBool f => lookok w binj (bar (g_mm w)) f F
  end.
Proof.
  intros Hk Hx. pose proof (gk_held _ _ _ Hk _ _ Hx) as [Hv Hd]. specialize (Hd F eq_refl). pose proof (gk_wf _ _ _ Hk) as Hw.
  assert (Hb : ∀ e, states (declared w) e → mrange (g_mm w) e) by (intros e He; exact (proj1 (states_iff (hdrs (g_mm w)) e) He)).
  destruct x as [f|f].
  - assert (Hwf : awf Rn (var (g_mm w))) by apply Hw. unfold lookok. sp; [done|apply (mmw_h _ _ Hw)|by intros t t' v [= <-] [= <-]|].
    destruct (nvalid_repr Rn (var (g_mm w)) f Hwf Hv) as [d Hr]. exists d. split; [done|]. intros e rho He Hrho.
    specialize (Hd e (Hb e He)). destruct (F e) as [b|t] eqn:HF; cbn [mvalue] in Hd; [done|]. exists t. split; [|done].
    apply (nval_eval (var (g_mm w)) rho d f t Hr). apply (named_level _ e); [|done]. by rewrite (mmw_h _ _ Hw).
  - assert (Hwf : awf Rn (bar (g_mm w))) by apply Hw. unfold lookok. sp; [done|done|by intros [] [] v; try done; intros [= <-]|].
    destruct (nvalid_repr Rn (bar (g_mm w)) f Hwf Hv) as [d Hr]. exists d. split; [done|]. intros e rho He Hrho.
    specialize (Hd e (Hb e He)). destruct (F e) as [b|t] eqn:HF; cbn [mvalue] in Hd; [|done]. exists (tvb b). split; [|by destruct b].
    apply (nval_eval (bar (g_mm w)) rho d f _ Hr). by apply (named_level _ e).
Qed.

Section held.
Context (I : vint) (w : mmgr) (H : handles) (x : mnode) (F : mfn) (Hm : mdd_held I w H) (Hx : (x, Some F) ∈ H).
Local Notation vars := (declared w).

Lemma held_occurs s : m_occurs w x s ↔ mneeds vars F s.
Proof.
  pose proof (held_gok I w H Hm) as Hk. pose proof (held_look I w H x F Hk Hx) as Hh.
  destruct x as [f|f]; exact (gen_occurs I w H Hk _ _ f F Hh s).
Qed.
Lemma held_mneeds s : mneeds vars F s → s ∈ vars.*1.
Proof.
  pose proof (held_gok I w H Hm) as Hk. pose proof (held_look I w H x F Hk Hx) as Hh.
  destruct x as [f|f]; pose proof Hh as (_ & _ & _ & d & Hd & _); intros (l & Hl & _)%(mneeds_dep I w H Hk _ _ f F Hh d s Hd); by eapply elem_of_list_lookup_2.
Qed.
Lemma some_states : states vars (λ _, 0).
Proof.
  pose proof (held_gok I w H Hm) as Hk. apply states_mrange. intros hd Hin. destruct (gok_hc _ _ _ Hk) as [Hp _]. by apply Hp.
Qed.
Lemma held_kind : (g_is_boolean x = true ↔ ∀ e, states vars e → ∃ b, F e = VB b) ∧
  (g_is_value x = true ↔ ∀ e, states vars e → ∃ t, F e = VI t) ∧ g_is_value x = negb (g_is_boolean x).
Proof.
  pose proof (held_gok I w H Hm) as Hk. pose proof (gk_held _ _ _ Hk _ _ Hx) as [Hv Hd]. specialize (Hd F eq_refl).
  assert (Hd' : ∀ e, states vars e → mvalue (g_mm w) e x (F e)) by (intros e He; by apply Hd, states_mrange). clear Hd.
  pose proof some_states as He0. destruct x as [f|f]; cbn.
  - sp; [|split; [|done]|done].
    + split; [done|]. intros Hb. destruct (Hb _ He0) as [b HF]. specialize (Hd' _ He0). rewrite HF in Hd'. done.
    + intros _ e He. specialize (Hd' e He). destruct (F e); [done|by eexists].
  - sp; [split; [|done]| |done].
    + intros _ e He. specialize (Hd' e He). destruct (F e); [by eexists|done].
    + split; [done|]. intros Hb. destruct (Hb _ He0) as [b HF]. specialize (Hd' _ He0). rewrite HF in Hd'. done.
Qed.

Lemma mtop_fun l s l' s' : mtop_var vars F l s → mtop_var vars F l' s' → l = l' ∧ s = s'.
Proof.
  intros (N1 & D1 & M1) (N2 & D2 & M2). assert (l = l') as <- by (apply Nat.le_antisymm; eauto). split; [done|congruence].
Qed.
Lemma mtop_nconst l s : mtop_var vars F l s → ¬ mconstant vars F.
Proof. intros (_ & (e & i & j & Hi & Hj & Hne) & _) Hc. by destruct Hne; apply Hc. Qed.
Lemma always_const v : always vars F v → mconstant vars F.
Proof. intros Ha e e' He He'. by rewrite !Ha. Qed.

(** a terminal with its constant value, or a node of the top variable *)
Lemma held_shape :
  (∃ v, always vars F v ∧ g_level w x = None ∧ g_label w x = None ∧ g_header w x = None ∧ g_children w x = Some (w, None) ∧
    g_is_zero w x = Some (bool_decide (v = VB false)) ∧ g_is_one w x = Some (bool_decide (v = VB true)) ∧ g_is_undet w x = Some false ∧
    g_const w x = Some (match v with VI (VVal z) => Some z | _ => None end)) ∨
  (∃ l s xs, mtop_var vars F l s ∧ g_level w x = Some l ∧ g_label w x = Some s ∧ g_header w x = Some l ∧
    g_children w x = Some (foldl g_pin w xs, Some xs) ∧ (¬ ∃ y, Forall (eq y) xs) ∧
    (∃ n, vars !! l = Some (s, n) ∧ length xs = n) ∧ mm_fits (g_mm w) l xs ∧
    g_is_zero w x = Some false ∧ g_is_one w x = Some false ∧ g_is_undet w x = Some false ∧ g_const w x = Some None).
Proof.
  pose proof (held_gok I w H Hm) as Hk. pose proof (held_look I w H x F Hk Hx) as Hh.
  unfold g_is_zero, g_is_one, g_is_undet, g_is, g_const, g_level, nlevel, ar_node_level, g_label, g_header, g_children.
  destruct x as [f|f].
  - destruct (gen_live w _ _ f F Hh) as [[t|h cs] Hn]; rewrite Hn; cbn [mbind option_bind].
    + left. destruct (gen_const I w H Hk _ _ f F Hh t Hn) as (v & [= <-] & Hal). exists (VI t). sp; done.
    + right. destruct (gen_node I w H Hk _ _ f F Hh h cs Hn) as (hd & Hhd & Hl & Hlen & HR & Hfits & Htop). rewrite Hhd. cbn.
      assert (Hhs : ar_headers (var (g_mm w)) = hdrs (g_mm w)) by apply Hh.
      exists h, (h_label hd), (NVal <$> cs). rewrite Hl. sp; try done.
      * intros [y Hy]. apply HR. rewrite Forall_fmap in Hy. destruct y as [y|y].
        -- exists y. eapply Forall_impl; [exact Hy|]. by intros z [= ->].
        -- destruct cs as [|c cs]; [by exists 0|]. apply Forall_cons in Hy as [[=] _].
      * exists (h_edges hd). split; [unfold declared; by rewrite list_lookup_fmap, <- Hhs, Hhd|by rewrite fmap_length].
      * left. split; [apply Forall_fmap, Forall_true; intros c; by exists c|]. change (map node_id (NVal <$> cs)) with (node_id <$> (NVal <$> cs)). by rewrite <- list_fmap_compose, list_fmap_id.
  - destruct (gen_live w _ _ f F Hh) as [[t|h cs] Hn]; rewrite Hn; cbn [mbind option_bind].
    + left. destruct (gen_const I w H Hk _ _ f F Hh t Hn) as (v & Hv & Hal). exists v. sp; try done; destruct t; try done; by injection Hv as <-.
    + right. destruct (gen_node I w H Hk _ _ f F Hh h cs Hn) as (hd & Hhd & Hl & Hlen & HR & Hfits & Htop). rewrite Hhd. cbn.
      exists h, (h_label hd), (NBool <$> cs). rewrite Hl. sp; try done.
      * intros [y Hy]. apply HR. rewrite Forall_fmap in Hy. destruct y as [y|y].
        -- destruct cs as [|c cs]; [by exists 0|]. apply Forall_cons in Hy as [[=] _].
        -- exists y. eapply Forall_impl; [exact Hy|]. by intros z [= ->].
      * exists (h_edges hd). split; [unfold declared; by rewrite list_lookup_fmap, Hhd|by rewrite fmap_length].
      * right. split; [apply Forall_fmap, Forall_true; intros c; by exists c|]. change (map node_id (NBool <$> cs)) with (node_id <$> (NBool <$> cs)). by rewrite <- list_fmap_compose, list_fmap_id.
Qed.

Lemma held_consts : ∃ z o, g_is_zero w x = Some z ∧ g_is_one w x = Some o ∧
  (z = true ↔ always vars F (VB false)) ∧ (o = true ↔ always vars F (VB true)) ∧
  ∃ v, g_const w x = Some v ∧ ∀ k, v = Some k ↔ always vars F (VI (VVal k)).
Proof.
  pose proof some_states as He0.
  destruct held_shape as [(v & Hal & _ & _ & _ & _ & Hz & Ho & _ & Hv)|(l & s & xs & Htop & _ & _ & _ & _ & _ & _ & _ & Hz & Ho & _ & Hv)];
    eexists _, _; rewrite Hz, Ho, Hv.
  - assert (Heq : ∀ v', v = v' ↔ always vars F v').
    { intros v'. split; [by intros <-|]. intros Ha. by rewrite <- (Hal _ He0), <- (Ha _ He0). }
    sp; [done|done|rewrite bool_decide_eq_true; apply Heq|rewrite bool_decide_eq_true; apply Heq|].
    eexists. split; [done|]. intros k. rewrite <- Heq. destruct v as [b|[|z]]; naive_solver.
  - assert (Hno : ∀ v', ¬ always vars F v') by (intros v' Ha%always_const; by eapply mtop_nconst).
    sp; [done|done|split; [done|intros []%Hno]|split; [done|intros []%Hno]|]. exists None. split; [done|]. intros k. split; [done|intros []%Hno].
Qed.
Lemma held_not_undet : g_is_undet w x = Some false.
Proof.
  by destruct held_shape as [(v & Hal & _ & _ & _ & _ & Hz & Ho & Hu & Hv)|(l & s & xs & Htop & _ & _ & _ & _ & _ & _ & _ & Hz & Ho & Hu & Hv)].
Qed.
Lemma held_mtop :
  (∀ l, g_level w x = Some l ↔ ∃ s, mtop_var vars F l s) ∧ (∀ s, g_label w x = Some s ↔ ∃ l, mtop_var vars F l s) ∧
  (g_level w x = None ↔ mconstant vars F) ∧ (g_label w x = None ↔ mconstant vars F) ∧ g_header w x = g_level w x.
Proof.
  destruct held_shape as [(v & Hal & -> & -> & -> & _)|(l & s & xs & Htop & -> & -> & -> & _)].
  - pose proof (always_const _ Hal) as Hc. assert (Hno : ∀ l s, ¬ mtop_var vars F l s) by (intros l s Ht; by apply (mtop_nconst _ _ Ht)).
    sp; [intros l; split; [done|intros [s []%Hno]]|intros s; split; [done|intros [l []%Hno]]|done|done|done].
  - pose proof (mtop_nconst _ _ Htop) as Hnc. sp; [| |done|done|done].
    + intros l'. split; [intros [= <-]; by exists s|]. intros [s' Ht]. f_equal. by eapply mtop_fun.
    + intros s'. split; [intros [= <-]; by exists l|]. intros [l' Ht]. f_equal. by eapply mtop_fun.
Qed.
Lemma held_mchildren :
  (mconstant vars F → g_children w x = Some (w, None)) ∧
  ∀ s, g_label w x = Some s → ∃ w' xs, g_children w x = Some (w', Some xs) ∧ (¬ ∃ y, Forall (eq y) xs) ∧
    (∃ n, (s, n) ∈ vars ∧ length xs = n) ∧
    mdd_held I w' (imap (λ i y, (y, Some (λ e, F (menv_set e s i)))) xs ++ H) ∧
    ∃ h w'', g_header w x = Some h ∧ g_create_node w' h xs = Some (w'', x).
Proof.
  pose proof (held_gok I w H Hm) as Hk.
  destruct held_shape as [(v & Hal & _ & Hlab & _ & Hch & _)|(l & s & xs & Htop & Hlev & Hlab & Hhdr & Hch & Hne & (n & Hn & Hlen) & Hfits & _)].
  { split; [done|]. intros s. by rewrite Hlab. }
  split; [intros Hc; by destruct (mtop_nconst _ _ Htop)|]. intros s'. rewrite Hlab. intros [= <-].
  set (w' := foldl g_pin w xs) in *. set (L := imap (λ i y, (y, Some (λ e, F (menv_set e s i)))) xs).
  assert (Hm' : mdd_held I w' (L ++ H)) by exact (dh_step I w H w' _ Hm (ds_children I w H x (Some F) s w' xs Hx Hlab Hch)).
  exists w', xs. sp; [done|done|exists n; split; [by eapply elem_of_list_lookup_2|done]|done|]. exists l.
  assert (Hmm : g_mm w' = g_mm w) by by eapply g_children_ok.
  unfold declared in Hn. rewrite list_lookup_fmap in Hn. apply fmap_Some in Hn as (hd & Hhd & [= -> ->]).
  pose proof (held_gok I w' _ Hm') as Hk'.
  set (Fs := (imap (λ i y, Some (λ e, F (menv_set e (h_label hd) i))) xs)).
  assert (Hin : Forall2 (λ y G, (y, G) ∈ L ++ H) xs Fs).
  { apply Forall2_same_length_lookup_2; [unfold Fs; by rewrite imap_length|]. intros i y G Hy HG. apply elem_of_app. left.
    unfold Fs in HG. rewrite list_lookup_imap, Hy in HG. injection HG as <-. unfold L. apply elem_of_lookup_imap. by exists i, y. }
  assert (Hpr : promised w' (λ e, G ← Fs !! e (h_label hd); at_env G e) (Some F)).
  { intros e He. rewrite Hmm in He. unfold Fs. rewrite list_lookup_imap.
    destruct (lookup_lt_is_Some_2 xs (e (h_label hd))) as [y Hy]; [rewrite Hlen; apply He; by eapply elem_of_list_lookup_2|].
    rewrite Hy. cbn. f_equal. apply states_mrange in He as Hs. pose proof (held_look I w H x F Hk Hx) as Hh.
    assert (Hs' : states vars (menv_set e (h_label hd) (e (h_label hd)))).
    { intros t m Htm. specialize (Hs t m Htm). unfold menv_set. case_decide as E; [by rewrite <- E|done]. }
    assert (Ha : nagree (g_mm w) (rho_of (g_mm w) e) (menv_set e (h_label hd) (e (h_label hd)))).
    { intros hd' Hin'. rewrite (rho_agree (g_mm w) e (gk_lvl _ _ _ Hk) hd' Hin'). unfold menv_set. case_decide as E; [by rewrite E|done]. }
    destruct x as [f|f]; pose proof Hh as (_ & _ & _ & d & Hd & _);
      by apply (gen_ev w _ _ f F Hh d _ _ _ _ Hd Hs' Ha Hs (rho_agree (g_mm w) e (gk_lvl _ _ _ Hk))). }
  assert (Hhd' : hdrs (g_mm w') !! l = Some hd) by by rewrite Hmm.
  assert (Hfits' : mm_fits (g_mm w') l xs) by by rewrite Hmm.
  destruct (g_node_ok I w' (L ++ H) Hk' l hd xs Fs (Some F) Hfits' Hin Hhd' Hpr) as (w'' & r & Hr & Hk'' & Hhs'').
  exists w''. split; [done|]. rewrite Hr. do 2 f_equal.
  assert (Dr : mden (g_mm w'') r (Some F)) by (apply (gk_held _ _ _ Hk''); by left).
  assert (Dx : mden (g_mm w'') x (Some F)) by (apply (gk_held _ _ _ Hk''); right; apply elem_of_app; by right).
  by apply (mden_eq I w'' _ r F x F Hk'' Dr Dx).
Qed.
End held.
