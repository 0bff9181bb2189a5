(** Queries on ZMDD families: proofs. *)
From stdpp Require Import strings sorting.
From Verif Require Import Prelude ComputeCache ComputeCacheProofs Arena Trees ArenaProofs Bdd ArenaMore Mdd MtMdd
  NaryProofs SpecMdd MddMain Zmdd ZmddTrees ZmddProofs SpecZmdd ZmddMain ZmddAlg SpecZmddAlg.

Lemma in_zs_spec ss z : in_zs ss z = true ↔ z ∈ ss.
Proof.
  unfold in_zs. rewrite existsb_exists. split.
  - intros (x & Hx & He). apply Z.eqb_eq in He as ->. by apply elem_of_list_In.
  - intros H. exists z. split; [by apply elem_of_list_In|apply Z.eqb_refl].
Qed.
Definition zhit (ss : list Z) (t : vt) : bool := match t with VVal z => in_zs ss z | VUndet => false end.

(** ** the members below [d] on top of the vector [x], in the order of enumeration *)
Fixpoint zvecs (ss : list Z) (d : dd vt) (x : list nat) : list (list nat) :=
  match d with
  | Leaf t => if zhit ss t then [x] else []
  | Br hd cs => (fix go (i : nat) (cs : list (dd vt)) := match cs with
                 | [] => []
                 | c :: cs => zvecs ss c (<[h_level hd := i]> x) ++ go (S i) cs end) 0 cs
  end.
Fixpoint zvecs_go (ss : list Z) (l : nat) (x : list nat) (i : nat) (cs : list (dd vt)) : list (list nat) :=
  match cs with
  | [] => []
  | c :: cs => zvecs ss c (<[l := i]> x) ++ zvecs_go ss l x (S i) cs
  end.
Lemma zvecs_br ss hd cs x : zvecs ss (Br hd cs) x = zvecs_go ss (h_level hd) x 0 cs.
Proof. cbn [zvecs]. generalize 0. induction cs as [|c cs IH]; intros i; [done|]. cbn [zvecs_go]. by rewrite IH. Qed.
Lemma zvecs_go_elem ss l x i cs y : y ∈ zvecs_go ss l x i cs ↔ ∃ j c, cs !! j = Some c ∧ y ∈ zvecs ss c (<[l := i + j]> x).
Proof.
  revert i. induction cs as [|c cs IH]; intros i; cbn [zvecs_go].
  - split; [by intros ?%elem_of_nil|]. by intros (j & c & ? & _).
  - rewrite elem_of_app, IH. split.
    + intros [H|(j & c' & Hj & H)].
      * exists 0, c. by rewrite Nat.add_0_r.
      * exists (S j), c'. by rewrite Nat.add_succ_r.
    + intros ([|j] & c' & Hj & H).
      * injection Hj as ->. left. by rewrite Nat.add_0_r in H.
      * right. exists j, c'. by rewrite Nat.add_succ_r in H.
Qed.
Lemma zvecs_length ss d : ∀ x x', length (zvecs ss d x) = length (zvecs ss d x').
Proof.
  induction d as [t|hd cs IH] using dd_ind'; intros x x'.
  - cbn. by destruct (zhit ss t).
  - rewrite !zvecs_br. generalize 0. induction IH as [|c cs Hc _ IHcs]; intros i; [done|].
    cbn [zvecs_go]. by rewrite !app_length, (Hc _ (<[h_level hd:=i]> x')), IHcs.
Qed.

(** the part of [y] below level [k] *)
Definition below (k : nat) (y : list nat) : nat → nat := λ l, if decide (l < k) then vec y l else 0.
Definition zero_below (k : nat) (x : list nat) : Prop := ∀ l, l < k → x !! l = Some 0.

Lemma zvecs_elem E ss d x y : okdd E d → zero_below (rank d) x →
  y ∈ zvecs ss d x ↔ length y = length x ∧ (∀ l, rank d ≤ l → y !! l = x !! l) ∧
    ∃ z, z ∈ ss ∧ zden d (below (rank d) y) z.
Proof.
  revert x y. induction d as [t|hd cs IH] using dd_ind'; intros x y Ho Hz.
  - cbn [zvecs rank]. split.
    + destruct t as [|z]; cbn; [by intros ?%elem_of_nil|]. destruct (in_zs ss z) eqn:Hh; [|by intros ?%elem_of_nil].
      intros ->%elem_of_list_singleton. sp; try done. exists z. split; [by apply in_zs_spec|].
      apply zden_leaf. split; [done|]. intros l. unfold below. by rewrite decide_False by lia.
    + intros (_ & Ha & z & Hin & Hd). assert (y = x) as -> by (apply list_eq; intros l; apply Ha; lia).
      destruct t as [|a]; [by apply zden_und in Hd|]. apply zden_leaf in Hd as [-> _]. cbn.
      rewrite (proj2 (in_zs_spec _ _) Hin). by left.
  - rewrite zvecs_br, zvecs_go_elem. apply okdd_br in Ho as [_ Hcs]. rewrite Forall_lookup in IH, Hcs.
    cbn [rank] in *. set (l0 := h_level hd) in *.
    assert (Hl0 : l0 < length x) by (apply lookup_lt_Some with 0, Hz; lia).
    assert (Hzc : ∀ i (c : dd vt), rank c ≤ l0 → zero_below (rank c) (<[l0 := i]> x)).
    { intros i c Hk l Hl. rewrite list_lookup_insert_ne by lia. apply Hz. lia. }
    assert (Hlow : ∀ (c : dd vt) i, rank c ≤ l0 → (∀ l, rank c ≤ l → y !! l = <[l0 := i]> x !! l) →
      zeq (upd (below (S l0) y) l0 0) (below (rank c) y) ∧ vec y l0 = i).
    { intros c i Hk Ha. split.
      - intros l. unfold upd, below. destruct (decide (l = l0)) as [->|Hne].
        + by rewrite decide_False by lia.
        + destruct (decide (l < rank c)); [by rewrite decide_True by lia|].
          destruct (decide (l < S l0)); [|done]. unfold vec. rewrite Ha by lia.
          rewrite list_lookup_insert_ne by done. rewrite Hz by lia. done.
      - unfold vec. rewrite Ha by lia. by rewrite list_lookup_insert. }
    split.
    + intros (j & c & Hj & Hy). cbn [Nat.add] in Hy. destruct (Hcs _ _ Hj) as [Hk Hoc].
      apply (IH _ _ Hj) in Hy as (Hlen & Ha & z & Hin & Hd); [|done|by apply Hzc].
      rewrite insert_length in Hlen. destruct (Hlow c j Hk Ha) as [Hq Hv]. sp; [done| |].
      * intros l Hl. rewrite Ha by lia. by rewrite list_lookup_insert_ne by lia.
      * exists z. split; [done|]. apply zden_br. fold l0. exists c. split.
        { unfold below. rewrite decide_True by lia. by rewrite Hv. }
        eapply zden_ext; [|exact Hd]. by apply zeq_sym.
    + intros (Hlen & Ha & z & Hin & Hd). apply zden_br in Hd as (c & Hc & Hd). fold l0 in Hc, Hd.
      destruct (Hcs _ _ Hc) as [Hk Hoc]. exists (below (S l0) y l0), c. split; [done|]. cbn [Nat.add].
      assert (Hb : below (S l0) y l0 = vec y l0) by (unfold below; by rewrite decide_True by lia).
      assert (Hyl : y !! l0 = Some (vec y l0)).
      { unfold vec. destruct (lookup_lt_is_Some_2 y l0) as [v Hv]; [lia|]. by rewrite Hv. }
      assert (Ha' : ∀ l, rank c ≤ l → y !! l = <[l0 := below (S l0) y l0]> x !! l).
      { intros l Hl. destruct (decide (l = l0)) as [->|Hne].
        - by rewrite list_lookup_insert, Hb.
        - rewrite list_lookup_insert_ne by done. destruct (decide (S l0 ≤ l)); [by apply Ha|].
          rewrite Hz by lia. pose proof (zden_low E c _ z l Hoc Hl Hd) as H0. rewrite upd_other in H0 by done.
          unfold below in H0. rewrite decide_True in H0 by lia. unfold vec in H0.
          destruct (lookup_lt_is_Some_2 y l) as [v Hv]; [lia|]. rewrite Hv in H0 |- *. cbn in H0. by subst. }
      apply (IH _ _ Hc); [done|by apply Hzc|]. rewrite insert_length. sp; [done|done|].
      exists z. split; [done|]. eapply zden_ext; [|exact Hd]. by apply (Hlow c _ Hk Ha').
Qed.

Lemma zvecs_NoDup E ss d x : okdd E d → zero_below (rank d) x → NoDup (zvecs ss d x).
Proof.
  revert x. induction d as [t|hd cs IH] using dd_ind'; intros x Ho Hz.
  - cbn. destruct (zhit ss t); [apply NoDup_singleton|constructor].
  - rewrite zvecs_br. apply okdd_br in Ho as [_ Hcs]. cbn [rank] in Hz.
    assert (Hl0 : h_level hd < length x) by (apply lookup_lt_Some with 0, Hz; lia).
    assert (Hzc : ∀ i (c : dd vt), rank c ≤ h_level hd → zero_below (rank c) (<[h_level hd := i]> x)).
    { intros i c Hk l Hl. rewrite list_lookup_insert_ne by lia. apply Hz. lia. }
    assert (Hat : ∀ i c y, rank c ≤ h_level hd ∧ okdd E c → y ∈ zvecs ss c (<[h_level hd := i]> x) → y !! h_level hd = Some i).
    { intros i c y [Hk Hoc] Hy. apply (zvecs_elem E) in Hy as (_ & Ha & _); [|done|by apply Hzc].
      rewrite Ha by done. by rewrite list_lookup_insert. }
    clear Hz Hl0. generalize 0. induction IH as [|c cs Hc _ IHcs]; intros i; [constructor|].
    apply Forall_cons in Hcs as [Hc1 Hcs]. cbn [zvecs_go]. apply NoDup_app. sp.
    + apply Hc; [apply Hc1|apply Hzc; apply Hc1].
    + intros y Hy Hy'. apply zvecs_go_elem in Hy' as (j & c' & Hj & Hy'). rewrite Forall_lookup in Hcs.
      pose proof (Hat _ _ _ (Hcs _ _ Hj) Hy') as He.
      rewrite (Hat _ _ _ Hc1 Hy) in He. injection He. lia.
    + by apply IHcs.
Qed.

(** ** count *)
Definition nzv ss (d : dd vt) : N := N.of_nat (length (zvecs ss d [])).
Lemma nzv_go ss l x i cs : N.of_nat (length (zvecs_go ss l x i cs)) = foldr N.add 0%N (nzv ss <$> cs).
Proof.
  revert i. induction cs as [|c cs IH]; intros i; [done|]. cbn [zvecs_go]. rewrite app_length, Nat2N.inj_add, IH.
  cbn. f_equal. unfold nzv. by rewrite (zvecs_length ss c _ []).
Qed.
Lemma foldl_add l a : foldl N.add a l = (a + foldr N.add 0 l)%N.
Proof. revert a. induction l as [|b l IH]; intros a; cbn; [lia|]. rewrite IH. lia. Qed.

Lemma zm_count_spec n (a : arena vt) ss : ∀ d id cache, repr a d id → okdd (Eof (ar_headers a) (λ _, 0)) d → rank d < n →
  (∀ i x, cache !! i = Some x → ∃ di, repr a di i ∧ x = nzv ss di) →
  ∃ cache', zm_count_f n a ss id cache = Some (cache', nzv ss d) ∧
    ∀ i x, cache' !! i = Some x → ∃ di, repr a di i ∧ x = nzv ss di.
Proof.
  induction n as [|n IH]; intros d id cache Hr Ho Hn Hc; [lia|]. cbn [zm_count_f].
  destruct (cache !! id) as [x|] eqn:Hhit.
  { destruct (Hc _ _ Hhit) as (di & Hdi & ->). rewrite (repr_fun _ _ _ _ Hr Hdi). by exists cache. }
  assert (Hins : ∀ cache1 : gmap nat N, (∀ i x, cache1 !! i = Some x → ∃ di, repr a di i ∧ x = nzv ss di) →
    ∀ i x, <[id := nzv ss d]> cache1 !! i = Some x → ∃ di, repr a di i ∧ x = nzv ss di).
  { intros c1 Hc1 i x. rewrite lookup_insert_Some. intros [[<- <-]|[_ H]]; [by exists d|eauto]. }
  destruct d as [t|hd ds].
  - apply repr_leaf in Hr as [Hl Hnd]. rewrite Hnd. cbn [mbind option_bind].
    destruct t as [|z]; cbn [mbind option_bind].
    + exists (<[id := nzv ss (Leaf VUndet)]> cache). split; [done|]. exact (Hins cache Hc).
    + assert (Hv : nzv ss (Leaf (VVal z)) = if in_zs ss z then 1%N else 0%N).
      { unfold nzv. cbn. by destruct (in_zs ss z). }
      rewrite <- Hv. eexists. split; [done|]. exact (Hins cache Hc).
  - pose proof Hr as Hr0. apply repr_br in Hr as [_ (h & cs & Hnd & Hh & Hf)]. rewrite Hnd. cbn [mbind option_bind].
    apply okdd_br in Ho as [_ Hcs]. cbn [rank] in Hn.
    assert (Hgo : ∀ ds cs cache, Forall2 (repr a) ds cs →
      Forall (λ c, rank c ≤ h_level hd ∧ okdd (Eof (ar_headers a) (λ _, 0)) c) ds →
      (∀ i x, cache !! i = Some x → ∃ di, repr a di i ∧ x = nzv ss di) →
      ∃ cache', mapst (λ cache e, zm_count_f n a ss e cache) cache cs = Some (cache', nzv ss <$> ds) ∧
        ∀ i x, cache' !! i = Some x → ∃ di, repr a di i ∧ x = nzv ss di).
    { clear -IH Hn. intros ds cs cache Hf. revert cache. induction Hf as [|d c ds cs Hd _ IHf]; intros cache Hk Hc.
      - by exists cache.
      - apply Forall_cons in Hk as [[Hk1 Hk2] Hk]. cbn [mapst].
        destruct (IH d c cache Hd Hk2) as (c1 & -> & Hc1); [lia|done|]. cbn [mbind option_bind].
        destruct (IHf c1 Hk Hc1) as (c2 & -> & Hc2). by exists c2. }
    destruct (Hgo ds cs cache Hf Hcs Hc) as (c2 & -> & Hc2). cbn [mbind option_bind].
    assert (Hv : foldl N.add 0%N (nzv ss <$> ds) = nzv ss (Br hd ds)).
    { unfold nzv at 2. by rewrite zvecs_br, nzv_go, foldl_add. }
    rewrite Hv. eexists. split; [done|]. exact (Hins c2 Hc2).
Qed.

(** ** reports *)
Implicit Types (rev : bool) (vars : list (string * nat)).
Lemma report_lookup rev (vars : list (string * nat)) x l s e i : NoDup (vars.*1) → vars !! l = Some (s, e) → x !! l = Some i →
  report rev vars x !! s = Some (if rev then e - 1 - i else i).
Proof.
  intros Hnd Hv Hx. unfold report. apply elem_of_list_to_map_1.
  - assert (Hz : ∀ vars (x : list nat), NoDup (vars.*1) →
      NoDup ((zip_with (λ v i, (v.1 : string, if rev then v.2 - 1 - i else i)) vars x).*1)); [|by apply Hz].
    clear. intros vars. induction vars as [|v vars IH]; intros [|i x] Hnd; cbn; try constructor.
    + apply NoDup_cons in Hnd as [Hn _]. intros Hin. apply Hn. clear -Hin. revert x Hin.
      induction vars as [|w vars IH]; intros [|j x]; cbn; try (by intros ?%elem_of_nil).
      rewrite !elem_of_cons. intros [->|H]; [by left|right; by eapply IH].
    + apply IH. by apply NoDup_cons in Hnd as [_ ?].
  - apply elem_of_list_lookup. exists l. rewrite lookup_zip_with, Hv. cbn. by rewrite Hx.
Qed.
Lemma report_dom rev vars x s : length x = length vars → s ∉ vars.*1 → report rev vars x !! s = None.
Proof.
  intros Hlen Hs. unfold report. apply not_elem_of_list_to_map_1. intros Hin. apply Hs. clear Hs.
  revert x Hlen Hin. induction vars as [|v vars IH]; intros [|i x] Hlen; try done. cbn.
  rewrite !elem_of_cons. intros [->|H]; [by left|right]. eapply IH; [|exact H]. by injection Hlen.
Qed.
Lemma report_eq rev (vars : list (string * nat)) x (M : gmap string nat) : NoDup (vars.*1) → length x = length vars →
  (∀ l s e i, vars !! l = Some (s, e) → x !! l = Some i → M !! s = Some (if rev then e - 1 - i else i)) →
  (∀ s, s ∉ vars.*1 → M !! s = None) → M = report rev vars x.
Proof.
  intros Hnd Hlen H1 H2. apply map_eq. intros s. destruct (decide (s ∈ vars.*1)) as [Hin|Hn].
  - apply elem_of_list_fmap in Hin as ([s' e] & -> & Hin). apply elem_of_list_lookup in Hin as [l Hl].
    destruct (lookup_lt_is_Some_2 x l) as [i Hi]; [rewrite Hlen; by eapply lookup_lt_Some|]. cbn.
    rewrite (H1 _ _ _ _ Hl Hi). symmetry. by eapply report_lookup.
  - rewrite H2 by done. symmetry. by apply report_dom.
Qed.
Lemma vars_name_inj (vars : list (string * nat)) l l' v v' : NoDup (vars.*1) → vars !! l = Some v → vars !! l' = Some v' → v.1 = v'.1 → l = l'.
Proof.
  intros Hnd Hl Hl' He. eapply NoDup_lookup; [exact Hnd| |]; rewrite list_lookup_fmap.
  - by rewrite Hl.
  - rewrite Hl'. cbn. by rewrite He.
Qed.
Lemma report_insert rev vars x l s e i : NoDup (vars.*1) → length x = length vars → vars !! l = Some (s, e) →
  <[s := if rev then e - 1 - i else i]> (report rev vars x) = report rev vars (<[l := i]> x).
Proof.
  intros Hnd Hlen Hv. apply report_eq; [done|by rewrite insert_length| |].
  - intros l' s' e' i' Hv' Hx'. destruct (decide (l = l')) as [<-|Hne].
    + rewrite Hv in Hv'. injection Hv' as <- <-. rewrite list_lookup_insert in Hx'.
      * injection Hx' as <-. by rewrite lookup_insert.
      * rewrite Hlen. by eapply lookup_lt_Some.
    + rewrite list_lookup_insert_ne in Hx' by done. rewrite lookup_insert_ne; [by eapply report_lookup|].
      intros ->. apply Hne. by eapply (vars_name_inj vars l l' (s', e) (s', e')).
  - intros s' Hs'. rewrite lookup_insert_ne; [by apply report_dom|]. intros ->. apply Hs'.
    apply elem_of_list_fmap. exists (s', e). split; [done|]. by eapply elem_of_list_lookup_2.
Qed.
Lemma zm_baseline_ok rev vars : vars_ok vars → zm_baseline rev vars = Some (report rev vars (replicate (length vars) 0)).
Proof.
  intros [Hnd Hp]. unfold zm_baseline.
  assert (existsb (λ v : string * nat, v.2 =? 0) vars = false) as ->.
  { apply not_true_is_false. intros H. apply existsb_exists in H as (v & Hin & Hv). apply elem_of_list_In in Hin.
    rewrite Forall_forall in Hp. specialize (Hp _ Hin). apply Nat.eqb_eq in Hv. lia. }
  rewrite andb_false_r. f_equal. apply report_eq; [done|by rewrite replicate_length| |].
  - intros l s e i Hv Hx. apply lookup_replicate in Hx as [-> _]. rewrite Nat.sub_0_r. clear Hp.
    assert (Hg : ∀ (M : gmap string nat) vars l, NoDup (vars.*1) →
      (vars !! l = Some (s, e) ∨ (M !! s = Some (if rev then e - 1 else 0) ∧ s ∉ vars.*1)) →
      foldl (λ M v, <[v.1:=if rev then v.2 - 1 else 0]> M) M vars !! s = Some (if rev then e - 1 else 0)).
    2:{ apply Hg with l; [done|by left]. }
    clear. intros M vars. revert M. induction vars as [|v vars IH]; intros M l Hnd H; cbn [foldl].
    + destruct H as [?|[? _]]; done.
    + apply NoDup_cons in Hnd as [Hn Hnd]. destruct l as [|l]; [|destruct H as [H|H]].
      * apply IH with 0; [done|]. destruct H as [[= ->]|[HM Hs]].
        -- right. split; [by rewrite lookup_insert|done].
        -- right. apply not_elem_of_cons in Hs as [Hs1 Hs2]. by rewrite lookup_insert_ne by done.
      * apply IH with l; [done|]. by left.
      * apply IH with 0; [done|]. right. destruct H as [HM Hs]. apply not_elem_of_cons in Hs as [Hs1 Hs2].
        by rewrite lookup_insert_ne by done.
  - intros s Hs. assert (Hg : ∀ (M : gmap string nat), M !! s = None →
      foldl (λ M v, <[v.1:=if rev then v.2 - 1 else 0]> M) M vars !! s = None); [|by apply Hg].
    clear -Hs. induction vars as [|v vars IH]; intros M HM; cbn [foldl]; [done|].
    apply not_elem_of_cons in Hs as [Hs1 Hs2]. apply IH; [done|]. by rewrite lookup_insert_ne.
Qed.

(** ** extract *)
Fixpoint tvars (vars : list (string * nat)) (d : dd vt) : Prop :=
  match d with
  | Leaf _ => True
  | Br hd cs => (vars !! h_level hd = Some (h_label hd, h_edges hd) ∧ length cs = h_edges hd) ∧
      (fix all cs := match cs with [] => True | c :: cs => tvars vars c ∧ all cs end) cs
  end.
Lemma tvars_br vars hd cs : tvars vars (Br hd cs) ↔
  (vars !! h_level hd = Some (h_label hd, h_edges hd) ∧ length cs = h_edges hd) ∧ Forall (tvars vars) cs.
Proof.
  cbn [tvars]. assert (∀ l, (fix all cs := match cs with [] => True | c :: cs => tvars vars c ∧ all cs end) l ↔
       Forall (tvars vars) l) as Hl.
  { induction l as [|c l IH]; [by split|]. rewrite Forall_cons, <- IH. done. }
  by rewrite Hl.
Qed.
Lemma cover_tvars R a vars f d : awf R a → hcons (ar_headers a) → vars_cover a vars f → repr a d f → tvars vars d.
Proof.
  intros Hwf Hhc Hc Hr. assert (Hg : ∀ id, node_reaches a [f] id → repr a d id → tvars vars d); [|apply (Hg f); [|done]].
  2:{ apply nreaches_reach. apply reach_root. by left. }
  clear Hr. induction d as [t|hd ds IH] using dd_ind'; intros id Hre Hr; [done|].
  pose proof (repr_okh _ _ _ _ Hwf Hhc Hr (λ _, 0)) as Ho. apply okdd_br in Ho as [Hlen _].
  apply repr_br in Hr as [_ (h & cs & Hn & Hh & Hf)]. apply tvars_br. split.
  { split; [by eapply Hc|]. rewrite Hlen. symmetry. apply Eof_edges; [done|]. by eapply elem_of_list_lookup_2. }
  rewrite Forall_lookup in IH |- *. intros i c Hi. destruct (Forall2_lookup_l _ _ _ _ _ Hf Hi) as (j & Hj & Hrj).
  apply (IH _ _ Hi j); [|done]. apply nreaches_reach. eapply reach_step; [by apply nreaches_reach|exact Hn|].
  by eapply elem_of_list_lookup_2.
Qed.

Lemma zmstep_collect k a rev base ss x st p p' out : zmpath_step a rev base ss (ZMPath (x :: st) p) = Some (p', out) →
  zmpath_collect (S k) a rev base ss (ZMPath (x :: st) p) =
  rest ← zmpath_collect k a rev base ss p'; Some (match out with Some x => x :: rest | None => rest end).
Proof. intros Hs. cbn [zmpath_collect mp_stack]. rewrite Hs. done. Qed.

Lemma zmpath_spec (a : arena vt) rev vars ss : NoDup (vars.*1) → hcons (ar_headers a) →
  let base := report rev vars (replicate (length vars) 0) in
  ∀ d id st x, repr a d id → okdd (Eof (ar_headers a) (λ _, 0)) d → tvars vars d → length x = length vars → zero_below (rank d) x →
  ∃ k, ∀ fuel, zmpath_collect (k + fuel) a rev base ss (ZMPath (MSNode id :: st) (report rev vars x)) =
    rest ← zmpath_collect fuel a rev base ss (ZMPath st (report rev vars x));
    Some ((report rev vars <$> zvecs ss d x) ++ rest).
Proof.
  intros Hnd Hhc base d. induction d as [t|hd ds IH] using dd_ind'; intros id st x Hr Ho Ht Hlen Hz.
  - apply repr_leaf in Hr as [_ Hnode]. exists 1. intros fuel. cbn [Nat.add].
    assert (Hs : zmpath_step a rev base ss (ZMPath (MSNode id :: st) (report rev vars x)) =
      Some (ZMPath st (report rev vars x), if zhit ss t then Some (report rev vars x) else None)).
    { unfold zmpath_step. cbn [mp_stack mp_path]. rewrite Hnode. cbn [mbind option_bind]. by destruct t. }
    rewrite (zmstep_collect _ _ _ _ _ _ _ _ _ _ Hs).
    destruct (zmpath_collect fuel _ _ _ _ _); [|done]. cbn [zvecs mbind option_bind]. by destruct (zhit ss t).
  - apply repr_br in Hr as [_ (h & cs & Hnode & Hh & Hf)]. apply okdd_br in Ho as [Hlc Hcs].
    apply tvars_br in Ht as [[Hv Hlc'] Ht]. cbn [rank] in Hz.
    pose proof (Eof_edges (ar_headers a) (λ _, 0) hd Hhc (elem_of_list_lookup_2 _ _ _ Hh)) as He.
    rewrite <- He in Hlc. pose proof (Forall2_length _ _ _ Hf) as Hlcs.
    assert (Hpos : 0 < h_edges hd) by (apply Hhc; by eapply elem_of_list_lookup_2).
    assert (Hl0 : h_level hd < length x) by (rewrite Hlen; by eapply lookup_lt_Some).
    assert (Hx0 : x !! h_level hd = Some 0) by (apply Hz; lia).
    assert (Hgo : ∀ ds cs i st, Forall2 (repr a) ds cs → i + length ds = h_edges hd →
      Forall (λ d, ∀ id st x, repr a d id → okdd (Eof (ar_headers a) (λ _, 0)) d → tvars vars d → length x = length vars → zero_below (rank d) x →
        ∃ k, ∀ fuel, zmpath_collect (k + fuel) a rev base ss (ZMPath (MSNode id :: st) (report rev vars x)) =
        rest ← zmpath_collect fuel a rev base ss (ZMPath st (report rev vars x));
        Some ((report rev vars <$> zvecs ss d x) ++ rest)) ds →
      Forall (λ c, rank c ≤ h_level hd ∧ okdd (Eof (ar_headers a) (λ _, 0)) c) ds → Forall (tvars vars) ds →
      ∃ k, ∀ fuel, zmpath_collect (k + fuel) a rev base ss
          (ZMPath (zm_push rev (h_label hd) (h_edges hd - 1) i cs ++ st) (report rev vars x)) =
        rest ← zmpath_collect fuel a rev base ss (ZMPath st (report rev vars x));
        Some ((report rev vars <$> zvecs_go ss (h_level hd) x i ds) ++ rest)).
    { clear Hf IH Hcs Ht Hlc Hlc' Hlcs Hnode ds cs st id. intros ds cs i st Hf. revert i.
      induction Hf as [|d c ds cs Hd _ IHf]; intros i Hlen' IH Hcs Ht.
      - exists 0. intros fuel. cbn. by destruct (zmpath_collect _ _ _ _ _ _).
      - apply Forall_cons in IH as [IHd IH]. apply Forall_cons in Hcs as [[Hk Ho] Hcs]. apply Forall_cons in Ht as [Htd Ht].
        cbn [length] in Hlen'. destruct (IHf (S i)) as [k2 Hk2]; [lia|done|done|done|].
        cbn [zm_push zvecs_go].
        assert (Hzc : zero_below (rank d) (<[h_level hd := i]> x)).
        { intros l Hl. rewrite list_lookup_insert_ne by lia. apply Hz. lia. }
        destruct i as [|i].
        + rewrite list_insert_id by done. rewrite list_insert_id in Hzc by done.
          destruct (IHd c (zm_push rev (h_label hd) (h_edges hd - 1) 1 cs ++ st) x Hd Ho Htd Hlen Hzc) as [k1 Hk1].
          exists (k1 + k2). intros fuel. rewrite <- Nat.add_assoc. cbn [app]. rewrite Hk1, Hk2.
          destruct (zmpath_collect fuel _ _ _ _ _) as [rest|]; [|done]. cbn [mbind option_bind].
          by rewrite fmap_app, <- app_assoc.
        + set (i' := S i) in *.
          destruct (IHd c (MSPop (h_label hd) :: zm_push rev (h_label hd) (h_edges hd - 1) (S i') cs ++ st)
            (<[h_level hd := i']> x) Hd Ho Htd) as [k1 Hk1]; [by rewrite insert_length|done|].
          exists (1 + (k1 + (1 + k2))). intros fuel.
          replace (1 + (k1 + (1 + k2)) + fuel) with (S (k1 + S (k2 + fuel))) by lia. cbn [app].
          rewrite (zmstep_collect _ _ _ _ _ _ _ _ (ZMPath (MSNode c :: MSPop (h_label hd) ::
            zm_push rev (h_label hd) (h_edges hd - 1) (S i') cs ++ st) (report rev vars (<[h_level hd := i']> x))) None).
          2:{ unfold zmpath_step. cbn [mp_stack mp_path]. by rewrite (report_insert rev vars x _ _ _ i' Hnd Hlen Hv). }
          rewrite Hk1.
          rewrite (zmstep_collect _ _ _ _ _ _ _ _ (ZMPath (zm_push rev (h_label hd) (h_edges hd - 1) (S i') cs ++ st) (report rev vars x)) None).
          2:{ unfold zmpath_step. cbn [mp_stack mp_path].
              assert (base !! h_label hd = Some (if rev then h_edges hd - 1 - 0 else 0)) as ->.
              { unfold base. eapply report_lookup; [done|exact Hv|]. apply lookup_replicate. split; [done|lia]. }
              rewrite (report_insert rev vars _ _ _ _ 0 Hnd) by (by rewrite ?insert_length).
              rewrite list_insert_insert. by rewrite list_insert_id. }
          rewrite Hk2. destruct (zmpath_collect fuel _ _ _ _ _) as [rest|]; [|done]. cbn [mbind option_bind].
          by rewrite fmap_app, <- app_assoc. }
    destruct (Hgo ds cs 0 st Hf) as [k Hk]; [done|done|done|done|].
    exists (S k). intros fuel. cbn [Nat.add]. destruct cs as [|c cs]; [cbn in Hlcs; lia|].
    rewrite (zmstep_collect _ _ _ _ _ _ _ _ (ZMPath (zm_push rev (h_label hd) (h_edges hd - 1) 0 (c :: cs) ++ st) (report rev vars x)) None).
    2:{ unfold zmpath_step. cbn [mp_stack mp_path]. rewrite Hnode. cbn [mbind option_bind]. rewrite Hh. cbn [mbind option_bind].
        rewrite <- Hlcs, Hlc. done. }
    rewrite Hk, zvecs_br. by destruct (zmpath_collect fuel _ _ _ _ _).
Qed.

(** ** labels *)
Lemma labels_mark (a : arena vt) k : ∀ lv st lv' seen out,
  ar_mark k (ar_nodes a) lv st = Some lv' → (∀ id, id ∈ seen ↔ marked lv id) →
  ∃ out', zm_labels_f k a seen st out = Some out' ∧ (∀ id, marked lv id → marked lv' id) ∧
    ∀ z, z ∈ out' ↔ z ∈ out ∨ ∃ id, marked lv' id ∧ ¬ marked lv id ∧ ar_nodes a !! id = Some (Term (VVal z)).
Proof.
  induction k as [|k IH]; intros lv st lv' seen out Hm Hs.
  { destruct st; [|done]. cbn in Hm. injection Hm as <-. exists out. cbn. sp; [done|done|]. intros z. naive_solver. }
  destruct st as [|id st]; cbn [ar_mark zm_labels_f] in *.
  { injection Hm as <-. exists out. sp; [done|done|]. intros z. naive_solver. }
  destruct (lv !! id) as [b|] eqn:Hb; [|done]. cbn [mbind option_bind] in Hm. destruct b.
  - rewrite decide_True by (by apply Hs). exact (IH _ _ _ _ _ Hm Hs).
  - assert (Hni : id ∉ seen) by (rewrite Hs; unfold marked; congruence).
    rewrite decide_False by done. destruct (ar_nodes a !! id) as [n|] eqn:Hn; [|done]. cbn [mbind option_bind] in Hm |- *.
    assert (Hmk : ∀ i, marked (<[id:=true]> lv) i ↔ marked lv i ∨ i = id).
    { intros i. unfold marked. destruct (decide (i = id)) as [->|Hne].
      - rewrite list_lookup_insert by (by eapply lookup_lt_Some). split; [by right|done].
      - rewrite list_lookup_insert_ne by done. split; [by left|]. by intros [?|?]. }
    assert (Hs' : ∀ i, i ∈ ({[id]} ∪ seen : gset nat) ↔ marked (<[id:=true]> lv) i).
    { intros i. rewrite Hmk, elem_of_union, elem_of_singleton, Hs. tauto. }
    assert (Hnm : ¬ marked lv id) by (unfold marked; congruence).
    assert (Hmono : (∀ i, marked (<[id:=true]> lv) i → marked lv' i) → ∀ i, marked lv i → marked lv' i).
    { intros H i Hi. apply H, Hmk. by left. }
    assert (Hfin : ∀ (out' out1 : list Z), (∀ i, marked (<[id:=true]> lv) i → marked lv' i) →
      (∀ z, z ∈ out1 ↔ z ∈ out ∨ n = Term (VVal z)) →
      (∀ z, z ∈ out' ↔ z ∈ out1 ∨ ∃ i, marked lv' i ∧ ¬ marked (<[id:=true]> lv) i ∧ ar_nodes a !! i = Some (Term (VVal z))) →
      ∀ z, z ∈ out' ↔ z ∈ out ∨ ∃ i, marked lv' i ∧ ¬ marked lv i ∧ ar_nodes a !! i = Some (Term (VVal z))).
    { intros out' out1 Hle H1 Ho z. rewrite Ho, H1. split.
      - intros [[?| ->]|(i & Hi & Hi' & Hz)]; [by left| |].
        + right. exists id. sp; [|done|done]. apply Hle, Hmk. by right.
        + right. exists i. sp; [done| |done]. intros ?. apply Hi', Hmk. by left.
      - intros [?|(i & Hi & Hi' & Hz)]; [by auto|]. destruct (decide (i = id)) as [->|Hne].
        + left. right. congruence.
        + right. exists i. sp; [done| |done]. rewrite Hmk. naive_solver. }
    destruct n as [[|z]|h cs]; cbn [node_children rev app] in Hm.
    + destruct (IH _ _ _ ({[id]} ∪ seen) out Hm Hs') as (out' & -> & Hle & Ho). exists out'. sp; [done|by apply Hmono|].
      apply (Hfin _ out); [done| |done]. intros z. naive_solver.
    + destruct (IH _ _ _ ({[id]} ∪ seen) (out ++ [z]) Hm Hs') as (out' & -> & Hle & Ho). exists out'. sp; [done|by apply Hmono|].
      apply (Hfin _ (out ++ [z])); [done| |done]. intros z'. rewrite elem_of_app, elem_of_list_singleton. naive_solver.
    + destruct (IH _ _ _ ({[id]} ∪ seen) out Hm Hs') as (out' & -> & Hle & Ho). exists out'. sp; [done|by apply Hmono|].
      apply (Hfin _ out); [done| |done]. intros z. naive_solver.
Qed.

Lemma dedup_elem l z : z ∈ dedup l ↔ z ∈ l.
Proof.
  induction l as [|x l IH]; [done|]. cbn [dedup]. destruct l as [|y l]; [done|].
  destruct (x =? y)%Z eqn:He.
  - apply Z.eqb_eq in He as ->. rewrite IH, !elem_of_cons. tauto.
  - rewrite elem_of_cons, IH. by rewrite (elem_of_cons (y :: l)).
Qed.
Lemma dedup_sorted l : StronglySorted Z.le l → StronglySorted Z.lt (dedup l).
Proof.
  induction l as [|x l IH]; intros Hs; [constructor|]. apply StronglySorted_inv in Hs as [Hs Hx]. cbn [dedup].
  destruct l as [|y l]; [repeat constructor|]. destruct (x =? y)%Z eqn:He; [by apply IH|].
  constructor; [by apply IH|]. apply Z.eqb_neq in He. apply Forall_forall. intros z Hz. rewrite dedup_elem in Hz.
  apply Forall_cons in Hx as [Hxy Hx]. apply StronglySorted_inv in Hs as [_ Hy]. rewrite Forall_forall in Hy.
  apply elem_of_cons in Hz as [->|Hz]; [lia|]. specialize (Hy _ Hz). lia.
Qed.

(** the labels of a family are those of the reachable terminals *)
Lemma zden_label m f d z : zmwf m → repr (t_ar m) d f →
  (∃ x, zden d x z) ↔ ∃ t, reach (t_ar m) [f] t ∧ ar_nodes (t_ar m) !! t = Some (Term (VVal z)).
Proof.
  intros Hw Hr. set (a := t_ar m) in *. split.
  - intros [x Hx]. assert (Hre : reach a [f] f) by (apply reach_root; by left). revert Hr Hre.
    generalize f at 1 3. induction Hx as [z x _|hd ds x c z Hc _ IH]; intros id Hr Hre.
    + apply repr_leaf in Hr as [_ Hn]. by exists id.
    + apply repr_br in Hr as [_ (h & cs & Hn & _ & Hf)]. destruct (Forall2_lookup_l _ _ _ _ _ Hf Hc) as (j & Hj & Hrj).
      apply (IH j Hrj). eapply reach_step; [exact Hre|exact Hn|by eapply elem_of_list_lookup_2].
  - intros (t & Hre & Ht).
    assert (Hg : ∀ dt x, repr a dt t → zden dt x z → ∃ x, zden d x z).
    { clear Ht. induction Hre as [r Hin|id h cs c Hre IH Hn Hin]; intros dt x Hrt Hx.
      - apply elem_of_list_singleton in Hin as ->. rewrite (repr_fun _ _ _ _ Hr Hrt). by exists x.
      - assert (Hl : live a id).
        { eapply reach_live; [apply Hw|..|exact Hre]. intros r ->%elem_of_list_singleton. by eapply repr_live. }
        destruct (repr_exists _ _ _ (zmg_wf _ _ (zmw_good _ Hw)) Hl) as [di Hdi].
        destruct di as [t'|hd ds]; [apply repr_leaf in Hdi as [_ Hn']; fold a in Hn'; congruence|].
        pose proof (zm_ok _ _ _ Hw Hdi) as Ho. apply okdd_br in Ho as [_ Hcs]. pose proof Hdi as Hdi0.
        apply repr_br in Hdi as [_ (h' & cs' & Hn' & _ & Hf)]. fold a in Hn'. rewrite Hn in Hn'. injection Hn' as <- <-.
        apply elem_of_list_lookup in Hin as [j Hj]. destruct (Forall2_lookup_r _ _ _ _ _ Hf Hj) as (dc & Hdc & Hrc).
        rewrite (repr_fun _ _ _ _ Hrt Hrc) in Hx. rewrite Forall_lookup in Hcs. destruct (Hcs _ _ Hdc) as [Hk Ho].
        apply (IH (Br hd ds) (upd x (h_level hd) j) Hdi0). apply zden_br. exists dc. rewrite upd_same. split; [done|].
        eapply zden_ext; [|exact Hx]. intros l. rewrite (upd_upd x (h_level hd) j 0 l).
        revert l. apply zeq_sym, upd_0. by eapply zden_low. }
    assert (Hl : live a t).
    { eapply reach_live; [apply Hw|..|exact Hre]. intros r ->%elem_of_list_singleton. by eapply repr_live. }
    apply (Hg (Leaf (VVal z)) (λ _, 0)); [|by constructor]. apply repr_leaf. done.
Qed.

Lemma zm_labels_l m f : zm_reachable m → node_valid (t_ar m) f →
  ∃ L, zm_labels m f = Some L ∧ StronglySorted Z.lt L ∧ ∀ z, z ∈ L ↔ ∃ x, zmember (t_ar m) f x z.
Proof.
  intros Hre Vf. pose proof (zm_reachable_wf _ Hre) as Hw. pose proof (zmg_wf _ _ (zmw_good _ Hw)) as Hwf.
  destruct (nvalid_repr _ _ _ Hwf Vf) as [d Hd]. unfold zm_labels. set (a := t_ar m) in *.
  assert (Hlt : ∀ id, reach a [f] id → id < length (ar_nodes a)).
  { intros id Hr. assert (Hl : live a id).
    { eapply reach_live; [exact Hwf|..|exact Hr]. intros r ->%elem_of_list_singleton. by eapply repr_live. }
    apply live_lookup in Hl as [n Hn]. by eapply lookup_lt_Some. }
  destruct (mark_spec a [f] (λ _, False) (ar_mark_fuel (ar_nodes a) [f]) (replicate (length (ar_nodes a)) false) [f])
    as (lv' & Hm & _ & Hmk).
  - by rewrite replicate_length.
  - done.
  - intros id Hin. by apply reach_root.
  - intros id Hi. apply lookup_replicate in Hi as [? _]. done.
  - done.
  - intros id h cs c Hi. apply lookup_replicate in Hi as [? _]. done.
  - intros r Hin. by right.
  - unfold ar_mark_fuel. apply Nat.add_le_mono_l, todo_le.
  - destruct (labels_mark a _ _ _ _ ∅ [] Hm) as (out & -> & _ & Ho).
    { intros id. split; [by intros ?%elem_of_empty|]. intros Hi. by apply lookup_replicate in Hi as [? _]. }
    cbn [mbind option_bind]. eexists. split; [done|]. split.
    + apply dedup_sorted. apply Sorted_StronglySorted; [intros ???; lia|]. apply Sorted_merge_sort. intros x y. lia.
    + intros z. rewrite dedup_elem. rewrite (elem_of_Permutation_proper z _ _ (merge_sort_Permutation Z.le out)), Ho.
      split.
      * intros [?%elem_of_nil|(id & Hi & _ & Hn)]; [done|]. apply Hmk in Hi as [?|Hi]; [done|].
        destruct (proj2 (zden_label m f d z Hw Hd)) as [x Hx]; [by exists id|]. exists x. by apply (zmem_zden a d f x z Hd).
      * intros [x Hx]. right. apply (zmem_zden a d f x z Hd) in Hx.
        destruct (proj1 (zden_label m f d z Hw Hd)) as (id & Hr & Hn); [by exists x|]. exists id. sp; [|..|done].
        -- apply Hmk. by right.
        -- intros Hi. by apply lookup_replicate in Hi as [? _].
Qed.

(** ** final forms *)
Lemma zden_range E d x z l : okdd E d → zden d x z → x l = 0 ∨ x l < E l.
Proof.
  intros Ho H. revert Ho. induction H as [z x H|hd cs x c z Hc _ IH]; intros Ho; [left; apply H|].
  apply okdd_br in Ho as [Hlen Hcs]. destruct (decide (l = h_level hd)) as [->|Hne].
  - right. rewrite <- Hlen. by eapply lookup_lt_Some.
  - rewrite Forall_lookup in Hcs. destruct (IH (proj2 (Hcs _ _ Hc))) as [H|H]; rewrite upd_other in H by done; auto.
Qed.
(** components in range of the listed variables *)
Definition fits (vars : list (string * nat)) (y : list nat) : Prop :=
  Forall2 (λ v i, i < v.2) vars y.

Lemma report_inj rev vars y y' : NoDup (vars.*1) → fits vars y → fits vars y' →
  report rev vars y = report rev vars y' → y = y'.
Proof.
  intros Hnd Hy Hy' He. apply list_eq. intros l.
  destruct (decide (l < length vars)) as [Hl|Hl].
  - destruct (lookup_lt_is_Some_2 vars l Hl) as [[s e] Hv].
    destruct (Forall2_lookup_l _ _ _ _ _ Hy Hv) as (i & Hi & Hie). destruct (Forall2_lookup_l _ _ _ _ _ Hy' Hv) as (i' & Hi' & Hie').
    pose proof (report_lookup rev _ _ _ _ _ _ Hnd Hv Hi) as H1. pose proof (report_lookup rev _ _ _ _ _ _ Hnd Hv Hi') as H2.
    rewrite He, H2 in H1. injection H1 as H1. rewrite Hi, Hi'. cbn in Hie, Hie'. f_equal. destruct rev; lia.
  - rewrite !lookup_ge_None_2; [done|..].
    + rewrite <- (Forall2_length _ _ _ Hy'). lia.
    + rewrite <- (Forall2_length _ _ _ Hy). lia.
Qed.

Lemma NoDup_reports rev vars ls : NoDup (vars.*1) → Forall (fits vars) ls → NoDup ls → NoDup (map (report rev vars) ls).
Proof.
  intros Hnd Hf Hn. induction Hn as [|y ls Hy _ IH]; cbn; constructor.
  - intros Hin. apply elem_of_list_fmap in Hin as (y' & He & Hin). apply Forall_cons in Hf as [Hfy Hf].
    rewrite Forall_forall in Hf. by rewrite (report_inj rev vars y y' Hnd Hfy (Hf _ Hin) He) in Hy.
  - apply IH. by apply Forall_cons in Hf as [_ ?].
Qed.

Lemma tvars_rank vars d : tvars vars d → rank d ≤ length vars.
Proof. destruct d as [|hd cs]; cbn [rank]; [lia|]. intros [[Hv _] _]%tvars_br. by eapply lookup_lt_Some. Qed.
Lemma tvars_range vars d x z l v : tvars vars d → vars_ok vars → zden d x z → vars !! l = Some v → x l < v.2.
Proof.
  intros Ht [_ Hp] H. revert Ht. induction H as [z x H|hd cs x c z Hc _ IH]; intros Ht Hv.
  - rewrite H. rewrite Forall_lookup in Hp. by eapply Hp.
  - apply tvars_br in Ht as [[Hvl Hlen] Ht]. rewrite Forall_lookup in Ht.
    destruct (decide (l = h_level hd)) as [->|Hne].
    + rewrite Hvl in Hv. injection Hv as <-. cbn. rewrite <- Hlen. by eapply lookup_lt_Some.
    + specialize (IH (Ht _ _ Hc) Hv). by rewrite upd_other in IH by done.
Qed.

(** members as lists *)
Lemma below_full n y : length y ≤ n → zeq (below n y) (vec y).
Proof. intros Hl l. unfold below, vec. destruct (decide (l < n)); [done|]. rewrite lookup_ge_None_2; [done|lia]. Qed.
Lemma zvecs_member E ss vars d y : okdd E d → tvars vars d →
  y ∈ zvecs ss d (replicate (length vars) 0) ↔ length y = length vars ∧ ∃ z, z ∈ ss ∧ zden d (vec y) z.
Proof.
  intros Ho Ht. pose proof (tvars_rank _ _ Ht) as Hk.
  rewrite (zvecs_elem E); [|done|].
  2:{ intros l Hl. apply lookup_replicate. split; [done|lia]. }
  rewrite replicate_length. split.
  - intros (Hlen & Ha & z & Hin & Hd). split; [done|]. exists z. split; [done|]. eapply zden_ext; [|exact Hd].
    intros l. unfold below. destruct (decide (l < rank d)); [done|]. unfold vec. rewrite Ha by lia.
    by destruct (decide (l < length vars)); [rewrite lookup_replicate_2 by done|rewrite lookup_ge_None_2 by (rewrite replicate_length; lia)].
  - intros (Hlen & z & Hin & Hd). split; [done|]. assert (H0 : ∀ l, rank d ≤ l → vec y l = 0) by (intros l Hl; by eapply zden_low).
    split.
    + intros l Hl. specialize (H0 l Hl). unfold vec in H0. destruct (decide (l < length vars)).
      * destruct (lookup_lt_is_Some_2 y l) as [v Hv]; [lia|]. rewrite Hv in H0 |- *. cbn in H0. subst v.
        symmetry. by apply lookup_replicate_2.
      * rewrite !lookup_ge_None_2; [done|rewrite replicate_length; lia|lia].
    + exists z. split; [done|]. eapply zden_ext; [|exact Hd]. intros l. unfold below.
      destruct (decide (l < rank d)); [done|]. apply H0. lia.
Qed.
Lemma zvecs_fits E ss vars d : okdd E d → tvars vars d → vars_ok vars → Forall (fits vars) (zvecs ss d (replicate (length vars) 0)).
Proof.
  intros Ho Ht Hv. apply Forall_forall. intros y Hy. apply (zvecs_member E) in Hy as (Hlen & z & _ & Hd); [|done|done].
  apply Forall2_same_length_lookup_2; [done|]. intros l v i Hvl Hi.
  pose proof (tvars_range vars d (vec y) z l v Ht Hv Hd Hvl) as Hr. unfold vec in Hr. by rewrite Hi in Hr.
Qed.

Lemma zm_extract_l m ss f rev vars : zm_reachable m → node_valid (t_ar m) f → vars_ok vars → vars_cover (t_ar m) vars f →
  ∃ Ls k0, NoDup Ls ∧ NoDup (map (report rev vars) Ls) ∧ Forall (fits vars) Ls ∧
    (∀ y, y ∈ Ls ↔ length y = length vars ∧ ∃ z, z ∈ ss ∧ zmember (t_ar m) f (vec y) z) ∧
    (∀ fuel, k0 ≤ fuel → zm_extract fuel m ss (ZMNode f rev vars) = Some (map (report rev vars) Ls)) ∧
    zm_count m ss f = Some (N.of_nat (length Ls)).
Proof.
  intros Hre Vf Hv Hc. pose proof (zm_reachable_wf _ Hre) as Hw. pose proof (zmw_good _ Hw) as Hg.
  pose proof (zmg_wf _ _ Hg) as Hwf. destruct (nvalid_repr _ _ _ Hwf Vf) as [d Hd].
  pose proof (zm_ok _ _ _ Hw Hd) as Ho. pose proof (cover_tvars _ _ _ _ _ Hwf (zmg_hc _ _ Hg) Hc Hd) as Ht.
  set (x0 := replicate (length vars) 0).
  assert (Hz0 : zero_below (rank d) x0).
  { intros l Hl. apply lookup_replicate. split; [done|]. pose proof (tvars_rank _ _ Ht). lia. }
  destruct (zmpath_spec (t_ar m) rev vars ss (proj1 Hv) (zmg_hc _ _ Hg) d f [] x0 Hd Ho Ht) as [k Hk]; [by apply replicate_length|done|].
  pose proof (zvecs_NoDup _ ss d x0 Ho Hz0) as Hnd. pose proof (zvecs_fits _ ss vars d Ho Ht Hv) as Hfit. fold x0 in Hfit.
  exists (zvecs ss d x0), k. sp.
  - done.
  - by apply NoDup_reports; [apply Hv| |].
  - done.
  - intros y. unfold x0. rewrite (zvecs_member _ ss vars d y Ho Ht). split.
    + intros (? & z & ? & ?). split; [done|]. exists z. split; [done|]. by apply (zmem_zden _ d).
    + intros (? & z & ? & Hm). split; [done|]. exists z. split; [done|]. by apply (zmem_zden _ d) in Hm.
  - intros fuel Hf. unfold zm_extract. cbn [zn_id zn_rev zn_vars]. rewrite (zm_baseline_ok rev vars Hv). cbn [mbind option_bind].
    replace fuel with (k + (fuel - k)) by lia. fold x0. fold x0 in Hk. rewrite Hk.
    assert (∀ k base p, zmpath_collect k (t_ar m) rev base ss (ZMPath [] p) = Some []) as -> by (intros k0 ? ?; by destruct k0).
    cbn [mbind option_bind]. by rewrite app_nil_r.
  - unfold zm_count. destruct (zm_count_spec (ar_fuel (t_ar m)) (t_ar m) ss d f ∅ Hd Ho) as (c' & -> & _).
    + by eapply a_fuel_enough.
    + done.
    + cbn [mbind option_bind]. unfold nzv. by rewrite (zvecs_length ss d [] x0).
Qed.

(** ** extraction by level *)
Lemma dominates_spec rev vars y y' : NoDup (vars.*1) → fits vars y → fits vars y' →
  zm_dominates rev vars (report rev vars y') (report rev vars y) =
    Some (bool_decide (Forall2 le y' y)).
Proof.
  intros Hnd Hy Hy'.
  assert (Hg : ∀ M M' vs ys ys', Forall2 (λ v i, i < v.2) vs ys → Forall2 (λ v i, i < v.2) vs ys' →
    (∀ l s e i, vs !! l = Some (s, e) → ys !! l = Some i → M !! s = Some (if rev then e - 1 - i else i)) →
    (∀ l s e i, vs !! l = Some (s, e) → ys' !! l = Some i → M' !! s = Some (if rev then e - 1 - i else i)) →
    zm_dominates rev vs M' M = Some (bool_decide (Forall2 le ys' ys))).
  2:{ apply Hg; try done; intros; by eapply report_lookup. }
  clear. intros M M' vs. induction vs as [|[s e] vs IH]; intros ys ys' H H' HM HM'.
  - inversion H; subst. inversion H'; subst. cbn. by rewrite bool_decide_eq_true_2 by constructor.
  - inversion H as [|? i ? ys1 Hi Hys]; subst. inversion H' as [|? i' ? ys1' Hi' Hys']; subst. cbn in Hi, Hi'. cbn [zm_dominates].
    rewrite (HM 0 s e i), (HM' 0 s e i') by done. cbn [mbind option_bind].
    rewrite (IH ys1 ys1'); [|done|done|intros l; by apply (HM (S l))|intros l; by apply (HM' (S l))].
    assert ((if rev then (if rev then e - 1 - i else i) <=? (if rev then e - 1 - i' else i')
             else (if rev then e - 1 - i' else i') <=? (if rev then e - 1 - i else i)) = bool_decide (i' ≤ i)) as ->.
    { destruct rev; destruct (decide (i' ≤ i)).
      - rewrite bool_decide_eq_true_2 by done. apply Nat.leb_le. lia.
      - rewrite bool_decide_eq_false_2 by done. apply Nat.leb_gt. lia.
      - rewrite bool_decide_eq_true_2 by done. by apply Nat.leb_le.
      - rewrite bool_decide_eq_false_2 by done. apply Nat.leb_gt. lia. }
    destruct (bool_decide_reflect (i' ≤ i)) as [Hle|Hle].
    + f_equal. apply bool_decide_ext. rewrite Forall2_cons. tauto.
    + rewrite bool_decide_eq_false_2; [done|]. rewrite Forall2_cons. tauto.
Qed.
Lemma dominated_spec rev vars y ys : NoDup (vars.*1) → fits vars y → Forall (fits vars) ys →
  zm_dominated rev vars (map (report rev vars) ys) (report rev vars y) =
    Some (bool_decide (Exists (λ y', y' ≠ y ∧ Forall2 le y' y) ys)).
Proof.
  intros Hnd Hy Hys. induction ys as [|y' ys IH]; cbn [map zm_dominated].
  - rewrite bool_decide_eq_false_2; [done|]. by intros ?%Exists_nil.
  - apply Forall_cons in Hys as [Hy' Hys]. specialize (IH Hys).
    destruct (decide (report rev vars y' = report rev vars y)) as [He|Hne].
    + rewrite IH. f_equal. apply bool_decide_ext. rewrite Exists_cons.
      apply report_inj in He; [|done..]. subst. naive_solver.
    + rewrite dominates_spec by done. cbn [mbind option_bind]. destruct (bool_decide_reflect (Forall2 le y' y)) as [H|H].
      * rewrite bool_decide_eq_true_2; [done|]. apply Exists_cons. left. split; [|done]. by intros ->.
      * rewrite IH. f_equal. apply bool_decide_ext. rewrite Exists_cons. naive_solver.
Qed.
Lemma extreme_spec rev vars ys xs : NoDup (vars.*1) → Forall (fits vars) ys → Forall (fits vars) xs →
  zm_extreme rev vars (map (report rev vars) ys) (map (report rev vars) xs) =
    Some (map (report rev vars) (filter (λ y, ¬ Exists (λ y', y' ≠ y ∧ Forall2 le y' y) ys) xs)).
Proof.
  intros Hnd Hys Hxs. induction xs as [|x xs IH]; cbn [map zm_extreme]; [done|].
  apply Forall_cons in Hxs as [Hx Hxs]. rewrite dominated_spec by done. cbn [mbind option_bind]. rewrite (IH Hxs).
  cbn [mbind option_bind]. destruct (bool_decide_reflect (Exists (λ y', y' ≠ x ∧ Forall2 le y' x) ys)) as [H|H].
  - by rewrite filter_cons_False by tauto.
  - by rewrite filter_cons_True by tauto.
Qed.

Definition on_side rev (v w : Z) : Prop := if rev then (w <= v)%Z else (v <= w)%Z.
Lemma zm_extract_level_l m v f rev vars : zm_reachable m → node_valid (t_ar m) f → vars_ok vars → vars_cover (t_ar m) vars f →
  ∃ Ls k0, NoDup Ls ∧ NoDup (map (report rev vars) Ls) ∧
    (∀ y, y ∈ Ls ↔ length y = length vars ∧ (∃ z, on_side rev v z ∧ zmember (t_ar m) f (vec y) z) ∧
      ∀ y' z', length y' = length vars → on_side rev v z' → zmember (t_ar m) f (vec y') z' → Forall2 le y' y → y' = y) ∧
    (∀ fuel, k0 ≤ fuel → zm_extract_level fuel m v (ZMNode f rev vars) = Some (map (report rev vars) Ls)).
Proof.
  intros Hre Vf Hv Hc. destruct (zm_labels_l m f Hre Vf) as (L & HL & _ & Hlab).
  set (ss := filter (λ w, (if rev then w <=? v else v <=? w)%Z = true) L).
  assert (Hss : ∀ z, z ∈ ss ↔ on_side rev v z ∧ ∃ x, zmember (t_ar m) f x z).
  { intros z. unfold ss. rewrite elem_of_list_filter, Hlab. unfold on_side. by destruct rev; rewrite Z.leb_le. }
  destruct (zm_extract_l m ss f rev vars Hre Vf Hv Hc) as (Ls & k0 & Hnd & _ & Hfit & Hmem & Hex & _).
  assert (Hmem' : ∀ y, y ∈ Ls ↔ length y = length vars ∧ ∃ z, on_side rev v z ∧ zmember (t_ar m) f (vec y) z).
  { intros y. rewrite Hmem. setoid_rewrite Hss. naive_solver. }
  exists (filter (λ y, ¬ Exists (λ y', y' ≠ y ∧ Forall2 le y' y) Ls) Ls), k0. sp.
  - by apply NoDup_filter.
  - apply NoDup_reports; [apply Hv| |by apply NoDup_filter]. apply Forall_forall. intros y Hy.
    apply elem_of_list_filter in Hy as [_ Hy]. rewrite Forall_forall in Hfit. by apply Hfit.
  - intros y. rewrite elem_of_list_filter, Hmem', Exists_exists. split.
    + intros (Hn & Hlen & Hz). sp; [done|done|]. intros y' z' Hlen' Hs Hm Hle. destruct (decide (y' = y)) as [|Hne]; [done|].
      destruct Hn. exists y'. split; [|done]. apply Hmem'. eauto.
    + intros (Hlen & Hz & Hmin). sp; [|done|done]. intros (y' & Hin & Hne & Hle). apply Hmem' in Hin as (Hlen' & z' & Hs & Hm).
      apply Hne. by eapply Hmin.
  - intros fuel Hf. unfold zm_extract_level. cbn [zn_id zn_rev zn_vars]. rewrite HL. cbn [mbind option_bind].
    fold ss. rewrite (Hex fuel Hf). cbn [mbind option_bind]. apply extreme_spec; [apply Hv|done|done].
Qed.
