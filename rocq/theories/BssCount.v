(** Counting, sizes and path enumeration on BDDs: proofs. *)
From stdpp Require Import strings.
From Verif Require Import Prelude ComputeCache ComputeCacheProofs Arena Trees ArenaProofs Bdd BddProofs SpecBdd SpecBss BddMain BssAlg.

Lemma in_ss_spec ss b : in_ss ss b = true ↔ b ∈ ss.
Proof.
  unfold in_ss. rewrite existsb_exists. split.
  - intros (x & Hx & He). apply Bool.eqb_prop in He as ->. by apply elem_of_list_In.
  - intros H. exists b. split; [by apply elem_of_list_In|]. by destruct b.
Qed.

(** the terminal value is one of [ss] *)
Definition hits (ss : list bool) (t : tv) : bool :=
  match t with TZero => in_ss ss false | TOne => in_ss ss true | TUndet => false end.
Lemma hits_spec ss t : hits ss t = true ↔ ∃ b, b ∈ ss ∧ t = tvb b.
Proof.
  destruct t; cbn; rewrite ?in_ss_spec; split; try done.
  - intros. by exists false.
  - intros ([|] & ? & ?); done.
  - intros. by exists true.
  - intros ([|] & ? & ?); done.
  - intros ([|] & ? & ?); done.
Qed.

(** all vectors of length n *)
Fixpoint vecs (n : nat) : list (list bool) :=
  match n with
  | O => [[]]
  | S n => ((λ v, v ++ [false]) <$> vecs n) ++ ((λ v, v ++ [true]) <$> vecs n)
  end.
Lemma elem_of_vecs n v : v ∈ vecs n ↔ length v = n.
Proof.
  revert v. induction n as [|n IH]; intros v; cbn [vecs].
  - rewrite elem_of_list_singleton. split; [by intros ->|apply nil_length_inv].
  - rewrite elem_of_app, !elem_of_list_fmap. split.
    + intros [(w & -> & Hw)|(w & -> & Hw)]; apply IH in Hw; rewrite app_length; cbn; lia.
    + intros Hl. destruct v as [|b w _] using rev_ind; [done|]. rewrite app_length in Hl. cbn in Hl.
      destruct b; [right|left]; exists w; (split; [done|]); apply IH; lia.
Qed.
Lemma NoDup_vecs n : NoDup (vecs n).
Proof.
  induction n as [|n IH]; cbn [vecs]; [apply NoDup_singleton|].
  apply NoDup_app. sp.
  - apply NoDup_fmap_2; [|done]. intros x y H. by apply app_inj_tail in H as [? _].
  - intros x Hx Hy. apply elem_of_list_fmap in Hx as (? & -> & _). apply elem_of_list_fmap in Hy as (? & H & _).
    by apply app_inj_tail in H as [_ ?].
  - apply NoDup_fmap_2; [|done]. intros x y H. by apply app_inj_tail in H as [? _].
Qed.

(** the satisfying vectors of [d] over levels below [n], in the order the iterator produces them *)
Fixpoint sat (ss : list bool) (n : nat) (d : dd tv) : list (list bool) :=
  match n with
  | O => match d with Leaf t => if hits ss t then [[]] else [] | _ => [] end
  | S n => ((λ v, v ++ [false]) <$> sat ss n (cof d n 0)) ++ ((λ v, v ++ [true]) <$> sat ss n (cof d n 1))
  end.

Lemma vrho_app v b l : l < length v → vrho (v ++ [b]) l = vrho v l.
Proof. intros H. unfold vrho. by rewrite app_nth1. Qed.
Lemma vrho_last v b : vrho (v ++ [b]) (length v) = b.
Proof. unfold vrho. rewrite app_nth2, Nat.sub_diag by lia. done. Qed.

Lemma ev_agree ρ ρ' d : okdd E2 d → (∀ l, l < rank d → ρ l = ρ' l) → ev ρ d = ev ρ' d.
Proof. intros Ho H. unfold ev. by rewrite (eval_agree E2 ρ ρ' d). Qed.

Lemma elem_of_sat ss n d v : okdd E2 d → rank d ≤ n →
  v ∈ sat ss n d ↔ length v = n ∧ hits ss (ev (asg (vrho v)) d) = true.
Proof.
  revert d v. induction n as [|n IH]; intros d v Ho Hr; cbn [sat].
  - destruct d as [t|]; [|cbn in Hr; lia]. unfold ev. cbn.
    destruct (hits ss t) eqn:Hh.
    + rewrite elem_of_list_singleton. split; [by intros ->|]. intros [? _]. by apply nil_length_inv.
    + split; [by intros ?%elem_of_nil|]. by intros [_ ?].
  - assert (Hc : ∀ b w, length w = n → ev (asg (vrho (w ++ [b]))) d = ev (asg (vrho w)) (cof d n (if b then 1 else 0))).
    { intros b w Hw. rewrite <- (ev_cof (asg (vrho (w ++ [b]))) d n) by (done || apply asg_ok).
      assert (asg (vrho (w ++ [b])) n = if b then 1 else 0) as ->.
      { unfold asg. rewrite <- Hw, vrho_last. done. }
      apply ev_agree; [apply cof_ok; [done|unfold E2; destruct b; lia]|].
      intros l Hl. unfold asg. rewrite vrho_app; [done|].
      assert (rank (cof d n (if b then 1 else 0)) ≤ n); [|lia].
      apply (cof_rank E2); [done|unfold E2; destruct b; lia|done]. }
    rewrite elem_of_app, !elem_of_list_fmap.
    assert (HI : ∀ i w, i < 2 → w ∈ sat ss n (cof d n i) ↔ length w = n ∧ hits ss (ev (asg (vrho w)) (cof d n i)) = true).
    { intros i w Hi. apply IH; [by apply cof_ok|by apply (cof_rank E2)]. }
    split.
    + intros [(w & -> & Hw)|(w & -> & Hw)]; apply HI in Hw as [Hw Hh]; try lia;
        rewrite app_length, Hc by done; (split; [cbn; lia|done]).
    + intros [Hl Hh]. destruct v as [|b w _] using rev_ind; [done|].
      rewrite app_length in Hl. cbn in Hl. rewrite Hc in Hh by lia.
      destruct b; [right|left]; exists w; (split; [done|]); (apply HI; [lia|split; [lia|done]]).
Qed.

Lemma NoDup_sat ss n d : NoDup (sat ss n d).
Proof.
  revert d. induction n as [|n IH]; intros d; cbn [sat].
  - destruct d as [t|]; [|constructor]. destruct (hits ss t); [apply NoDup_singleton|constructor].
  - apply NoDup_app. sp.
    + apply NoDup_fmap_2; [|done]. intros x y H. by apply app_inj_tail in H as [? _].
    + intros x Hx Hy. apply elem_of_list_fmap in Hx as (? & -> & _). apply elem_of_list_fmap in Hy as (? & H & _).
      by apply app_inj_tail in H as [_ ?].
    + apply NoDup_fmap_2; [|done]. intros x y H. by apply app_inj_tail in H as [? _].
Qed.

(** ** bdd_count *)
Lemma power_pow x n : power x n = (x ^ N.of_nat n)%N.
Proof.
  induction n as [|n IH]; [done|]. cbn [power]. rewrite IH, Nat2N.inj_succ, N.pow_succ_r'. lia.
Qed.

Definition nsat ss n d : N := N.of_nat (length (sat ss n d)).
Lemma nsat_S ss n d : nsat ss (S n) d = (nsat ss n (cof d n 0) + nsat ss n (cof d n 1))%N.
Proof. unfold nsat. cbn [sat]. rewrite app_length, !fmap_length. lia. Qed.
Lemma nsat_up ss n k d : rank d ≤ n → nsat ss (k + n) d = (2 ^ N.of_nat k * nsat ss n d)%N.
Proof.
  intros Hr. induction k as [|k IH]; [cbn; lia|]. cbn [Nat.add]. rewrite nsat_S, !cof_low by lia.
  rewrite IH, Nat2N.inj_succ, N.pow_succ_r'. lia.
Qed.

Lemma cof_br2 hd (d0 d1 : dd tv) : cof (Br hd [d0; d1]) (h_level hd) 0 = d0 ∧ cof (Br hd [d0; d1]) (h_level hd) 1 = d1.
Proof. cbn. destruct (decide _); done. Qed.

Lemma bdd_count_spec n a ss : good a → ∀ d id cache, repr a d id → rank d < n →
  (∀ i x, cache !! i = Some x → ∃ di, repr a di i ∧ x = nsat ss (rank di) di) →
  ∃ cache', bdd_count_f n a ss id cache = Some (cache', nsat ss (rank d) d) ∧
    ∀ i x, cache' !! i = Some x → ∃ di, repr a di i ∧ x = nsat ss (rank di) di.
Proof.
  intros Hg. induction n as [|n IH]; intros d id cache Hr Hn Hc; [lia|]. cbn [bdd_count_f].
  destruct (cache !! id) as [x|] eqn:Hhit.
  { destruct (Hc _ _ Hhit) as (di & Hdi & ->). rewrite (repr_fun _ _ _ _ Hr Hdi). by exists cache. }
  assert (Hins : ∀ cache1 : gmap nat N, (∀ i x, cache1 !! i = Some x → ∃ di, repr a di i ∧ x = nsat ss (rank di) di) →
    ∀ i x, <[id := nsat ss (rank d) d]> cache1 !! i = Some x → ∃ di, repr a di i ∧ x = nsat ss (rank di) di).
  { intros c1 Hc1 i x. rewrite lookup_insert_Some. intros [[<- <-]|[_ H]]; [by exists d|eauto]. }
  destruct d as [t|hd ds].
  - apply repr_leaf in Hr as [Hl Hnd]. rewrite Hnd. cbn [mbind option_bind].
    assert (Hv : nsat ss (rank (Leaf t)) (Leaf t) = if hits ss t then 1%N else 0%N).
    { unfold nsat. cbn. by destruct (hits ss t). }
    destruct t; cbn [mbind option_bind hits] in *; rewrite <- Hv; (eexists; split; [done|]); exact (Hins cache Hc).
  - destruct (repr_node2 _ _ _ _ Hg Hr) as (h & lo & hi & dlo & dhi & -> & Hnd & Hh & Hlo & Hhi & Rlo & Rhi).
    rewrite Hnd. cbn [mbind option_bind edges2]. unfold hdr_level. rewrite Hh. cbn [mbind option_bind].
    rewrite (node_level_eq _ _ _ Hg Hlo), (node_level_eq _ _ _ Hg Hhi). cbn [mbind option_bind].
    cbn [rank] in Hn.
    destruct (IH dlo lo cache Hlo) as (c1 & -> & Hc1); [lia|done|]. cbn [mbind option_bind].
    destruct (IH dhi hi c1 Hhi) as (c2 & -> & Hc2); [lia|done|]. cbn [mbind option_bind].
    assert (Hup : ∀ dc, rank dc ≤ h_level hd →
      match match dc with Leaf _ => None | Br hd' _ => Some (h_level hd') end with
      | Some next => (power 2 (h_level hd - next - 1) * nsat ss (rank dc) dc)%N
      | None => (power 2 (h_level hd) * nsat ss (rank dc) dc)%N
      end = nsat ss (h_level hd) dc).
    { intros dc Hdc. assert (He : nsat ss (h_level hd) dc = (2 ^ N.of_nat (h_level hd - rank dc) * nsat ss (rank dc) dc)%N).
      { rewrite <- nsat_up by done. f_equal. lia. }
      rewrite He. destruct dc as [|hd' ?]; rewrite power_pow; [cbn [rank]; by rewrite Nat.sub_0_r|].
      cbn [rank]. do 3 f_equal. lia. }
    rewrite !Hup by done.
    assert (Hv : (0 + nsat ss (h_level hd) dlo + nsat ss (h_level hd) dhi)%N = nsat ss (rank (Br hd [dlo; dhi])) (Br hd [dlo; dhi])).
    { cbn [rank]. rewrite nsat_S. destruct (cof_br2 hd dlo dhi) as [-> ->]. lia. }
    rewrite Hv. eexists. split; [done|]. exact (Hins c2 Hc2).
Qed.

Lemma count_l m ss f n S : bwf m → bdd_valid m f →
  n = match ar_node_level (b_ar m) f with Some (Some l) => l + 1 | _ => 0 end →
  NoDup S → (∀ v, v ∈ S ↔ length v = n ∧ ∃ b, b ∈ ss ∧ bdd_value m (vrho v) f (tvb b)) →
  bdd_count m ss f = Some (N.of_nat (length S)).
Proof.
  intros Hre Vf -> Hnd HS. pose proof Hre as Hw. pose proof (bw_good _ Hw) as Hg.
  destruct (valid_repr _ _ Hw Vf) as [d Hd]. unfold bdd_count.
  destruct (bdd_count_spec (ar_fuel (b_ar m)) (b_ar m) ss Hg d f ∅ Hd) as (c' & -> & _);
    [by eapply fuel_enough|done|].
  cbn [mbind option_bind]. f_equal. unfold nsat. f_equal. apply Permutation_length, NoDup_Permutation; [apply NoDup_sat|done|].
  intros v. rewrite HS, elem_of_sat by (try (by eapply good_ok); done).
  rewrite (node_level_eq _ _ _ Hg Hd), hits_spec.
  assert (Hrk : rank d = match match d with Leaf _ => None | Br hd _ => Some (h_level hd) end with Some l => l + 1 | None => 0 end)
    by (destruct d; cbn; lia).
  rewrite <- Hrk.
  assert (Heq : ∀ b, ev (asg (vrho v)) d = tvb b ↔ bdd_value m (vrho v) f (tvb b)).
  { intros b. symmetry. by apply value_ev. }
  split; intros [? (b & ? & ?)]; (split; [done|]); exists b; (split; [done|]); by apply Heq.
Qed.

(** such an S always exists *)
Lemma sat_exists m (ss : list bool) f n : bwf m → bdd_valid m f →
  n = match ar_node_level (b_ar m) f with Some (Some l) => l + 1 | _ => 0 end →
  ∃ S, NoDup S ∧ ∀ v, v ∈ S ↔ length v = n ∧ ∃ b, b ∈ ss ∧ bdd_value m (vrho v) f (tvb b).
Proof.
  intros Hre Vf ->. pose proof Hre as Hw. pose proof (bw_good _ Hw) as Hg.
  destruct (valid_repr _ _ Hw Vf) as [d Hd]. exists (sat ss (rank d) d). split; [apply NoDup_sat|].
  intros v. rewrite elem_of_sat by (try (by eapply good_ok); done).
  rewrite (node_level_eq _ _ _ Hg Hd), hits_spec.
  assert (Hrk : rank d = match match d with Leaf _ => None | Br hd _ => Some (h_level hd) end with Some l => l + 1 | None => 0 end)
    by (destruct d; cbn; lia).
  rewrite <- Hrk.
  assert (Heq : ∀ b, ev (asg (vrho v)) d = tvb b ↔ bdd_value m (vrho v) f (tvb b)).
  { intros b. symmetry. by apply value_ev. }
  split; intros [? (b & ? & ?)]; (split; [done|]); exists b; (split; [done|]); by apply Heq.
Qed.

(** ** Paths *)
Lemma render_snoc labels v b : render labels (v ++ [b]) = render labels v ++ [lit labels (length v) b].
Proof. unfold render. rewrite imap_app. cbn. by rewrite Nat.add_0_r. Qed.

Definition lev (n : nat) : option nat := match n with O => None | S l => Some l end.
Lemma lev_pred l : level_pred (lev (S l)) = lev l.
Proof. by destruct l. Qed.

Lemma step_collect k a labels ss x st p p' out : bpath_step a labels ss (BPath (x :: st) p) = Some (p', out) →
  bpath_collect (S k) a labels ss (BPath (x :: st) p) =
  rest ← bpath_collect k a labels ss p'; Some (match out with Some x => x :: rest | None => rest end).
Proof. intros Hs. cbn [bpath_collect p_stack]. rewrite Hs. done. Qed.

Lemma path_spec a labels ss : good a → ∀ n d id st p, repr a d id → rank d ≤ n → n ≤ length labels →
  ∃ k, ∀ fuel, bpath_collect (k + fuel) a labels ss (BPath (PNode (lev n) id :: st) p) =
    rest ← bpath_collect fuel a labels ss (BPath st p);
    Some (((λ v, render labels v ++ p) <$> sat ss n d) ++ rest).
Proof.
  intros Hg. induction n as [|n IH]; intros d id st p Hr Hk Hn.
  - destruct d as [t|hd ds]; [|cbn in Hk; lia]. pose proof Hr as Hr'. apply repr_leaf in Hr' as [_ Hnd].
    exists 1. intros fuel. cbn [Nat.add].
    assert (Hs : bpath_step a labels ss (BPath (PNode (lev 0) id :: st) p) =
      Some (BPath st p, if hits ss t then Some p else None)).
    { unfold bpath_step. cbn [p_stack p_path]. rewrite (node_level_eq _ _ _ Hg Hr), Hnd. cbn [mbind option_bind].
      by destruct t; cbn. }
    rewrite (step_collect _ _ _ _ _ _ _ _ _ Hs). cbn [sat].
    destruct (bpath_collect fuel _ _ _ _); [|done]. cbn. by destruct (hits ss t).
  - assert (Hlab : ∃ x, labels !! n = Some x) by (apply lookup_lt_is_Some_2; lia).
    destruct Hlab as [x Hx].
    assert (Hlit : ∀ v, length v = n → ∀ b, render labels (v ++ [b]) ++ p = render labels v ++ (if b then x else String.append "~" x) :: p).
    { intros v Hv b. rewrite render_snoc, <- app_assoc. cbn. unfold lit. by rewrite Hv, Hx. }
    (* a fork into lo and hi *)
    assert (Hfork : ∀ lo hi dlo dhi, repr a dlo lo → repr a dhi hi → rank dlo ≤ n → rank dhi ≤ n →
      cof d n 0 = dlo → cof d n 1 = dhi →
      (∀ st, ∃ st', path_fork labels (lev (S n)) lo hi st = Some st' ∧
        bpath_step a labels ss (BPath (PNode (lev (S n)) id :: st) p) = Some (BPath st' p, None)) →
      ∃ k, ∀ fuel, bpath_collect (k + fuel) a labels ss (BPath (PNode (lev (S n)) id :: st) p) =
        rest ← bpath_collect fuel a labels ss (BPath st p);
        Some (((λ v, render labels v ++ p) <$> sat ss (S n) d) ++ rest)).
    { intros lo hi dlo dhi Hlo Hhi Rlo Rhi <- <- Hstep.
      destruct (Hstep st) as (st' & Hst' & Hs). unfold path_fork in Hst'. rewrite lev_pred in Hst'. cbn [lev mbind option_bind] in Hst'.
      rewrite Hx in Hst'. cbn [mbind option_bind] in Hst'. injection Hst' as <-.
      destruct (IH _ lo (PPop :: PPush x :: PNode (lev n) hi :: PPop :: st) (String.append "~" x :: p) Hlo Rlo) as [k1 Hk1]; [lia|].
      destruct (IH _ hi (PPop :: st) (x :: p) Hhi Rhi) as [k2 Hk2]; [lia|].
      exists (1 + (1 + (k1 + (1 + (1 + (k2 + 1)))))). intros fuel.
      replace (1 + (1 + (k1 + (1 + (1 + (k2 + 1))))) + fuel) with (S (S (k1 + S (S (k2 + S fuel))))) by lia.
      rewrite (step_collect _ _ _ _ _ _ _ _ _ Hs).
      rewrite (step_collect _ _ _ _ _ _ _ (BPath (PNode (lev n) lo :: PPop :: PPush x :: PNode (lev n) hi :: PPop :: st) (String.append "~" x :: p)) None) by done.
      rewrite Hk1.
      rewrite (step_collect _ _ _ _ _ _ _ (BPath (PPush x :: PNode (lev n) hi :: PPop :: st) p) None) by done.
      rewrite (step_collect _ _ _ _ _ _ _ (BPath (PNode (lev n) hi :: PPop :: st) (x :: p)) None) by done.
      rewrite Hk2.
      rewrite (step_collect _ _ _ _ _ _ _ (BPath st p) None) by done.
      destruct (bpath_collect fuel _ _ _ _) as [rest|]; [|done]. cbn [mbind option_bind]. f_equal.
      cbn [sat]. rewrite fmap_app, <- !list_fmap_compose, app_assoc. f_equal. f_equal.
      - apply list_fmap_ext. intros i v Hv. cbn. symmetry. apply (Hlit v).
        apply elem_of_list_lookup_2 in Hv. apply elem_of_sat in Hv as [? _]; [done|by eapply good_ok|done].
      - apply list_fmap_ext. intros i v Hv. cbn. symmetry. apply (Hlit v).
        apply elem_of_list_lookup_2 in Hv. apply elem_of_sat in Hv as [? _]; [done|by eapply good_ok|done]. }
    assert (Hskip : rank d ≤ n → (∀ st, ∃ st', path_fork labels (lev (S n)) id id st = Some st' ∧
        bpath_step a labels ss (BPath (PNode (lev (S n)) id :: st) p) = Some (BPath st' p, None)) →
      ∃ k, ∀ fuel, bpath_collect (k + fuel) a labels ss (BPath (PNode (lev (S n)) id :: st) p) =
        rest ← bpath_collect fuel a labels ss (BPath st p);
        Some (((λ v, render labels v ++ p) <$> sat ss (S n) d) ++ rest)).
    { intros Hd. apply (Hfork id id d d); try done; by apply cof_low. }
    assert (Hpf : ∀ lo hi st, ∃ st', path_fork labels (lev (S n)) lo hi st = Some st').
    { intros. unfold path_fork. cbn [lev mbind option_bind]. rewrite Hx. by eexists. }
    destruct d as [t|hd ds].
    + pose proof Hr as Hr'. apply repr_leaf in Hr' as [_ Hnd].
      assert (t = TUndet ∨ t ≠ TUndet) as [->|Ht] by (destruct t; auto).
      { exists 1. intros fuel. cbn [Nat.add].
        rewrite (step_collect _ _ _ _ _ _ _ (BPath st p) None).
        - assert (Hemp : ∀ n, sat ss n (Leaf TUndet) = []).
          { clear. induction n as [|n IH]; [done|]. cbn [sat]. cbn. by rewrite IH. }
          rewrite Hemp. done.
        - unfold bpath_step. cbn [p_stack p_path]. rewrite (node_level_eq _ _ _ Hg Hr), Hnd. done. }
      apply Hskip; [cbn; lia|]. intros st0. destruct (Hpf id id st0) as [st' Hst']. exists st'. split; [done|].
      unfold bpath_step. cbn [p_stack p_path]. rewrite (node_level_eq _ _ _ Hg Hr), Hnd. cbn [mbind option_bind].
      destruct t; [..|done]; rewrite decide_False by done; rewrite Hst'; done.
    + destruct (repr_node2 _ _ _ _ Hg Hr) as (h & lo & hi & dlo & dhi & -> & Hnd & Hh & Hlo & Hhi & Rlo & Rhi).
      destruct (decide (h_level hd = n)) as [Heq|Hne].
      * subst n. apply (Hfork lo hi dlo dhi); try done; [apply cof_br2..|].
        intros st0. destruct (Hpf lo hi st0) as [st' Hst']. exists st'. split; [done|].
        unfold bpath_step. cbn [p_stack p_path]. rewrite (node_level_eq _ _ _ Hg Hr), Hnd. cbn [mbind option_bind].
        rewrite decide_True by done. cbn [edges2 mbind option_bind]. by rewrite Hst'.
      * cbn [rank] in Hk. apply Hskip; [cbn; lia|].
        intros st0. destruct (Hpf id id st0) as [st' Hst']. exists st'. split; [done|].
        unfold bpath_step. cbn [p_stack p_path]. rewrite (node_level_eq _ _ _ Hg Hr), Hnd. cbn [mbind option_bind].
        rewrite decide_False by (cbn; congruence). by rewrite Hst'.
Qed.

(** the label table *)
Lemma path_labels_go_spec hds labels : (∀ hd, hd ∈ hds → h_level hd < length labels) →
  ∃ out, path_labels_go hds labels = Some out ∧ length out = length labels ∧
    ∀ l, out !! l = match list_find (λ hd, h_level hd = l) (reverse hds) with
                    | Some (_, hd) => Some (h_label hd) | None => labels !! l end.
Proof.
  revert labels. induction hds as [|hd hds IH]; intros labels Hl; cbn [path_labels_go].
  { exists labels. sp; done. }
  rewrite decide_True by (apply Hl; by left).
  destruct (IH (<[h_level hd := h_label hd]> labels)) as (out & -> & Hlen & Hout).
  { intros hd' Hin. rewrite insert_length. apply Hl. by right. }
  exists out. split; [done|]. split; [by rewrite Hlen, insert_length|]. intros l. rewrite Hout, reverse_cons.
  destruct (list_find (λ hd0, h_level hd0 = l) (reverse hds)) as [[i hd']|] eqn:E.
  - by rewrite (list_find_app_l _ _ [hd] _ _ E).
  - rewrite list_find_app_r by done. cbn. destruct (decide (h_level hd = l)) as [<-|Hne]; cbn.
    + rewrite list_lookup_insert; [done|]. apply Hl. by left.
    + by rewrite list_lookup_insert_ne.
Qed.

Lemma order_labels m names : bdd_order m names → path_labels (b_ar m) = Some names.
Proof.
  intros (Hlen & Hnd & Hnm). unfold path_labels.
  destruct (path_labels_go_spec (ar_headers (b_ar m)) (replicate (length (ar_headers (b_ar m))) "")) as (out & -> & Hl & Hout).
  { intros hd Hin. rewrite replicate_length, <- Hlen. apply elem_of_list_lookup in Hin as [h Hh].
    by eapply lookup_lt_Some, Hnm. }
  f_equal. rewrite replicate_length in Hl. apply list_eq. intros l. rewrite Hout.
  destruct (list_find _ _) as [[i hd]|] eqn:E.
  - apply list_find_Some in E as (Hi & <- & _). apply elem_of_list_lookup_2, elem_of_reverse, elem_of_list_lookup in Hi as [h Hh].
    rewrite reverse_involutive in Hh. symmetry. exact (Hnm _ _ Hh).
  - assert (Hge : ¬ l < length (ar_headers (b_ar m))).
    { intros Hlt. apply list_find_None in E. 
      assert (l ∈ h_level <$> ar_headers (b_ar m)) as Hin.
      { assert (Hp : h_level <$> ar_headers (b_ar m) ≡ₚ seq 0 (length (ar_headers (b_ar m)))).
        { apply submseteq_Permutation_length_eq; [by rewrite fmap_length, seq_length|].
          apply NoDup_submseteq; [done|]. intros x Hx. apply elem_of_list_fmap in Hx as (hd & -> & Hin).
          apply elem_of_list_lookup in Hin as [h Hh]. apply Hnm, lookup_lt_Some in Hh. apply elem_of_seq. lia. }
        rewrite Hp. apply elem_of_seq. lia. }
      apply elem_of_list_fmap in Hin as (hd & -> & Hin). rewrite Forall_forall in E.
      apply (E hd); [by apply elem_of_reverse|done]. }
    rewrite !lookup_ge_None_2; [done|lia|rewrite replicate_length; lia].
Qed.

Lemma extract_l m names (ss : list bool) f n : bwf m → bdd_valid m f → bdd_order m names →
  n = match ar_node_level (b_ar m) f with Some (Some l) => l + 1 | _ => 0 end →
  ∃ S k0, NoDup S ∧ (∀ v, v ∈ S ↔ length v = n ∧ ∃ b, b ∈ ss ∧ bdd_value m (vrho v) f (tvb b)) ∧
    ∀ fuel, k0 ≤ fuel → bdd_extract fuel m ss f = Some (render names <$> S).
Proof.
  intros Hre Vf Hord Hn. pose proof Hre as Hw. pose proof (bw_good _ Hw) as Hg.
  destruct (valid_repr _ _ Hw Vf) as [d Hd].
  assert (Hrk : rank d = n).
  { rewrite Hn, (node_level_eq _ _ _ Hg Hd). destruct d; cbn; lia. }
  destruct (path_spec (b_ar m) names ss Hg n d f [] [] Hd) as [k Hk]; [lia|..].
  { destruct Hord as (Hlen & _ & Hnm). rewrite <- Hrk. clear Hn Hrk. destruct d as [|hd ds]; [cbn; lia|].
    apply repr_br in Hd as [_ (h & cs & _ & Hh & _)]. apply Hnm, lookup_lt_Some in Hh. cbn. lia. }
  exists (sat ss n d), (k + 0). sp.
  - apply NoDup_sat.
  - intros v. rewrite elem_of_sat by (try (by eapply good_ok); lia). rewrite hits_spec.
    assert (Heq : ∀ b, ev (asg (vrho v)) d = tvb b ↔ bdd_value m (vrho v) f (tvb b)).
    { intros b. symmetry. by apply value_ev. }
    split; intros [? (b & ? & ?)]; (split; [done|]); exists b; (split; [done|]); by apply Heq.
  - intros fuel Hf. unfold bdd_extract. rewrite (order_labels m names Hord). cbn [mbind option_bind].
    unfold bpath_new. rewrite (node_level_eq _ _ _ Hg Hd). cbn [mbind option_bind].
    replace fuel with (k + (fuel - k)) by lia.
    assert (match d with Leaf _ => None | Br hd _ => Some (h_level hd) end = lev n) as ->.
    { rewrite <- Hrk. by destruct d. }
    rewrite Hk. destruct (fuel - k); cbn; f_equal; rewrite app_nil_r; apply list_fmap_ext; intros; by rewrite app_nil_r.
Qed.
