(** Multi-state probabilities computed in [f64]: proofs. *)
From Coq Require Import Reals Lra RealField.
From Flocq Require Import Core.Raux.
From stdpp Require Import strings.
From Verif Require Import Prelude ComputeCache Arena Trees ArenaProofs ArenaMore Bdd Mdd MtMdd MtMdd2 ZmddAlg BssMgr MssMgr MssAlg
  SpecMdd SpecBss SpecMss SpecMssAlg SpecEnclose NaryProofs MddMain BssProb MssAlgProofs MssProb MssMgrProofs MssRpn MssAlgMain Float64 SpecFloat64 Float64Proofs.

(** ** What [nprob] computes, over any operations *)
Section code.
Context {R : Type} (rO rI : R) (radd rmul : R → R → R) {T : Type} (hit : T → option bool) (pv : gmap string (list R)).
Fixpoint acc (r : R) (ps ts : list R) : R :=
  match ps, ts with p :: ps, t :: ts => acc (radd r (rmul p t)) ps ts | _, _ => r end.
Definition arow (hd : header) : list R := default [] (pv !! h_label hd).
Fixpoint npra (d : dd T) : R :=
  match d with Leaf t => match hit t with Some true => rI | _ => rO end | Br hd cs => acc rO (arow hd) (map npra cs) end.
Context (a : arena T) (Hwf : awf Rn a) (Hc : hcons (ar_headers a)).
Definition acache (cache : gmap nat R) : Prop := ∀ i x, cache !! i = Some x → ∃ d, repr a d i ∧ x = npra d.
Lemma nproba_spec n : rows_ok pv a → ∀ d id cache, repr a d id → rank d < n → acache cache →
  ∃ cache', nprob_f rO rI radd rmul hit n a pv id cache = Some (cache', npra d) ∧ acache cache'.
Proof.
  intros Hrows. induction n as [|n IH]; intros d id cache Hr Hn Hca; [lia|]. cbn [nprob_f].
  destruct (cache !! id) as [x|] eqn:Hhit.
  { destruct (Hca _ _ Hhit) as (di & Hdi & ->). rewrite (repr_fun _ _ _ _ Hr Hdi). by exists cache. }
  assert (Hins : ∀ cache1, acache cache1 → acache (<[id := npra d]> cache1)).
  { intros c1 Hc1 i x. rewrite lookup_insert_Some. intros [[<- <-]|[_ H]]; [by exists d|by apply Hc1]. }
  destruct d as [t|hd ds].
  - apply repr_leaf in Hr as [Hl Hnd]. rewrite Hnd. cbn [mbind option_bind]. eexists. split; [done|]. exact (Hins cache Hca).
  - pose proof (repr_E a Hwf Hc _ _ Hr) as [Hlen Hk]%okdd_br. pose proof Hr as [_ (h & cs & Hnd & Hh & Hf)]%repr_br. cbn [rank] in Hn.
    rewrite Hnd. cbn [mbind option_bind]. rewrite Hh. cbn [mbind option_bind].
    assert (Hin : hd ∈ ar_headers a) by (by eapply elem_of_list_lookup_2).
    destruct (Hrows hd Hin) as (fp & Hfp & Hfl). rewrite Hfp. cbn [mbind option_bind].
    unfold Ehs in Hlen. rewrite <- (Eof_edges (ar_headers a) (λ _, 0%nat) hd Hc Hin) in Hlen.
    lazymatch goal with |- context [?g 0%nat cs cache rO] => set (go := g) end.
    assert (Hgo : ∀ ds cs' i cache r, Forall2 (repr a) ds cs' → Forall (λ c, rank c ≤ h_level hd) ds → (i + length ds ≤ length fp)%nat → acache cache →
      ∃ cache', go i cs' cache r = Some (cache', acc r (drop i fp) (npra <$> ds)) ∧ acache cache').
    { clear Hca Hk Hf cache Hlen Hhit. intros ds' cs' i cache r Hf. revert i cache r.
      induction Hf as [|d c ds' cs' Hd _ IHf]; intros i cache r Hk Hi Hca.
      - exists cache. split; [|done]. cbn. do 2 f_equal. by destruct (drop i fp).
      - apply Forall_cons in Hk as [Hk Hks]. cbn [length] in Hi. cbn.
        destruct (IH d c cache Hd) as (c1 & -> & Hc1); [lia|done|]. cbn [mbind option_bind].
        destruct (lookup_lt_is_Some_2 fp i) as [p Hp]; [lia|]. rewrite Hp. cbn [mbind option_bind].
        destruct (IHf (S i) c1 (radd r (rmul p (npra d))) Hks) as (c2 & Heq & Hc2); [lia|done|]. exists c2. split; [|done].
        etransitivity; [exact Heq|]. do 2 f_equal. by rewrite (drop_S fp p i Hp). }
    destruct (Hgo ds cs 0%nat cache rO Hf) as (c' & Heq & Hc'); [|lia|done|].
    { eapply Forall_impl; [exact Hk|]. by intros ? [? _]. }
    rewrite Heq. cbn [mbind option_bind]. rewrite drop_0.
    assert (acc rO fp (npra <$> ds) = npra (Br hd ds)) as ->.
    { cbn [npra]. unfold arow. by rewrite Hfp. }
    eexists. split; [done|]. exact (Hins c' Hc').
Qed.
Lemma nproba_ok d id : rows_ok pv a → repr a d id → nprob rO rI radd rmul hit a pv id = Some (npra d).
Proof.
  intros Hrows Hr. unfold nprob.
  destruct (nproba_spec (ar_fuel a) Hrows d id ∅ Hr) as (c & -> & _); [by eapply a_fuel_enough|by intros ? ? ?|done].
Qed.
End code.

(** ** Errors *)
Definition close (E : R) (e : R) (t : f64) : Prop :=
  f64_finite t ∧ (0 <= f64_real t)%R ∧ (0 <= e <= 1)%R ∧ (Rabs (f64_real t - e) <= E)%R.
Lemma rsumR_cons x l : rsumR (x :: l) = (x + rsumR l)%R.
Proof. done. Qed.
Lemma rsumR_pos delta rs ps : Forall2 (approx delta) rs ps → (0 <= rsumR rs)%R.
Proof.
  induction 1 as [|r p rs ps (_ & H & _) _ IH]; [unfold ring_sum; cbn; lra|]. rewrite rsumR_cons. lra.
Qed.
Lemma acc_f64 delta E rs ps es ts : (0 <= delta)%R → (0 <= E <= 1)%R → Forall2 (approx delta) rs ps → Forall2 (close E) es ts →
  length es = length rs → ∀ s S D, f64_finite s → (0 <= f64_real s)%R → (0 <= S)%R → (S + rsumR rs <= 1)%R → (Rabs (f64_real s - S) <= D)%R →
  (D + INR (length rs) * (2 * delta + f64_epsilon) + rsumR rs * E <= 1)%R →
  f64_finite (acc f64_add f64_mul s ps ts) ∧ (0 <= f64_real (acc f64_add f64_mul s ps ts))%R ∧
  (S <= acc Rplus Rmult S rs es <= S + rsumR rs)%R ∧
  (Rabs (f64_real (acc f64_add f64_mul s ps ts) - acc Rplus Rmult S rs es) <= D + INR (length rs) * (2 * delta + f64_epsilon) + rsumR rs * E)%R.
Proof.
  intros Hdl HE Hf. revert es ts. induction Hf as [|r p rs ps Hp Hf IH]; intros es ts Hg Hlen s S D Fs Hs0 HS HSr Hs HD.
  - cbn in *. unfold ring_sum in *. cbn in *. refine (conj _ (conj _ (conj _ _))); [done|done|lra|]. lra.
  - destruct es as [|e es]; [done|]. inversion Hg as [|? t ? ts' Ht Hg' E1 E2]; subst. cbn [acc length] in *.
    rewrite rsumR_cons in *. rewrite S_INR in *. destruct Hp as (Up & Hr & Hpr). destruct Ht as (Ft & Ht0 & He & Ht).
    pose proof (rsumR_pos _ _ _ Hf) as Hpos. pose proof (pos_INR (length rs)) as Hn.
    assert (0 < f64_epsilon)%R as Heps by (rewrite eps_hu; pose proof hu_pos; lra).
    assert (0 <= INR (length rs) * (2 * delta + f64_epsilon))%R as H1 by (apply Rmult_le_pos; lra).
    assert (0 <= rsumR rs * E)%R as H2 by (apply Rmult_le_pos; lra).
    destruct (acc_step p r t e s S delta E D Up (proj1 Hr) Hpr Ft Ht0 He Ht (proj2 HE) Fs Hs0 HS) as (Fs' & Hs0' & Hs'); [lra|done|lra|].
    assert (0 <= r * e <= r)%R as Hre.
    { split; [apply Rmult_le_pos; lra|]. rewrite <- (Rmult_1_r r) at 2. apply Rmult_le_compat_l; lra. }
    destruct (IH es ts' Hg' ltac:(lia) _ (S + r * e)%R _ Fs' Hs0' ltac:(lra) ltac:(lra) Hs' ltac:(lra)) as (A1 & A2 & A3 & A4).
    refine (conj _ (conj _ (conj _ _))); [done|done|lra|]. lra.
Qed.

Section tree.
Context {T : Type} (hit : T → option bool) (delta : R) (Hdl : (0 <= delta)%R) (rv : gmap string (list R)) (pv : gmap string (list f64)).
Context (E : nat → nat).
(** the number of states of the variables below level [n] *)
Definition upto (n : nat) : nat := sum_list (E <$> seq 0 n).
Lemma upto_S n : upto (S n) = upto n + E n.
Proof. unfold upto. rewrite seq_S, fmap_app, sum_list_with_app. cbn. unfold id. lia. Qed.
Lemma upto_mono n m : n ≤ m → upto n ≤ upto m.
Proof. induction 1 as [|m _ IH]; [done|]. rewrite upto_S. lia. Qed.
Definition rowok (hd : header) : Prop := ∃ rs ps, rv !! h_label hd = Some rs ∧ pv !! h_label hd = Some ps ∧
  Forall2 (approx delta) rs ps ∧ rsumR rs = 1%R ∧ length rs = E (h_level hd).
Definition per : R := (2 * delta + f64_epsilon)%R.
Lemma per_pos : (0 < per)%R.
Proof. unfold per. rewrite eps_hu. pose proof hu_pos. lra. Qed.
Lemma npra_f64 d : okdd E d → allhd rowok d → (INR (upto (rank d)) * per <= 1)%R →
  close (INR (upto (rank d)) * per) (npra 0%R 1%R Rplus Rmult hit rv d) (npra f64_zero f64_one f64_add f64_mul hit pv d).
Proof.
  pose proof per_pos as Hper.
  induction d as [t|hd cs IH] using dd_ind'; intros Ho Hh Hb.
  - cbn [npra rank]. unfold upto. cbn. rewrite Rmult_0_l. unfold close.
    destruct (hit t) as [[]|]; rewrite ?one_real, ?zero_real, Rminus_diag_eq, Rabs_R0 by done;
      (refine (conj _ (conj _ (conj _ _))); [(apply one_finite || apply zero_finite)|lra|lra|lra]).
  - apply okdd_br in Ho as [Hlen Hcs]. apply allhd_br in Hh as [(rs & ps & Hrs & Hps & Hf & H1 & Hl) Hhs]. cbn [rank] in Hb |- *.
    rewrite upto_S, plus_INR, Rmult_plus_distr_r in Hb |- *. cbn [npra]. unfold arow. rewrite Hrs, Hps. cbn [default].
    set (B := (INR (upto (h_level hd)) * per)%R) in *.
    assert (0 <= INR (E (h_level hd)) * per)%R as HE0 by (apply Rmult_le_pos; [apply pos_INR|lra]).
    assert (0 <= B)%R as HB0 by (apply Rmult_le_pos; [apply pos_INR|lra]).
    assert (Hk : Forall2 (close B) (map (npra 0%R 1%R Rplus Rmult hit rv) cs) (map (npra f64_zero f64_one f64_add f64_mul hit pv) cs)).
    { apply Forall2_fmap, Forall_Forall2_diag. rewrite Forall_forall in *. intros c Hc. destruct (Hcs c Hc) as [Hrk Hok].
      assert (INR (upto (rank c)) * per <= B)%R as Hle.
      { apply Rmult_le_compat_r; [lra|]. by apply le_INR, upto_mono. }
      destruct (IH c Hc Hok (Hhs c Hc)) as (C1 & C2 & C3 & C4); [lra|]. unfold close. refine (conj _ (conj _ (conj _ _))); [done|done|apply C3|]. lra. }
    destruct (acc_f64 delta B rs ps _ _ Hdl ltac:(lra) Hf Hk) with (s := f64_zero) (S := 0%R) (D := 0%R) as (A1 & A2 & A3 & A4).
    + rewrite map_length. lia.
    + apply zero_finite.
    + rewrite zero_real. lra.
    + lra.
    + rewrite H1. lra.
    + rewrite zero_real, Rminus_diag_eq, Rabs_R0 by done. lra.
    + rewrite H1, Hl. fold per. lra.
    + rewrite H1 in A3. rewrite H1, Hl in A4. fold per in A4. rewrite Rplus_0_l in A3.
      refine (conj _ (conj _ (conj _ _))); [exact A1|exact A2|exact A3|]. eapply Rle_trans; [exact A4|]. lra.
Qed.
End tree.

(** ** Handles *)
Lemma upto_all hs : hcons hs → (∀ i hd, hs !! i = Some hd → h_level hd = i) →
  upto (Ehs hs) (length hs) = sum_list ((λ hd, (h_label hd, h_edges hd)) <$> hs).*2.
Proof.
  intros Hc Hlv. unfold upto. rewrite <- list_fmap_compose. f_equal.
  apply list_eq. intros i. rewrite !list_lookup_fmap. destruct (decide (i < length hs)) as [Hi|Hi].
  - destruct (lookup_lt_is_Some_2 hs i Hi) as [hd Hh]. rewrite lookup_seq_lt, Hh by done. cbn. by rewrite (Ehs_at hs i hd).
  - rewrite (lookup_ge_None_2 hs), lookup_seq_ge by lia. done.
Qed.

Lemma gen_f64 I {B : mbase} w H {T} (hit : T → option bool) (a : arena T) f P delta rv pv : gok I w H → halfok w hit a f P →
  (0 <= delta)%R → table_for (declared w) rv → sums_to_one 0%R 1%R Rplus (declared w) rv → table_rel (Forall2 (approx delta)) rv pv →
  (INR (states_of w) * per delta <= 1)%R →
  ∃ r e, nprob f64_zero f64_one f64_add f64_mul hit a pv f = Some r ∧ nprob 0%R 1%R Rplus Rmult hit a rv f = Some e ∧
    close (INR (states_of w) * per delta) e r.
Proof.
  intros Hk Hh Hdl Ht H1 Hrel Hb. destruct (half_hyps I w H Hk hit a f P Hh) as (Hc & Hlv & Hnd).
  pose proof (half_declared w hit a f P Hh) as Hde. destruct Hh as (Hwf & Hhs & d & Hd & HP).
  assert (Hrow : ∀ hd, hd ∈ ar_headers a → rowok delta rv pv (Ehs (ar_headers a)) hd).
  { intros hd (l & Hl)%elem_of_list_lookup. assert (Hin : (h_label hd, h_edges hd) ∈ declared w).
    { rewrite Hde. apply elem_of_list_fmap. exists hd. split; [done|]. by eapply elem_of_list_lookup_2. }
    destruct (Ht _ _ Hin) as (rs & Hrs & Hrl). pose proof (Hrel (h_label hd)) as Hp. rewrite Hrs in Hp.
    inversion Hp as [? ps Hf E1 E2|]. exists rs, ps. sp; [done|done|done|by eapply H1|]. rewrite Hrl, (Hlv _ _ Hl). by rewrite (Ehs_at _ l hd). }
  assert (Hlf : ∀ hd, hd ∈ ar_headers a → Ehs (ar_headers a) (h_level hd) = h_edges hd).
  { intros hd (l & Hl)%elem_of_list_lookup. rewrite (Hlv _ _ Hl). by rewrite (Ehs_at _ l hd). }
  exists (npra f64_zero f64_one f64_add f64_mul hit pv d), (npra 0%R 1%R Rplus Rmult hit rv d).
  assert (Hup : upto (Ehs (ar_headers a)) (rank d) ≤ states_of w).
  { unfold states_of. rewrite Hde, <- upto_all by done. apply upto_mono. by eapply repr_rank. }
  apply le_INR in Hup. pose proof (per_pos delta Hdl) as Hper.
  assert (INR (upto (Ehs (ar_headers a)) (rank d)) * per delta <= INR (states_of w) * per delta)%R as Hle
    by (apply Rmult_le_compat_r; lra).
  sp.
  - apply nproba_ok; [done|done| |done]. intros hd Hin. destruct (Hrow hd Hin) as (rs & ps & _ & Hps & Hf & _ & Hl).
    exists ps. split; [done|]. rewrite <- (Forall2_length _ _ _ Hf), Hl. by apply Hlf.
  - apply nproba_ok; [done|done| |done]. intros hd Hin. destruct (Hrow hd Hin) as (rs & ps & Hrs & _ & Hf & _ & Hl).
    exists rs. split; [done|]. rewrite Hl. by apply Hlf.
  - destruct (npra_f64 hit delta Hdl rv pv (Ehs (ar_headers a)) d) as (C1 & C2 & C3 & C4).
    + exact (repr_E a Hwf Hc _ _ Hd).
    + eapply repr_allhd; [|exact Hd]. intros h hd Hl. apply Hrow. by eapply elem_of_list_lookup_2.
    + lra.
    + refine (conj _ (conj _ (conj _ _))); [done|done|done|]. lra.
Qed.
Lemma held_f64 I w H x F ss delta rv pv L : mdd_held I w H → (x, Some F) ∈ H →
  (0 <= delta)%R → table_for (declared w) rv → sums_to_one 0%R 1%R Rplus (declared w) rv → table_rel (Forall2 (approx delta)) rv pv →
  (INR (states_of w) * per delta <= 1)%R → solutions (declared w) (declared w) F ss L →
  ∃ r, f64_mprob w x pv ss = Some r ∧ f64_finite r ∧ (0 <= f64_real r)%R ∧
    (Rabs (f64_real r - rsumR (mweight 0 1 Rmult rv (declared w) <$> L)) <= INR (states_of w) * per delta)%R.
Proof.
  intros Hm Hx Hdl Ht H1 Hrel Hb HL.
  destruct (held_prob I w H x F ss Hm Hx 0%R 1%R Rplus Rmult Rminus Ropp RTheory rv Ht H1) as [_ HR]. specialize (HR L HL).
  pose proof (held_gok I w H Hm) as Hk. pose proof (held_half I w H x F ss Hk Hx) as Hh.
  destruct x as [f|f]; cbn [g_prob] in HR; unfold f64_mprob; cbn [g_prob];
    destruct (gen_f64 I w H _ _ f _ delta rv pv Hk Hh Hdl Ht H1 Hrel Hb) as (r & e & Hr & He & C1 & C2 & C3 & C4);
    rewrite HR in He; injection He as ->; exists r; (refine (conj _ (conj _ (conj _ _))); done).
Qed.
