(** The laws of probability for handles of a BddMgr. *)
From Coq Require Import Ring_theory Ring.
From stdpp Require Import strings.
From Verif Require Import Prelude ComputeCache Arena Trees ArenaProofs Bdd BddProofs BssAlg BssMgr SpecBdd SpecBss SpecBssMgr BssLook SpecBssLook
  BddMain BssMgrProofs BssMgrMain BssLookProofs BssLookMain SpecLaws Laws.

Global Set Default Goal Selector "!".

(** ** functions of held handles depend on the declared variables only *)
Lemma held_agree w H f F names e e' : bss_held w H → (f, F) ∈ H → w_varorder w = Some names → (∀ x, x ∈ names → e x = e' x) → F e = F e'.
Proof.
  intros Hh Hf Hn Hag. destruct (held_names w H names Hh Hn) as (En & _ & _). apply held_wok in Hh as Hk.
  pose proof (wk_wf _ _ Hk) as Hw. pose proof (wk_held _ _ Hk _ _ Hf) as Hd.
  destruct (valid_repr _ _ Hw (proj1 Hd)) as [d Hr]. pose proof (good_ok _ _ _ (bw_good _ Hw) Hr) as O.
  pose proof (denotes_ev w H Hk f F d e Hd Hr) as E1. pose proof (denotes_ev w H Hk f F d e' Hd Hr) as E2.
  rewrite (asg_agree d (rho_of (w_bdd w) e) (rho_of (w_bdd w) e')) in E1; [|done|].
  - rewrite E1 in E2. by destruct (F e), (F e').
  - intros l Hl. pose proof (wok_rank w H Hk d f Hr) as Hrk. unfold rho_of.
    destruct (lookup_lt_is_Some_2 (ar_headers (b_ar (w_bdd w))) l) as [hd Hhd]; [lia|]. unfold lab. rewrite Hhd. cbn [fmap option_fmap option_map default].
    apply Hag. rewrite En. apply elem_of_list_fmap. exists hd. split; [done|]. by eapply elem_of_list_lookup_2.
Qed.

Lemma vec_env_true names v x : vec_env names v x = true ↔ ∃ i, names !! i = Some x ∧ v !! i = Some true.
Proof.
  unfold vec_env. rewrite existsb_exists. split.
  - intros ([y b] & Hin & [Hy Hb]%andb_true_iff). apply String.eqb_eq in Hy. cbn in Hy, Hb. subst y b.
    apply elem_of_list_In, elem_of_list_lookup in Hin as [i Hi]. apply lookup_zip_with_Some in Hi as (x' & b' & [= <- <-] & Hn & Hv). by exists i.
  - intros (i & Hn & Hv). exists (x, true). split; [|by rewrite String.eqb_refl].
    apply elem_of_list_In. eapply elem_of_list_lookup_2. apply lookup_zip_with_Some. by exists x, true.
Qed.

Section laws.
Context {R : Type} (rO rI : R) (radd rmul rsub : R → R → R) (ropp : R → R).
Context (Rth : ring_theory rO rI radd rmul rsub ropp eq).
Add Ring laws_ring : Rth.
Local Notation ex := (ex rO rI radd rmul rsub).
Local Notation pof := (pof rO).
Context (w : bmgr) (H : list (nat * nfun)) (names : list string) (Hheld : bss_held w H) (Hnames : w_varorder w = Some names).
Local Notation prob := (w_prob rO rI radd rmul rsub w).

Lemma held_nodup : NoDup names.
Proof. apply (held_names w H names Hheld Hnames). Qed.

Lemma held_ex pv ss f F : (f, F) ∈ H → prob pv ss f = Some (ex (pof pv names) (λ v, bool_decide (F (vec_env names v) ∈ ss))).
Proof.
  intros Hf. rewrite <- (sum_ex _ _ _ _ _ _ Rth). apply (held_prob w H f F names Hheld Hf Hnames rO rI radd rmul rsub ropp Rth).
  - apply NoDup_filter, bvecs_nodup.
  - intros v. rewrite elem_of_list_filter, bvecs_elem, bool_decide_eq_true. tauto.
Qed.
Lemma held_ex1 pv f F : (f, F) ∈ H → prob pv [true] f = Some (ex (pof pv names) (λ v, F (vec_env names v))).
Proof.
  intros Hf. rewrite (held_ex pv [true] f F Hf). f_equal. apply ex_ext. intros v _. rewrite (bool_decide_ext _ (F (vec_env names v) = true)) by apply elem_of_list_singleton.
  by destruct (F _).
Qed.
Lemma pof_length pv : length (pof pv names) = length names.
Proof. apply fmap_length. Qed.

Lemma law_split pv f F : (f, F) ∈ H → ∃ p q, prob pv [true] f = Some p ∧ prob pv [false] f = Some q ∧ radd p q = rI ∧ prob pv [false; true] f = Some rI ∧ prob pv [] f = Some rO.
Proof.
  intros Hf. eexists _, _. split; [by apply held_ex1|]. split; [by eapply held_ex|]. split; [|split].
  - rewrite (ex_ext _ _ _ _ _ _ (λ v, bool_decide (F (vec_env names v) ∈ [false])) (λ v, negb (F (vec_env names v)))).
    + rewrite (ex_neg _ _ _ _ _ _ Rth). ring.
    + intros v _. rewrite (bool_decide_ext _ (F (vec_env names v) = false)) by apply elem_of_list_singleton. by destruct (F _).
  - rewrite (held_ex pv _ f F Hf). f_equal. rewrite (ex_ext _ _ _ _ _ _ _ (λ _, true)); [apply (ex_const _ _ _ _ _ _ Rth)|].
    intros v _. apply bool_decide_eq_true. destruct (F _); [apply elem_of_list_further|]; apply elem_of_list_here.
  - rewrite (held_ex pv _ f F Hf). f_equal. rewrite (ex_ext _ _ _ _ _ _ _ (λ _, false)); [apply (ex_const _ _ _ _ _ _ Rth)|].
    intros v _. apply bool_decide_eq_false. apply not_elem_of_nil.
Qed.

Lemma law_not pv f F g G : (f, F) ∈ H → (g, G) ∈ H → (∀ e, G e = negb (F e)) →
  ∃ p q, prob pv [true] f = Some p ∧ prob pv [true] g = Some q ∧ q = rsub rI p.
Proof.
  intros Hf Hg He. eexists _, _. split; [by apply held_ex1|]. split; [by apply held_ex1|].
  rewrite <- (ex_neg _ _ _ _ _ _ Rth). apply ex_ext. intros v _. apply He.
Qed.

Lemma law_incl pv f F g G a A o O : (f, F) ∈ H → (g, G) ∈ H → (a, A) ∈ H → (o, O) ∈ H →
  (∀ e, A e = F e && G e) → (∀ e, O e = F e || G e) →
  ∃ pf pg pa po, prob pv [true] f = Some pf ∧ prob pv [true] g = Some pg ∧ prob pv [true] a = Some pa ∧ prob pv [true] o = Some po ∧
    radd pa po = radd pf pg.
Proof.
  intros Hf Hg Ha Ho HA HO. eexists _, _, _, _. do 4 (split; [by apply held_ex1|]).
  etrans; [|etrans; [apply (ex_incl _ _ _ _ _ _ Rth (pof pv names) (λ v, F (vec_env names v)) (λ v, G (vec_env names v)))|]]; [|ring].
  rewrite (ex_ext _ _ _ _ _ _ (λ v, A (vec_env names v)) (λ v, F (vec_env names v) && G (vec_env names v))) by (intros v _; apply HA).
  rewrite (ex_ext _ _ _ _ _ _ (λ v, O (vec_env names v)) (λ v, F (vec_env names v) || G (vec_env names v))) by (intros v _; apply HO). ring.
Qed.

Lemma pof_co pv pv' : (∀ x, x ∈ names → entry rO pv' x = rsub rI (entry rO pv x)) → pof pv' names = (λ p, rsub rI p) <$> pof pv names.
Proof.
  intros He. unfold Laws.pof. rewrite <- list_fmap_compose. apply list_fmap_ext. intros i x Hx. cbn [compose].
  apply (He x). by eapply elem_of_list_lookup_2.
Qed.
Lemma law_dual pv pv' f F g G : (f, F) ∈ H → (g, G) ∈ H → (∀ e, G e = negb (F (λ x, negb (e x)))) →
  (∀ x, x ∈ names → entry rO pv' x = rsub rI (entry rO pv x)) →
  ∃ p q, prob pv [true] f = Some p ∧ prob pv' [true] g = Some q ∧ q = rsub rI p.
Proof.
  intros Hf Hg He Hp. eexists _, _. split; [by apply held_ex1|]. split; [by apply held_ex1|].
  rewrite (pof_co pv pv' Hp), (ex_dual _ _ _ _ _ _ Rth), <- (ex_neg _ _ _ _ _ _ Rth). apply ex_ext. intros v Hv. rewrite He. f_equal.
  apply (held_agree w H f F names); [done|done|done|]. intros x [i Hi]%elem_of_list_lookup. cbn beta.
  rewrite !(vec_env_nth names _ i x held_nodup Hi). unfold vrho.
  destruct (lookup_lt_is_Some_2 v i) as [b Hb]; [rewrite Hv, pof_length; by eapply lookup_lt_Some|].
  rewrite (nth_lookup_Some v i false b Hb), (nth_lookup_Some (negb <$> v) i false (negb b)) by (by rewrite list_lookup_fmap, Hb). apply negb_involutive.
Qed.

Lemma pof_insert pv x r i : names !! i = Some x → pof (<[x := r]> pv) names = <[i := r]> (pof pv names).
Proof.
  intros Hi. apply list_eq. intros j. destruct (decide (i = j)) as [<-|Hne].
  - rewrite list_lookup_insert by (rewrite pof_length; by eapply lookup_lt_Some). unfold Laws.pof. rewrite list_lookup_fmap, Hi. cbn. by rewrite lookup_insert.
  - rewrite list_lookup_insert_ne by done. unfold Laws.pof. rewrite !list_lookup_fmap. destruct (names !! j) as [y|] eqn:Hj; [|done]. cbn.
    rewrite lookup_insert_ne; [done|]. intros <-. apply Hne. exact (NoDup_lookup names i j x held_nodup Hi Hj).
Qed.
Lemma pof_out pv x r : x ∉ names → pof (<[x := r]> pv) names = pof pv names.
Proof.
  intros Hx. unfold Laws.pof. apply list_fmap_ext. intros i y Hy. rewrite lookup_insert_ne; [done|]. intros <-. apply Hx. by eapply elem_of_list_lookup_2.
Qed.

Lemma law_pivot pv ss f F x : (f, F) ∈ H →
  ∃ p p1 p0, prob pv ss f = Some p ∧ prob (<[x := rI]> pv) ss f = Some p1 ∧ prob (<[x := rO]> pv) ss f = Some p0 ∧
    p = radd (rmul (entry rO pv x) p1) (rmul (rsub rI (entry rO pv x)) p0).
Proof.
  intros Hf. eexists _, _, _. do 3 (split; [by eapply held_ex|]). destruct (decide (x ∈ names)) as [[i Hi]%elem_of_list_lookup|Hx].
  - rewrite !(pof_insert pv x _ i Hi).
    rewrite (ex_pivot _ _ _ _ _ _ Rth (pof pv names) i (entry rO pv x)); [ring|]. unfold Laws.pof. by rewrite list_lookup_fmap, Hi.
  - rewrite !pof_out by done. ring.
Qed.

Lemma law_same pv ss f F x r : (f, F) ∈ H → ¬ needs F x → prob (<[x := r]> pv) ss f = prob pv ss f.
Proof.
  intros Hf Hx. rewrite !(held_ex _ ss f F Hf). f_equal. destruct (decide (x ∈ names)) as [[i Hi]%elem_of_list_lookup|Hout]; [|by rewrite pof_out].
  rewrite (pof_insert pv x r i Hi). apply (ex_same _ _ _ _ _ _ Rth). intros v b Hv. cut (F (vec_env names (<[i := b]> v)) = F (vec_env names v)); [by intros ->|].
  assert (Hb : ∀ e b b', F (env_set e x b) = F (env_set e x b')).
  { intros e. assert (F (env_set e x true) = F (env_set e x false)) as E by (apply dec_stable; intros Hne; apply Hx; by exists e). intros [] []; congruence. }
  transitivity (F (env_set (vec_env names v) x b)).
  - apply (held_agree w H f F names); [done|done|done|]. intros y [j Hj]%elem_of_list_lookup. rewrite (vec_env_nth names _ j y held_nodup Hj).
    unfold env_set. destruct (decide (y = x)) as [->|Hne].
    + assert (i = j) as <- by exact (NoDup_lookup names i j x held_nodup Hi Hj). unfold vrho. apply nth_lookup_Some. apply list_lookup_insert.
      rewrite Hv, pof_length. by eapply lookup_lt_Some.
    + rewrite (vec_env_nth names v j y held_nodup Hj). unfold vrho. rewrite !nth_lookup. f_equal. apply list_lookup_insert_ne. intros ->. congruence.
  - rewrite (Hb _ b (vec_env names v x)). apply (held_agree w H f F names); [done|done|done|]. intros y _. unfold env_set. by destruct (decide (y = x)) as [->|].
Qed.

(** ** inequalities *)
Context (le : R → R → Prop) (Hle : ordered rO rI radd rmul le).
Definition inside (pv : gmap string R) : Prop := ∀ x, x ∈ names → le rO (entry rO pv x) ∧ le (entry rO pv x) rI.
Lemma inside_pof pv : inside pv → Forall (prob01 rO rI le) (pof pv names).
Proof. intros Hp. apply Forall_forall. intros p (x & -> & Hx)%elem_of_list_fmap. apply (Hp x Hx). Qed.

Lemma law_range pv ss f F : (f, F) ∈ H → inside pv → ∃ p, prob pv ss f = Some p ∧ le rO p ∧ le p rI.
Proof. intros Hf Hp. eexists. split; [by eapply held_ex|]. apply (ex_01 _ _ _ _ _ _ Rth le Hle). by apply inside_pof. Qed.

Lemma law_mono pv f F g G : (f, F) ∈ H → (g, G) ∈ H → inside pv → (∀ e, F e = true → G e = true) →
  ∃ p q, prob pv [true] f = Some p ∧ prob pv [true] g = Some q ∧ le p q.
Proof.
  intros Hf Hg Hp HFG. eexists _, _. split; [by apply held_ex1|]. split; [by apply held_ex1|].
  apply (ex_mono _ _ _ _ _ _ Rth le Hle); [by apply inside_pof|]. intros v _. apply HFG.
Qed.

Lemma up_of F : increasing F → upward (λ v, F (vec_env names v)).
Proof.
  intros Hi u v Huv. apply Hi. intros x (i & Hn & Hu)%vec_env_true. apply vec_env_true. exists i. split; [done|].
  destruct (Forall2_lookup_l _ _ _ _ _ Huv Hu) as (b & Hb & Hab). by rewrite Hb, (Hab eq_refl).
Qed.
Lemma law_table pv pv' f F : (f, F) ∈ H → increasing F → inside pv → inside pv' → (∀ x, x ∈ names → le (entry rO pv x) (entry rO pv' x)) →
  ∃ p q, prob pv [true] f = Some p ∧ prob pv' [true] f = Some q ∧ le p q.
Proof.
  intros Hf Hi Hp Hq Hpq. eexists _, _. split; [by apply held_ex1|]. split; [by apply held_ex1|].
  apply (ex_table _ _ _ _ _ _ Rth le Hle); [by apply up_of|by apply inside_pof|by apply inside_pof|].
  unfold Laws.pof. apply Forall2_fmap, Forall_Forall2_diag, Forall_forall. exact Hpq.
Qed.

Lemma law_meas pv f F : (f, F) ∈ H → increasing F → inside pv → ∃ g, w_bmeas rO rI radd rmul rsub w pv [true] f = Some g ∧
  ∀ x v, g !! x = Some v → le rO v ∧ le v rI.
Proof.
  intros Hf Hi Hp. destruct (held_bmeas w H f F names Hheld Hf Hnames rO rI radd rmul rsub ropp Rth pv [true]) as (g & E & _ & Hg).
  exists g. split; [done|]. intros x v Hv. destruct (Hg x) as (p1 & p0 & E1 & E0 & Hd). rewrite Hv in Hd. cbn in Hd. subst v.
  assert (H01 : le rO rI) by apply (ord_one _ _ _ _ _ Hle).
  assert (Hin : ∀ b : bool, inside (<[x := if b then rI else rO]> pv)).
  { intros b y Hy. unfold entry. destruct (decide (y = x)) as [->|Hne]; [rewrite lookup_insert|rewrite lookup_insert_ne by done; by apply Hp].
    cbn [default]. destruct b; split; first [done|apply (ord_refl _ _ _ _ _ Hle)]. }
  destruct (law_table (<[x := rO]> pv) (<[x := rI]> pv) f F Hf Hi (Hin false) (Hin true)) as (q0 & q1 & F0 & F1 & Hq).
  { intros y Hy. unfold entry. destruct (decide (y = x)) as [->|Hne]; [by rewrite !lookup_insert|]. rewrite !lookup_insert_ne by done. apply (ord_refl _ _ _ _ _ Hle). }
  rewrite E0 in F0. rewrite E1 in F1. injection F0 as <-. injection F1 as <-.
  destruct (law_range (<[x := rO]> pv) [true] f F Hf (Hin false)) as (a & Ea & La & _). rewrite E0 in Ea. injection Ea as <-.
  destruct (law_range (<[x := rI]> pv) [true] f F Hf (Hin true)) as (b & Eb & _ & Lb). rewrite E1 in Eb. injection Eb as <-.
  split; [exact (proj1 (le_diff _ _ _ _ _ _ Rth le Hle p0 p1) Hq)|].
  apply (ord_trans _ _ _ _ _ Hle _ p1); [|done]. apply (proj2 (le_diff _ _ _ _ _ _ Rth le Hle (rsub p1 p0) p1)). replace (rsub p1 (rsub p1 p0)) with p0 by ring. done.
Qed.
End laws.
