(** Correctness of the MDD operations (internal lemmas, stated on trees). *)
From Verif Require Import Prelude ComputeCache ComputeCacheProofs Arena Trees ArenaProofs Bdd ArenaMore Mdd.
From Verif Require BddProofs.
From Verif Require Import NaryProofs.

Notation kand := BddProofs.kand.
Notation kor := BddProofs.kor.
Notation knot := BddProofs.knot.
Notation kxor := BddProofs.kxor.
Notation Rite := BddProofs.Rite.
Definition Rnot1 (a r : tv) : Prop := r = knot a.
Definition Rrepl (a b r : tv) : Prop := r = match a with TUndet => b | _ => a end.

Definition mrel (o : mop) : tv → tv → tv → Prop :=
  match o with
  | MNot => BddProofs.Rnot | MAnd => BddProofs.Rand | MOr => BddProofs.Ror | MXOr => BddProofs.Rxor
  | MReplace => Rrepl
  end.

(** ** Invariant *)
Record mgood (a : arena tv) : Prop := {
  mg_wf : awf Rn a;
  mg_zero : repr a (Leaf TZero) mdd_zero;
  mg_one : repr a (Leaf TOne) mdd_one;
  mg_undet : repr a (Leaf TUndet) mdd_undet;
  mg_hc : hcons (ar_headers a);
}.

Definition mcentry (a : arena tv) (k : N * N * N) (v : N) : Prop :=
  ∃ o df dg dr, k.1.1 = mop_code o ∧
    repr a df (N.to_nat k.1.2) ∧ repr a dg (N.to_nat k.2) ∧ repr a dr (N.to_nat v) ∧
    rank dr ≤ rank df `max` rank dg ∧ P2 (ar_headers a) (mrel o) df dg dr.
Definition mientry (a : arena tv) (k : N * N * N) (v : N) : Prop :=
  ∃ df dg dh dr, repr a df (N.to_nat k.1.1) ∧ repr a dg (N.to_nat k.1.2) ∧ repr a dh (N.to_nat k.2) ∧
    repr a dr (N.to_nat v) ∧
    rank dr ≤ rank df `max` rank dg `max` rank dh ∧ P3 (ar_headers a) Rite df dg dh dr.

Record mwf (m : mdd) : Prop := {
  mw_good : mgood (d_ar m);
  mw_c : cache_ok (d_cache m) (mcentry (d_ar m));
  mw_i : cache_ok (d_ite m) (mientry (d_ar m));
}.

Definition mstep (m m' : mdd) : Prop :=
  mwf m' ∧ ext (d_ar m) (d_ar m') ∧ ar_headers (d_ar m') = ar_headers (d_ar m).

Lemma mstep_refl m : mwf m → mstep m m.
Proof. intros. split; [done|]. split; [apply ext_refl|done]. Qed.
Lemma mstep_trans m1 m2 m3 : mstep m1 m2 → mstep m2 m3 → mstep m1 m3.
Proof.
  intros (_ & H1 & H2) (? & H3 & H4). split; [done|]. split; [by eapply ext_trans|congruence].
Qed.
Lemma mstep_refl2 m m' : mstep m m' → mstep m' m'.
Proof. intros [? _]. by apply mstep_refl. Qed.

Lemma mop_code_inj o o' : mop_code o = mop_code o' → o = o'.
Proof. by destruct o, o'. Qed.

Lemma mcentry_mono a a' k v : ext a a' → mcentry a k v → mcentry a' k v.
Proof.
  intros He (o & df & dg & dr & Ho & Hf & Hg & Hr & Hk & Hp). exists o, df, dg, dr.
  sp; try done; try (by eapply repr_mono). eapply P2_mono; [by apply ext_hdr|done].
Qed.
Lemma mientry_mono a a' k v : ext a a' → mientry a k v → mientry a' k v.
Proof.
  intros He (df & dg & dh & dr & Hf & Hg & Hh & Hr & Hk & Hp). exists df, dg, dh, dr.
  sp; try done; try (by eapply repr_mono). eapply P3_mono; [by apply ext_hdr|done].
Qed.

Lemma mgood_mono a a' : mgood a → awf Rn a' → ext a a' → ar_headers a' = ar_headers a → mgood a'.
Proof.
  intros [? ? ? ? He] Hwf Hext Hh. constructor; try done; try by eapply repr_mono.
  by rewrite Hh.
Qed.

Lemma mwith_ar_step m a : mwf m → mgood a → ext (d_ar m) a → ar_headers a = ar_headers (d_ar m) →
  mstep m (mdd_with_ar m a).
Proof.
  intros Hw Hg He Hh. split; [|done]. destruct Hw as [? Hc Hi]. constructor; try done; cbn.
  - eapply cache_ok_mono; [|done]. intros k v. by apply mcentry_mono.
  - eapply cache_ok_mono; [|done]. intros k v. by apply mientry_mono.
Qed.

Lemma m_okh m d id : mwf m → repr (d_ar m) d id → okh (ar_headers (d_ar m)) d.
Proof. intros [[] _ _]. by eapply repr_okh. Qed.

(** ** create_node *)
Lemma mcreate_node m h hd ns (PP : nat → dd tv → Prop) : mwf m → ar_headers (d_ar m) !! h = Some hd →
  length ns = h_edges hd →
  (∀ i r, ns !! i = Some r → ∃ d, repr (d_ar m) d r ∧ rank d ≤ h_level hd ∧ PP i d) →
  ∃ m' r dr ds, mdd_create_node m h ns = (m', r) ∧ mstep m m' ∧ repr (d_ar m') dr r ∧
    rank dr ≤ S (h_level hd) ∧ mkrel hd ds dr ∧ length ds = h_edges hd ∧
    (∀ i d, ds !! i = Some d → PP i d).
Proof.
  intros Hw Hh Hlen Hns. destruct (trees_of _ _ _ _ Hns) as (ds & Hf & Hfk & Hl & Hpp).
  pose proof (mw_good _ Hw) as Hg.
  destruct (mknode_spec (d_ar m) h hd ns ds) as (dr & Hmk & Hr); try done; [apply Hg|apply Hg|].
  unfold mdd_create_node. destruct (all_same ns) as [x|].
  - exists m, x, dr, ds. sp; try done.
    + by eapply mkrel_rank.
    + congruence.
  - destruct Hr as (a' & id & -> & Hwf & He & Hhd & Hr & _).
    exists (mdd_with_ar m a'), id, dr, ds. sp; try done.
    + apply mwith_ar_step; try done. by eapply mgood_mono.
    + by eapply mkrel_rank.
    + congruence.
Qed.

(** ** Caches *)
Lemma mcache_get m o f g df dg : mwf m → repr (d_ar m) df f → repr (d_ar m) dg g →
  ∃ r, mdd_cache_get m o f g = Some r ∧
    ∀ x, r = Some x → ∃ dr, repr (d_ar m) dr x ∧ rank dr ≤ rank df `max` rank dg ∧
      P2 (ar_headers (d_ar m)) (mrel o) df dg dr.
Proof.
  intros Hw Hf Hg. unfold mdd_cache_get.
  destruct (cache_ok_get _ _ (mop_code o) (N.of_nat f) (N.of_nat g) (mw_c _ Hw)) as (r & -> & Hr).
  cbn [mbind option_bind]. eexists. split; [done|]. intros x Hx. destruct r as [v|]; [|done].
  injection Hx as <-. destruct (Hr v eq_refl) as (o' & df' & dg' & dr & Ho & Hf' & Hg' & Hr' & Hk & Hp).
  cbn in *. rewrite !Nat2N.id in *. apply mop_code_inj in Ho as <-.
  rewrite (repr_fun _ _ _ _ Hf Hf'), (repr_fun _ _ _ _ Hg Hg'). by exists dr.
Qed.
Lemma mcache_put m o f g r df dg dr : mwf m →
  repr (d_ar m) df f → repr (d_ar m) dg g → repr (d_ar m) dr r →
  rank dr ≤ rank df `max` rank dg → P2 (ar_headers (d_ar m)) (mrel o) df dg dr →
  ∃ m', mdd_cache_put m o f g r = Some m' ∧ mstep m m' ∧ d_ar m' = d_ar m.
Proof.
  intros Hw Hf Hg Hr Hk Hp. unfold mdd_cache_put.
  destruct (cache_ok_put _ _ (mop_code o) (N.of_nat f) (N.of_nat g) (N.of_nat r) (mw_c _ Hw)) as (c' & -> & Hc).
  { exists o, df, dg, dr. cbn. rewrite !Nat2N.id. done. }
  cbn [mbind option_bind]. eexists. split; [done|]. split; [|done]. split; [|by split; [apply ext_refl|]].
  destruct Hw. by constructor.
Qed.
Lemma mite_get m f g h df dg dh : mwf m →
  repr (d_ar m) df f → repr (d_ar m) dg g → repr (d_ar m) dh h →
  ∃ r, mdd_ite_get m f g h = Some r ∧
    ∀ x, r = Some x → ∃ dr, repr (d_ar m) dr x ∧ rank dr ≤ rank df `max` rank dg `max` rank dh ∧
      P3 (ar_headers (d_ar m)) Rite df dg dh dr.
Proof.
  intros Hw Hf Hg Hh. unfold mdd_ite_get.
  destruct (cache_ok_get _ _ (N.of_nat f) (N.of_nat g) (N.of_nat h) (mw_i _ Hw)) as (r & -> & Hr).
  cbn [mbind option_bind]. eexists. split; [done|]. intros x Hx. destruct r as [v|]; [|done].
  injection Hx as <-. destruct (Hr v eq_refl) as (df' & dg' & dh' & dr & Hf' & Hg' & Hh' & Hr' & Hk & Hp).
  cbn in *. rewrite !Nat2N.id in *.
  rewrite (repr_fun _ _ _ _ Hf Hf'), (repr_fun _ _ _ _ Hg Hg'), (repr_fun _ _ _ _ Hh Hh'). by exists dr.
Qed.
Lemma mite_put m f g h r df dg dh dr : mwf m →
  repr (d_ar m) df f → repr (d_ar m) dg g → repr (d_ar m) dh h → repr (d_ar m) dr r →
  rank dr ≤ rank df `max` rank dg `max` rank dh → P3 (ar_headers (d_ar m)) Rite df dg dh dr →
  ∃ m', mdd_ite_put m f g h r = Some m' ∧ mstep m m' ∧ d_ar m' = d_ar m.
Proof.
  intros Hw Hf Hg Hh Hr Hk Hp. unfold mdd_ite_put.
  destruct (cache_ok_put _ _ (N.of_nat f) (N.of_nat g) (N.of_nat h) (N.of_nat r) (mw_i _ Hw)) as (c' & -> & Hc).
  { exists df, dg, dh, dr. cbn. rewrite !Nat2N.id. done. }
  cbn [mbind option_bind]. eexists. split; [done|]. split; [|done]. split; [|by split; [apply ext_refl|]].
  destruct Hw. by constructor.
Qed.

(** ** Postcondition of an operation *)
Definition mres (Rel : tv → tv → tv → Prop) m df dg (o : option (mdd * nat)) : Prop :=
  ∃ m' r dr, o = Some (m', r) ∧ mstep m m' ∧ repr (d_ar m') dr r ∧
    rank dr ≤ rank df `max` rank dg ∧ P2 (ar_headers (d_ar m)) Rel df dg dr.

Lemma mfinish o m f g df dg (x : option (mdd * nat)) :
  mwf m → repr (d_ar m) df f → repr (d_ar m) dg g →
  mres (mrel o) m df dg x →
  mres (mrel o) m df dg ('(m, result) ← x; m ← mdd_cache_put m o f g result; Some (m, result)).
Proof.
  intros Hw0 Hf Hg (m' & r & dr & -> & Hst & Hr & Hk & Hp). cbn [mbind option_bind].
  pose proof Hst as (Hw' & He & Hh).
  destruct (mcache_put m' o f g r df dg dr) as (m'' & -> & Hst3 & Ha); try done.
  { by eapply repr_mono. }
  { by eapply repr_mono. }
  { by rewrite Hh. }
  cbn [mbind option_bind]. exists m'', r, dr. rewrite Ha. sp; try done. by eapply mstep_trans.
Qed.

Lemma mres_const Rel m df dg r dr : mwf m → repr (d_ar m) dr r →
  rank dr ≤ rank df `max` rank dg → P2 (ar_headers (d_ar m)) Rel df dg dr → mres Rel m df dg (Some (m, r)).
Proof. intros. exists m, r, dr. sp; done. Qed.

(** recursive calls on the cofactors, then create_node *)
Lemma mrec {A} m h hd (ps : list A) (F : mdd → A → option (mdd * nat)) (PP : nat → dd tv → Prop) :
  mwf m → ar_headers (d_ar m) !! h = Some hd → length ps = h_edges hd →
  (∀ i p m', ps !! i = Some p → mstep m m' →
     ∃ m'' r dr, F m' p = Some (m'', r) ∧ mstep m' m'' ∧ repr (d_ar m'') dr r ∧ rank dr ≤ h_level hd ∧ PP i dr) →
  ∃ m' ns m2 r dr ds, mapst F m ps = Some (m', ns) ∧ mdd_create_node m' h ns = (m2, r) ∧ mstep m m2 ∧
    repr (d_ar m2) dr r ∧ rank dr ≤ S (h_level hd) ∧ mkrel hd ds dr ∧ length ds = h_edges hd ∧
    (∀ i d, ds !! i = Some d → PP i d).
Proof.
  intros Hw Hh Hlen HF.
  pose proof (mapst_idx mstep d_ar (λ _ _, False) F ps m (h_level hd) PP mstep_trans mstep_refl2 (mstep_refl m Hw))
    as Hm.
  destruct (mapst F m ps) as [[m1 ns]|].
  - destruct Hm as (Hst & Hlns & Hns).
    { by intros x y (_ & ? & _). }
    { intros i p s' Hi Hs'. destruct (HF i p s' Hi Hs') as (m'' & r & dr & -> & ? & ?). split; [done|]. by exists dr. }
    pose proof Hst as (Hw1 & He1 & Hh1).
    destruct (mcreate_node m1 h hd ns PP) as (m2 & r & dr & ds & Hc & Hst2 & Hr & Hk & Hmk & Hds & HPP); try done.
    { by rewrite Hh1. }
    { congruence. }
    exists m1, ns, m2, r, dr, ds. sp; try done. by eapply mstep_trans.
  - exfalso. destruct Hm as (i & p & _ & []).
    { by intros x y (_ & ? & _). }
    { intros i p s' Hi Hs'. destruct (HF i p s' Hi Hs') as (m'' & r & dr & -> & ? & ?). split; [done|]. by exists dr. }
Qed.

Lemma mrecurse {A} Rel m h hd df dg (ps : list A) (F : mdd → A → option (mdd * nat)) :
  mwf m → ar_headers (d_ar m) !! h = Some hd →
  okh (ar_headers (d_ar m)) df → okh (ar_headers (d_ar m)) dg →
  rank df `max` rank dg = S (h_level hd) → length ps = h_edges hd →
  (∀ i p m', ps !! i = Some p → mstep m m' →
     ∃ m'' r dr, F m' p = Some (m'', r) ∧ mstep m' m'' ∧ repr (d_ar m'') dr r ∧ rank dr ≤ h_level hd ∧
       P2 (ar_headers (d_ar m)) Rel (cof df (h_level hd) i) (cof dg (h_level hd) i) dr) →
  mres Rel m df dg ('(m, ns) ← mapst F m ps; Some (mdd_create_node m h ns)).
Proof.
  intros Hw Hh Hof Hog Hmax Hlen HF.
  destruct (mrec m h hd ps F _ Hw Hh Hlen HF) as (m' & ns & m2 & r & dr & ds & -> & Hc & Hst & Hr & Hk & Hmk & Hds & HPP).
  cbn [mbind option_bind]. rewrite Hc. exists m2, r, dr. sp; try done; [lia|].
  eapply shannon2; try done; [apply (mw_good _ Hw)|by eapply elem_of_list_lookup_2].
Qed.

(** ** not *)
Lemma mnot_spec n : ∀ m f df, mwf m → repr (d_ar m) df f → rank df < n →
  mres (mrel MNot) m df (Leaf TZero) (mdd_not_f n m f).
Proof.
  induction n as [|n IH]; intros m f df Hw Hf Hn; [lia|]. cbn [mdd_not_f].
  pose proof (mw_good _ Hw) as Hg. pose proof (mg_zero _ Hg) as Hz.
  destruct (mcache_get m MNot f 0 df (Leaf TZero) Hw Hf Hz) as (hit & -> & Hhit). cbn [mbind option_bind].
  destruct hit as [x|].
  { destruct (Hhit x eq_refl) as (dr & Hr & Hk & Hp). by eapply mres_const. }
  pose proof (m_okh _ _ _ Hw Hf) as Ho.
  destruct df as [t|hd ds].
  - pose proof Hf as [Hl Ht]%repr_leaf. rewrite Ht. cbn [mbind option_bind].
    apply (mfinish MNot); try done.
    destruct t; (eapply mres_const; [done|by apply Hg|done|]);
      (apply P2_intro; [done..|]; intros ρ a b r _; cbn; intros [= <-] [= <-] [= <-]; done).
  - pose proof Hf as [Hl (h & cs & Hnd & Hh & Hcs)]%repr_br. rewrite Hnd. cbn [mbind option_bind].
    apply (mfinish MNot); try done. cbn [rank] in Hn.
    destruct (aw_nt _ _ (mg_wf _ Hg) _ _ _ Hl Hnd) as (hd' & Hh' & Hlen & _). simplify_eq.
    eapply (mrecurse _ m h hd); try done.
    intros i p m' Hi (Hw' & He' & Hh1).
    destruct (repr_kid _ _ _ _ _ _ _ _ _ (mg_wf _ Hg) Hf Hnd Hi) as [Hrc Hkc].
    destruct (IH m' p (cof (Br hd ds) (h_level hd) i) Hw') as (m'' & r & dr & -> & Hst & Hr & Hk & Hp).
    { by eapply repr_mono. }
    { lia. }
    exists m'', r, dr. sp; try done; [cbn [rank] in Hk; lia|by rewrite Hh1 in Hp].
Qed.

(** ** binary operations *)
Definition marm_ok (o : mop) m df dg (x : arm) : Prop :=
  match x with
  | ARet x => ∃ dr, repr (d_ar m) dr x ∧ rank dr ≤ rank df `max` rank dg ∧
                P2 (ar_headers (d_ar m)) (mrel o) df dg dr
  | ANeg x => ∃ dx, repr (d_ar m) dx x ∧ rank dx ≤ rank df `max` rank dg ∧
                ∀ dr, P2 (ar_headers (d_ar m)) (mrel MNot) dx (Leaf TZero) dr →
                  P2 (ar_headers (d_ar m)) (mrel o) df dg dr
  | ARec => 0 < rank df `max` rank dg
  end.

Lemma marm_spec o m f g df dg fn gn : o ≠ MNot → mwf m → repr (d_ar m) df f → repr (d_ar m) dg g →
  ar_nodes (d_ar m) !! f = Some fn → ar_nodes (d_ar m) !! g = Some gn →
  marm_ok o m df dg (mop_arm o f g fn gn).
Proof.
  intros Ho Hw Hf Hg Hfn Hgn. pose proof (mw_good _ Hw) as Hgd.
  pose proof (m_okh _ _ _ Hw Hf) as Of. pose proof (m_okh _ _ _ Hw Hg) as Og.
  assert (Kf : match df with Leaf t => fn = Term t | Br _ _ => ∃ h cs, fn = NT h cs end).
  { destruct df as [t|hd ds]; [apply repr_leaf in Hf as [_ Hf]; congruence|].
    apply repr_br in Hf as [_ (h & cs & Hn & _)]. rewrite Hfn in Hn. injection Hn as ->. eauto. }
  assert (Kg : match dg with Leaf t => gn = Term t | Br _ _ => ∃ h cs, gn = NT h cs end).
  { destruct dg as [t|hd ds]; [apply repr_leaf in Hg as [_ Hg]; congruence|].
    apply repr_br in Hg as [_ (h & cs & Hn & _)]. rewrite Hgn in Hn. injection Hn as ->. eauto. }
  assert (HF : ∀ dx, okh (ar_headers (d_ar m)) dx → (∀ ρ a b r, eval ρ df = Some a → eval ρ dg = Some b →
     eval ρ dx = Some r → mrel o a b r) → P2 (ar_headers (d_ar m)) (mrel o) df dg dx).
  { intros dx Ox HR. apply P2_intro; try done. intros ρ a b r _. apply HR. }
  assert (Cz : okh (ar_headers (d_ar m)) (Leaf TZero : dd tv)) by done.
  assert (Hff : f = g → df = dg).
  { intros ->. by eapply repr_fun. }
  destruct df as [tf|hdf dsf], dg as [tg|hdg dsg];
    [subst fn gn|subst fn; destruct Kg as (hg & gc & ->)|destruct Kf as (hf & fc & ->); subst gn
    |destruct Kf as (hf & fc & ->), Kg as (hg & gc & ->)]; destruct o; try done.
  all: try (destruct tf); try (destruct tg); cbn [mop_arm mdd_and_arm mdd_or_arm mdd_xor_arm mdd_replace_arm].
  all: try (destruct (Nat.eqb_spec f g) as [Heq|Hne]; [apply Hff in Heq; injection Heq as <- <-|]).
  all: try (cbn [marm_ok rank]; lia).
  all: cbn [marm_ok].
  all: let fin := (apply HF; [done|]; intros ρ a b r E1 E2 E3; try (cbn in E1); try (cbn in E2); try (cbn in E3);
         simplify_eq; try (destruct a); try (destruct b); solve [vm_compute; intuition congruence]) in
   let neg d := (exists d; split; [done|]; split; [cbn; lia|]; intros dr HP ρ Hv;
         destruct (HP ρ Hv) as (a & b & r & E1 & E2 & E3 & HR); cbn in HR; unfold BddProofs.Rnot in HR; subst r;
         do 3 eexists; split; [first [done|cbn; reflexivity]|]; split; [first [exact E1|reflexivity]|];
         split; [exact E3|]; destruct a; vm_compute; intuition congruence) in
   let go d := (exists d; split; [first [done|by apply Hgd]|]; split; [cbn; lia|]; fin) in
   first
   [ go (Leaf TZero : dd tv) | go (Leaf TOne : dd tv) | go (Leaf TUndet : dd tv)
   | match type of Hf with repr _ ?d _ => go d end
   | match type of Hg with repr _ ?d _ => go d end
   | match type of Hf with repr _ ?d _ => neg d end
   | match type of Hg with repr _ ?d _ => neg d end
   | exists (Leaf TOne); split; [done|]; split; [cbn; lia|]; intros dr HP ρ Hv;
     destruct (HP ρ Hv) as (a & b & r & E1 & E2 & E3 & HR); cbn in HR, E1; unfold BddProofs.Rnot in HR; subst r;
     injection E1 as <-; exists TOne, TOne, (knot TOne); sp; try done ].
Qed.

Lemma rel_sym o a b r : mop_swap o = true → mrel o a b r → mrel o b a r.
Proof.
  destruct o; try done; intros _; cbn; unfold BddProofs.Rand, BddProofs.Ror, BddProofs.Rxor;
    destruct a, b, r; vm_compute; intuition congruence.
Qed.

Lemma mbin_spec o : o ≠ MNot → ∀ n m f g df dg, mwf m → repr (d_ar m) df f → repr (d_ar m) dg g →
  rank df `max` rank dg < n → mres (mrel o) m df dg (mdd_bin_f o n m f g).
Proof.
  intros Ho. induction n as [|n IH]; intros m f g df dg Hw Hf Hg Hn; [lia|]. cbn [mdd_bin_f].
  assert (Hsw : ∃ f' g' df' dg', (if mop_swap o && (g <? f) then (g, f) else (f, g)) = (f', g') ∧
    repr (d_ar m) df' f' ∧ repr (d_ar m) dg' g' ∧ rank df' `max` rank dg' < S n ∧
    (∀ x, mres (mrel o) m df' dg' x → mres (mrel o) m df dg x)).
  { destruct (mop_swap o && (g <? f)) eqn:Hs.
    - apply andb_true_iff in Hs as [Hs _]. exists g, f, dg, df. sp; try done; [lia|].
      intros x (m' & r & dr & -> & Hst & Hr & Hk & Hp). exists m', r, dr. sp; try done; [lia|].
      intros ρ Hv. destruct (Hp ρ Hv) as (a & b & c & ? & ? & ? & ?). exists b, a, c. sp; try done. by apply rel_sym.
    - exists f, g, df, dg. done. }
  destruct Hsw as (f' & g' & df' & dg' & -> & Hf' & Hg' & Hn' & Hback). apply Hback.
  clear f g df dg Hf Hg Hn Hback. rename f' into f, g' into g, df' into df, dg' into dg.
  rename Hf' into Hf, Hg' into Hg, Hn' into Hn.
  pose proof (mw_good _ Hw) as Hgd.
  destruct (mcache_get m o f g df dg Hw Hf Hg) as (hit & -> & Hhit). cbn [mbind option_bind].
  destruct hit as [x|].
  { destruct (Hhit x eq_refl) as (dr & Hr & Hk & Hp). by eapply mres_const. }
  destruct (live_lookup _ _ (repr_live _ _ _ Hf)) as [fn Hfn].
  destruct (live_lookup _ _ (repr_live _ _ _ Hg)) as [gn Hgn].
  rewrite Hfn, Hgn. cbn [mbind option_bind]. apply mfinish; try done.
  pose proof (marm_spec o m f g df dg fn gn Ho Hw Hf Hg Hfn Hgn) as Harm.
  destruct (mop_arm o f g fn gn) as [x|x|].
  - destruct Harm as (dr & Hr & Hk & Hp). by eapply mres_const.
  - destruct Harm as (dx & Hr & Hk & Hp).
    destruct (mnot_spec (S n) m x dx Hw Hr) as (m' & r & dr & -> & Hst & Hr' & Hk' & Hp'); [lia|].
    exists m', r, dr. sp; try done; [cbn [rank] in Hk'; lia|]. by apply Hp.
  - cbn in Harm.
    destruct (expand_spec Rn Rn false (d_ar m) (d_ar m) f g df dg fn gn)
      as (h & hd & ps & -> & Hh & Hmax & Hlen & Hps); try done; try apply Hgd.
    cbn [mbind option_bind]. eapply (mrecurse _ m h hd); try done.
    { by eapply m_okh. }
    { by eapply m_okh. }
    intros i p m' Hi (Hw' & He' & Hh'). destruct (Hps i p Hi) as (Hr1 & Hk1 & Hr2 & Hk2).
    destruct (IH m' p.1 p.2 (cof df (h_level hd) i) (cof dg (h_level hd) i)) as (m'' & r & dr & -> & Hst & Hr & Hk & Hp);
      try done; try (by eapply repr_mono).
    { lia. }
    exists m'', r, dr. sp; try done; [lia|by rewrite Hh' in Hp].
Qed.

(** ** ite *)
Definition mires m df dg dh (o : option (mdd * nat)) : Prop :=
  ∃ m' r dr, o = Some (m', r) ∧ mstep m m' ∧ repr (d_ar m') dr r ∧
    rank dr ≤ rank df `max` rank dg `max` rank dh ∧ P3 (ar_headers (d_ar m)) Rite df dg dh dr.

Lemma mite_spec n : ∀ m f g h df dg dh, mwf m →
  repr (d_ar m) df f → repr (d_ar m) dg g → repr (d_ar m) dh h →
  rank df `max` rank dg `max` rank dh < n → mires m df dg dh (mdd_ite_f n m f g h).
Proof.
  induction n as [|n IH]; intros m f g h df dg dh Hw Hf Hg Hh Hn; [lia|]. cbn [mdd_ite_f].
  pose proof (mw_good _ Hw) as Hgd.
  pose proof (m_okh _ _ _ Hw Hf) as Of. pose proof (m_okh _ _ _ Hw Hg) as Og. pose proof (m_okh _ _ _ Hw Hh) as Oh.
  destruct df as [t|hd ds].
  { pose proof Hf as [_ Ht]%repr_leaf. rewrite Ht. cbn [mbind option_bind].
    destruct t.
    - exists m, h, dh. sp; try done; [cbn; lia|]. apply P3_intro; try done.
      intros ρ a b c r _. cbn. intros [= <-] E1 E2 E3. cbn. congruence.
    - exists m, g, dg. sp; try done; [cbn; lia|]. apply P3_intro; try done.
      intros ρ a b c r _. cbn. intros [= <-] E1 E2 E3. cbn. congruence.
    - exists m, mdd_undet, (Leaf TUndet). sp; try done; [by apply Hgd|cbn; lia|]. apply P3_intro; try done.
      intros ρ a b c r _. cbn. intros [= <-] E1 E2 [= <-]. by left. }
  pose proof Hf as [Hl (hf & cs & Hnd & Hhd & Hcs)]%repr_br.
  rewrite Hnd. cbn [mbind option_bind].
  destruct (Nat.eqb_spec g h) as [->|Hne].
  { rewrite (repr_fun _ _ _ _ Hg Hh). exists m, h, dh. sp; try done; [lia|]. apply P3_intro; try done.
    intros ρ a b c r _ _ E1 E2 E3. unfold Rite. destruct a; [congruence|congruence|]. right. split; congruence. }
  destruct (mite_get m f g h _ _ _ Hw Hf Hg Hh) as (hit & -> & Hhit). cbn [mbind option_bind].
  destruct hit as [v|].
  { destruct (Hhit v eq_refl) as (dr & Hr & Hk & Hp). exists m, v, dr. sp; done. }
  rewrite (a_hdr_level _ _ _ Hhd). cbn [mbind option_bind].
  rewrite (top_step_spec _ _ _ _ Hg). cbn [mbind option_bind].
  rewrite (top_step_spec _ _ _ _ Hh). cbn [mbind option_bind].
  set (top := (h_level hd `max` Nat.pred (rank dg)) `max` Nat.pred (rank dh)).
  set (df := Br hd ds) in *.
  assert (Hrf : rank df = S (h_level hd)) by done.
  assert (Hmax : rank df `max` rank dg `max` rank dh = S top) by (subst top; lia).
  assert (rank df ≤ S top ∧ rank dg ≤ S top ∧ rank dh ≤ S top) as (Kf & Kg & Kh) by lia.
  destruct (top_header_spec Rn (d_ar m) [f; g; h] [df; dg; dh] top) as (hid & thd & -> & Hth & Htl); try apply Hgd.
  { repeat (apply Forall2_cons; split; [done|]). done. }
  { destruct (decide (rank df = S top)); [exists df; split; [set_solver|done]|].
    destruct (decide (rank dg = S top)); [exists dg; split; [set_solver|done]|].
    exists dh; split; [set_solver|lia]. }
  cbn [mbind option_bind]. pose proof (elem_of_list_lookup_2 _ _ _ Hth) as Hin.
  destruct (cofactor_spec Rn (d_ar m) df f top thd) as (fc & -> & Lf & Cf); try done; try apply Hgd.
  destruct (cofactor_spec Rn (d_ar m) dg g top thd) as (gc & -> & Lg & Cg); try done; try apply Hgd.
  destruct (cofactor_spec Rn (d_ar m) dh h top thd) as (hc & -> & Lh & Ch); try done; try apply Hgd.
  cbn [mbind option_bind].
  destruct (triples_spec (h_edges thd) fc gc hc) as (ts & -> & Lt & Ct); try done.
  cbn [mbind option_bind]. clearbody top. subst top.
  destruct (mrec m hid thd ts (λ m t, mdd_ite_f n m t.1.1 t.1.2 t.2)
    (λ i d, P3 (ar_headers (d_ar m)) Rite (cof df (h_level thd) i) (cof dg (h_level thd) i) (cof dh (h_level thd) i) d))
    as (m' & ns & m2 & r & dr & es & -> & Hc & Hst & Hr & Hk & Hmk & Hds & HPP); try done.
  { intros i [[x y] z] m' Hi (Hw' & He' & Hh'). destruct (Ct _ _ Hi) as (Hx & Hy & Hz). cbn [fst snd] in *.
    destruct (Cf _ _ Hx), (Cg _ _ Hy), (Ch _ _ Hz).
    destruct (IH m' x y z (cof df (h_level thd) i) (cof dg (h_level thd) i) (cof dh (h_level thd) i))
      as (m'' & r & dr & -> & Hst & Hr & Hk & Hp); try done; try (by eapply repr_mono); [lia|].
    exists m'', r, dr. sp; try done; [lia|by rewrite Hh' in Hp]. }
  cbn [mbind option_bind]. rewrite Hc. pose proof Hst as (Hw2 & He2 & Hh2).
  assert (HP : P3 (ar_headers (d_ar m)) Rite df dg dh dr).
  { eapply shannon3; try done. apply Hgd. }
  destruct (mite_put m2 f g h r df dg dh dr) as (m4 & -> & Hst4 & Ha4); try done; try (by eapply repr_mono).
  { lia. }
  { by rewrite Hh2. }
  cbn [mbind option_bind]. exists m4, r, dr. rewrite Ha4. sp; try done; [|lia]. by eapply mstep_trans.
Qed.

(** ** API *)
Lemma mdd_not_ok m f df : mwf m → repr (d_ar m) df f → mres (mrel MNot) m df (Leaf TZero) (mdd_not m f).
Proof. intros Hw Hf. apply mnot_spec; try done. by eapply a_fuel_enough. Qed.
Lemma mdd_bin_ok o m f g df dg : o ≠ MNot → mwf m → repr (d_ar m) df f → repr (d_ar m) dg g →
  mres (mrel o) m df dg (mdd_bin_f o (ar_fuel (d_ar m)) m f g).
Proof.
  intros Ho Hw Hf Hg. pose proof (a_fuel_enough _ _ _ Hf). pose proof (a_fuel_enough _ _ _ Hg).
  apply mbin_spec; try done. lia.
Qed.
Lemma mdd_ite_ok m f g h df dg dh : mwf m →
  repr (d_ar m) df f → repr (d_ar m) dg g → repr (d_ar m) dh h → mires m df dg dh (mdd_ite m f g h).
Proof.
  intros Hw Hf Hg Hh. pose proof (a_fuel_enough _ _ _ Hf). pose proof (a_fuel_enough _ _ _ Hg).
  pose proof (a_fuel_enough _ _ _ Hh). apply mite_spec; try done. lia.
Qed.

(** ** new, create_header, gc, clear_cache *)
Lemma hcons_nil : hcons [].
Proof. split; intros hd; [|intros hd']; by intros ?%elem_of_nil. Qed.

Lemma mdd_new_ok : mwf mdd_new.
Proof.
  assert (Hl : ∀ i, live (d_ar mdd_new) i ↔ i < 3).
  { intros i. unfold live. cbn. split; [by intros [? _]|]. split; [done|apply not_elem_of_nil]. }
  constructor; cbn; try apply cache_ok_new.
  constructor; cbn.
  - constructor; cbn.
    * intros h hd H. by rewrite lookup_nil in H.
    * constructor.
    * intros id H. by apply elem_of_nil in H.
    * intros id h cs H. apply Hl in H. destruct id as [|[|[|]]]; cbn; intros; [done..|lia].
    * intros h cs id. rewrite lookup_empty. split; [done|]. intros [H Hn].
      apply Hl in H. destruct id as [|[|[|]]]; cbn in *; [done..|lia].
    * intros i j t Hi Hj Hni Hnj. apply Hl in Hi, Hj.
      destruct i as [|[|[|]]], j as [|[|[|]]]; cbn in *; try lia; congruence.
  - split; [apply Hl; unfold mdd_zero; lia|done].
  - split; [apply Hl; unfold mdd_one; lia|done].
  - split; [apply Hl; unfold mdd_undet; lia|done].
  - apply hcons_nil.
Qed.

(** the new header agrees with the old ones *)
Definition hnew (hs : list header) (level edges : nat) : Prop :=
  0 < edges ∧ ∀ hd, hd ∈ hs → h_level hd = level → h_edges hd = edges.
Lemma hcons_app hs h level label edges : hcons hs → hnew hs level edges → hcons (hs ++ [Header h level label edges]).
Proof.
  intros [Hp Hc] [Hpos Hag]. split.
  - intros hd. rewrite elem_of_app, elem_of_list_singleton. intros [?| ->]; [by apply Hp|done].
  - intros hd hd'. rewrite !elem_of_app, !elem_of_list_singleton.
    intros [?| ->] [?| ->]; cbn; intros Hl; auto.
    symmetry. by apply Hag.
Qed.

Lemma mdd_create_header_ok m level label edges m' h : mwf m → hnew (ar_headers (d_ar m)) level edges →
  mdd_create_header m level label edges = (m', h) →
  mwf m' ∧ ext (d_ar m) (d_ar m') ∧ h = length (ar_headers (d_ar m)) ∧
  ar_headers (d_ar m') = ar_headers (d_ar m) ++ [Header h level label edges] ∧
  ar_nodes (d_ar m') = ar_nodes (d_ar m) ∧ (∀ i, live (d_ar m') i ↔ live (d_ar m) i).
Proof.
  intros Hw Hnew. unfold mdd_create_header. destruct (ar_create_header _ _ _ _) as [a h0] eqn:Ha.
  intros [= <- <-]. cbn [mdd_with_ar d_ar].
  destruct (create_header_spec _ _ _ _ _ _ _ (mg_wf _ (mw_good _ Hw)) Ha) as (Hwf & He & Hh & -> & Hns & Hl).
  sp; try done. destruct Hw as [[_ ? ? ? Hed] Hc Hi]. constructor; try done; cbn.
  - constructor; try done; try by eapply repr_mono.
    rewrite Hh. by apply hcons_app.
  - eapply cache_ok_mono; [|done]. intros k v. by apply mcentry_mono.
  - eapply cache_ok_mono; [|done]. intros k v. by apply mientry_mono.
Qed.

Lemma mdd_clear_cache_ok m : mwf m → mwf (mdd_clear_cache m).
Proof.
  intros [Hg [Hc _] [Hi _]]. constructor; try done; cbn; by apply cache_ok_clear.
Qed.

Lemma mdd_gc_ok m roots : mwf m → (∀ r, r ∈ roots → live (d_ar m) r) →
  ∃ m' n, mdd_gc m roots = Some (m', n) ∧ mwf m' ∧
    ar_headers (d_ar m') = ar_headers (d_ar m) ∧ ar_nodes (d_ar m') = ar_nodes (d_ar m) ∧
    (∀ id, live (d_ar m') id ↔ id ∈ [mdd_zero; mdd_one; mdd_undet] ∨ reach (d_ar m) roots id) ∧
    (∀ id, live (d_ar m') id → live (d_ar m) id) ∧
    n = length (ar_free (d_ar m')).
Proof.
  intros Hw Hroots. pose proof (mw_good _ Hw) as Hg. unfold mdd_gc.
  destruct (gc_spec Rn (d_ar m) [mdd_zero; mdd_one; mdd_undet] roots)
    as (a' & lv & -> & Hwf & Hhd & Hns & Hlen & Hl & Hsub & Hm); try done.
  { apply Hg. }
  { intros b. rewrite !elem_of_cons, elem_of_nil.
    destruct Hg as [_ [??] [??] [??] _]. intros [->|[->|[->|[]]]]; eauto. }
  cbn [mbind option_bind].
  assert (Hlt : ∀ d i, repr (d_ar m) d i → i < length lv).
  { intros d i Hd. rewrite Hlen. by apply repr_live in Hd as [? _]. }
  assert (Hrg : ∀ d i, marked lv i → repr (d_ar m) d i → repr a' d i).
  { intros d i Hi Hd. eapply repr_gc; try done. by apply Hm. }
  destruct (cache_ok_retain (d_cache m) _ (mcentry a') lv (mw_c _ Hw)) as (c' & -> & Hc).
  { intros k v (o & df & dg & dr & Ho & Hf & Hg' & Hr & _).
    unfold words2. rewrite !Forall_cons, Forall_nil. sp; eauto. }
  { intros k v (o & df & dg & dr & Ho & Hf & Hg' & Hr & Hk & Hp) Hal.
    unfold words2 in Hal. rewrite !Forall_cons in Hal. destruct Hal as (A1 & A2 & A3 & _).
    exists o, df, dg, dr. rewrite Hhd. sp; try done; by apply Hrg. }
  cbn [mbind option_bind].
  destruct (cache_ok_retain3 (d_ite m) _ (mientry a') lv (mw_i _ Hw)) as (i' & -> & Hi).
  { intros k v (df & dg & dh & dr & Hf & Hg' & Hh & Hr & _).
    unfold words3. rewrite !Forall_cons, Forall_nil. sp; eauto. }
  { intros k v (df & dg & dh & dr & Hf & Hg' & Hh & Hr & Hk & Hp) Hal.
    unfold words3 in Hal. rewrite !Forall_cons in Hal. destruct Hal as (A0 & A1 & A2 & A3 & _).
    exists df, dg, dh, dr. rewrite Hhd. sp; try done; by apply Hrg. }
  cbn [mbind option_bind]. eexists _, _. split; [done|]. cbn [d_ar].
  sp; try done. constructor; try done; cbn.
  destruct Hg as [? Hz Ho Hu He]. constructor; try done.
  - apply Hrg; [|done]. apply Hm, Hl. left. set_solver.
  - apply Hrg; [|done]. apply Hm, Hl. left. set_solver.
  - apply Hrg; [|done]. apply Hm, Hl. left. set_solver.
  - by rewrite Hhd.
Qed.
