(** Correctness of the MTMDD operations (internal lemmas, stated on trees). *)
From Verif Require Import Prelude ComputeCache ComputeCacheProofs Arena Trees ArenaProofs Bdd ArenaMore Mdd MtMdd NaryProofs.

(** Pointwise meaning of an operation on terminals; [None] = panic *)
Definition vsem (I : vint) (o : vop) (a b : vt) : option vt :=
  match o with
  | VReplace => Some (match a with VUndet => b | _ => a end)
  | _ => match a, b with
         | VVal x, VVal y =>
             match vop_num I o x y with VNum z => Some (VVal z) | VQuit => Some VUndet | _ => None end
         | _, _ => Some VUndet
         end
  end.
Definition trel (I : vint) (o : vop) (a b r : vt) : Prop := vsem I o a b = Some r.

Lemma vsem_sym I o a b : vop_swap o = true → vsem I o a b = vsem I o b a.
Proof.
  destruct o; try done; intros _; destruct a, b; cbn; try done.
  - by rewrite Z.add_comm.
  - by rewrite Z.mul_comm.
  - by rewrite Z.min_comm.
  - by rewrite Z.max_comm.
Qed.

(** ** Invariant *)
Record tgood (a : arena vt) (vt : gmap Z nat) : Prop := {
  tg_wf : awf Rn a;
  tg_undet : repr a (Leaf VUndet) mt_undet;
  tg_hc : hcons (ar_headers a);
  tg_vt : ∀ z id, vt !! z = Some id ↔ repr a (Leaf (VVal z)) id;
}.

Section mt.
Context (I : vint).

Definition tcentry (a : arena vt) (k : N * N * N) (v : N) : Prop :=
  ∃ o df dg dr, k.1.1 = vop_code o ∧
    repr a df (N.to_nat k.1.2) ∧ repr a dg (N.to_nat k.2) ∧ repr a dr (N.to_nat v) ∧
    rank dr ≤ rank df `max` rank dg ∧ P2 (ar_headers a) (trel I o) df dg dr.

Record twf (m : mt) : Prop := {
  tw_good : tgood (t_ar m) (t_vtab m);
  tw_c : cache_ok (t_cache m) (tcentry (t_ar m));
}.
Definition tstep (m m' : mt) : Prop :=
  twf m' ∧ ext (t_ar m) (t_ar m') ∧ ar_headers (t_ar m') = ar_headers (t_ar m).

Lemma tstep_refl m : twf m → tstep m m.
Proof. intros. split; [done|]. split; [apply ext_refl|done]. Qed.
Lemma tstep_trans m1 m2 m3 : tstep m1 m2 → tstep m2 m3 → tstep m1 m3.
Proof.
  intros (_ & H1 & H2) (? & H3 & H4). split; [done|]. split; [by eapply ext_trans|congruence].
Qed.
Lemma tstep_refl2 m m' : tstep m m' → tstep m' m'.
Proof. intros [? _]. by apply tstep_refl. Qed.

Lemma vop_code_inj o o' : vop_code o = vop_code o' → o = o'.
Proof. by destruct o, o'. Qed.

Lemma tcentry_mono a a' k v : ext a a' → tcentry a k v → tcentry a' k v.
Proof.
  intros He (o & df & dg & dr & Ho & Hf & Hg & Hr & Hk & Hp). exists o, df, dg, dr.
  sp; try done; try (by eapply repr_mono). eapply P2_mono; [by apply ext_hdr|done].
Qed.

Lemma t_okh m d id : twf m → repr (t_ar m) d id → okh (ar_headers (t_ar m)) d.
Proof. intros [[] _]. by eapply repr_okh. Qed.

Lemma twith_step m a vt : twf m → tgood a vt → ext (t_ar m) a → ar_headers a = ar_headers (t_ar m) →
  tstep m (Mt a vt (t_cache m)).
Proof.
  intros Hw Hg He Hh. split; [|done]. destruct Hw as [? Hc]. constructor; try done; cbn.
  eapply cache_ok_mono; [|done]. intros k v. by apply tcentry_mono.
Qed.

(** ** value *)
Lemma mt_value_ok m z : twf m → ∃ m' r, mt_value m z = (m', r) ∧ tstep m m' ∧ repr (t_ar m') (Leaf (VVal z)) r.
Proof.
  intros Hw. unfold mt_value. pose proof (tw_good _ Hw) as Hg.
  destruct (t_vtab m !! z) as [x|] eqn:Hz.
  { exists m, x. sp; try done. by apply (tg_vt _ _ Hg). }
  destruct (ar_alloc (t_ar m) (Term (VVal z))) as [a id] eqn:Ha.
  assert (Hno : ∀ i, live (t_ar m) i → ar_nodes (t_ar m) !! i ≠ Some (Term (VVal z))).
  { intros i Hl Hn. assert (t_vtab m !! z = Some i) as Hs; [|by rewrite Hz in Hs].
    apply (tg_vt _ _ Hg). by apply repr_leaf. }
  destruct (alloc_term_spec Rn (t_ar m) (VVal z) a id (tg_wf _ _ Hg) Ha Hno)
    as (Hwf & He & Hh & Hl & Hnl & Hn & Hlv).
  eexists _, _. split; [done|]. cbn [t_ar]. split; [|by apply repr_leaf].
  apply twith_step; try done. destruct Hg as [_ Hu Hc Hv]. constructor; try done.
  - by eapply repr_mono.
  - by rewrite Hh.
  - intros z' i. rewrite repr_leaf. destruct (decide (z = z')) as [<-|Hne].
    + rewrite lookup_insert. split; [by intros [= <-]|]. intros [Hi Hni]. f_equal.
      by eapply (aw_term _ _ Hwf id i (VVal z)).
    + rewrite lookup_insert_ne by done. rewrite Hv, repr_leaf. split.
      * intros [Hi Hni]. destruct He as [_ He]. destruct (He i _ Hi Hni) as [? ?]. done.
      * intros [Hi Hni]. apply Hlv in Hi as [Hi| ->]; [|rewrite Hn in Hni; congruence].
        split; [done|]. destruct (live_lookup _ _ Hi) as [n Hnn]. destruct He as [_ He].
        destruct (He i _ Hi Hnn) as [_ ?]. congruence.
Qed.

(** ** create_node *)
Lemma tcreate_node m h hd ns (PP : nat → dd vt → Prop) : twf m → ar_headers (t_ar m) !! h = Some hd →
  length ns = h_edges hd →
  (∀ i r, ns !! i = Some r → ∃ d, repr (t_ar m) d r ∧ rank d ≤ h_level hd ∧ PP i d) →
  ∃ m' r dr ds, mt_create_node m h ns = (m', r) ∧ tstep m m' ∧ repr (t_ar m') dr r ∧
    rank dr ≤ S (h_level hd) ∧ mkrel hd ds dr ∧ length ds = h_edges hd ∧
    (∀ i d, ds !! i = Some d → PP i d).
Proof.
  intros Hw Hh Hlen Hns. destruct (trees_of _ _ _ _ Hns) as (ds & Hf & Hfk & Hl & Hpp).
  pose proof (tw_good _ Hw) as Hg.
  destruct (mknode_spec (t_ar m) h hd ns ds) as (dr & Hmk & Hr); try done; [apply Hg|apply Hg|].
  unfold mt_create_node. destruct (all_same ns) as [x|].
  - exists m, x, dr, ds. sp; try done.
    + by eapply mkrel_rank.
    + congruence.
  - destruct Hr as (a' & id & -> & Hwf & He & Hhd & Hr & Hlv & Hnid).
    exists (mt_with_ar m a'), id, dr, ds. sp; try done.
    + apply twith_step; try done. destruct Hg as [_ Hu Hc Hv]. constructor; try done.
      * by eapply repr_mono.
      * by rewrite Hhd.
      * intros z i. rewrite Hv, !repr_leaf. split.
        -- intros [Hi Hni]. destruct He as [_ He]. destruct (He i _ Hi Hni) as [? ?]. done.
        -- intros [Hi Hni]. apply Hlv in Hi as [Hi| ->]; [|congruence].
           split; [done|]. destruct (live_lookup _ _ Hi) as [n Hnn]. destruct He as [_ He].
           destruct (He i _ Hi Hnn) as [_ ?]. congruence.
    + by eapply mkrel_rank.
    + congruence.
Qed.

(** ** Cache *)
Lemma tcache_get m o f g df dg : twf m → repr (t_ar m) df f → repr (t_ar m) dg g →
  ∃ r, mt_cache_get m o f g = Some r ∧
    ∀ x, r = Some x → ∃ dr, repr (t_ar m) dr x ∧ rank dr ≤ rank df `max` rank dg ∧
      P2 (ar_headers (t_ar m)) (trel I o) df dg dr.
Proof.
  intros Hw Hf Hg. unfold mt_cache_get.
  destruct (cache_ok_get _ _ (vop_code o) (N.of_nat f) (N.of_nat g) (tw_c _ Hw)) as (r & -> & Hr).
  cbn [mbind option_bind]. eexists. split; [done|]. intros x Hx. destruct r as [v|]; [|done].
  injection Hx as <-. destruct (Hr v eq_refl) as (o' & df' & dg' & dr & Ho & Hf' & Hg' & Hr' & Hk & Hp).
  cbn in *. rewrite !Nat2N.id in *. apply vop_code_inj in Ho as <-.
  rewrite (repr_fun _ _ _ _ Hf Hf'), (repr_fun _ _ _ _ Hg Hg'). by exists dr.
Qed.
Lemma tcache_put m o f g r df dg dr : twf m →
  repr (t_ar m) df f → repr (t_ar m) dg g → repr (t_ar m) dr r →
  rank dr ≤ rank df `max` rank dg → P2 (ar_headers (t_ar m)) (trel I o) df dg dr →
  ∃ m', mt_cache_put m o f g r = Some m' ∧ tstep m m' ∧ t_ar m' = t_ar m.
Proof.
  intros Hw Hf Hg Hr Hk Hp. unfold mt_cache_put.
  destruct (cache_ok_put _ _ (vop_code o) (N.of_nat f) (N.of_nat g) (N.of_nat r) (tw_c _ Hw)) as (c' & -> & Hc).
  { exists o, df, dg, dr. cbn. rewrite !Nat2N.id. done. }
  cbn [mbind option_bind]. eexists. split; [done|]. split; [|done]. split; [|by split; [apply ext_refl|]].
  destruct Hw. by constructor.
Qed.

(** ** Postcondition of an operation: the result, or an assignment on which the operation panics *)
Definition tbad (o : vop) m (df dg : dd vt) : Prop :=
  ∃ ρ a b, vokh (ar_headers (t_ar m)) ρ ∧ eval ρ df = Some a ∧ eval ρ dg = Some b ∧ vsem I o a b = None.
Definition tres (o : vop) m df dg (x : option (mt * nat)) : Prop :=
  match x with
  | Some (m', r) => tstep m m' ∧ ∃ dr, repr (t_ar m') dr r ∧
      rank dr ≤ rank df `max` rank dg ∧ P2 (ar_headers (t_ar m)) (trel I o) df dg dr
  | None => tbad o m df dg
  end.

Lemma tfinish o m m1 r dr f g df dg : twf m → repr (t_ar m) df f → repr (t_ar m) dg g →
  tstep m m1 → repr (t_ar m1) dr r → rank dr ≤ rank df `max` rank dg →
  P2 (ar_headers (t_ar m)) (trel I o) df dg dr →
  tres o m df dg (m2 ← mt_cache_put m1 o f g r; Some (m2, r)).
Proof.
  intros Hw0 Hf Hg Hst Hr Hk Hp. pose proof Hst as (Hw' & He & Hh).
  destruct (tcache_put m1 o f g r df dg dr) as (m'' & -> & Hst3 & Ha); try done.
  { by eapply repr_mono. }
  { by eapply repr_mono. }
  { by rewrite Hh. }
  cbn [mbind option_bind tres]. split; [by eapply tstep_trans|]. exists dr. rewrite Ha. done.
Qed.

(** recursive calls on the cofactors, then create_node *)
Lemma trec {A} m h hd (ps : list A) (F : mt → A → option (mt * nat)) (PP : nat → dd vt → Prop) (Bad : nat → A → Prop) :
  twf m → ar_headers (t_ar m) !! h = Some hd → length ps = h_edges hd →
  (∀ i p m', ps !! i = Some p → tstep m m' →
     match F m' p with
     | Some (m'', r) => tstep m' m'' ∧ ∃ dr, repr (t_ar m'') dr r ∧ rank dr ≤ h_level hd ∧ PP i dr
     | None => Bad i p
     end) →
  match mapst F m ps with
  | Some (m', ns) => ∃ m2 r dr ds, mt_create_node m' h ns = (m2, r) ∧ tstep m m2 ∧
      repr (t_ar m2) dr r ∧ rank dr ≤ S (h_level hd) ∧ mkrel hd ds dr ∧ length ds = h_edges hd ∧
      (∀ i d, ds !! i = Some d → PP i d)
  | None => ∃ i p, ps !! i = Some p ∧ Bad i p
  end.
Proof.
  intros Hw Hh Hlen HF.
  pose proof (mapst_idx tstep t_ar Bad F ps m (h_level hd) PP tstep_trans tstep_refl2 (tstep_refl m Hw)) as Hm.
  assert (He : ∀ x y, tstep x y → ext (t_ar x) (t_ar y)) by by intros x y (_ & ? & _).
  specialize (Hm He HF).
  destruct (mapst F m ps) as [[m1 ns]|]; [|done].
  destruct Hm as (Hst & Hlns & Hns). pose proof Hst as (Hw1 & He1 & Hh1).
  destruct (tcreate_node m1 h hd ns PP) as (m2 & r & dr & ds & Hc & Hst2 & Hr & Hk & Hmk & Hds & HPP); try done.
  { by rewrite Hh1. }
  { congruence. }
  exists m2, r, dr, ds. sp; try done. by eapply tstep_trans.
Qed.

(** ** terminal arms *)
Definition tarm_ok (o : vop) m df dg (x : varm) : Prop :=
  match x with
  | VRet x => ∃ dr, repr (t_ar m) dr x ∧ rank dr ≤ rank df `max` rank dg ∧
                P2 (ar_headers (t_ar m)) (trel I o) df dg dr
  | VNum z => P2 (ar_headers (t_ar m)) (trel I o) df dg (Leaf (VVal z))
  | VQuit => P2 (ar_headers (t_ar m)) (trel I o) df dg (Leaf VUndet)
  | VPanic => tbad o m df dg
  | VRec => 0 < rank df `max` rank dg
  end.

Lemma tarm_spec o m f g df dg fn gn : twf m → repr (t_ar m) df f → repr (t_ar m) dg g →
  ar_nodes (t_ar m) !! f = Some fn → ar_nodes (t_ar m) !! g = Some gn →
  tarm_ok o m df dg (vop_arm I o f g fn gn).
Proof.
  intros Hw Hf Hg Hfn Hgn. pose proof (tw_good _ Hw) as Hgd.
  pose proof (t_okh _ _ _ Hw Hf) as Of. pose proof (t_okh _ _ _ Hw Hg) as Og.
  assert (Kf : match df with Leaf t => fn = Term t | Br _ _ => ∃ h cs, fn = NT h cs end).
  { destruct df as [t|hd ds]; [apply repr_leaf in Hf as [_ Hf]; congruence|].
    apply repr_br in Hf as [_ (h & cs & Hn & _)]. rewrite Hfn in Hn. injection Hn as ->. eauto. }
  assert (Kg : match dg with Leaf t => gn = Term t | Br _ _ => ∃ h cs, gn = NT h cs end).
  { destruct dg as [t|hd ds]; [apply repr_leaf in Hg as [_ Hg]; congruence|].
    apply repr_br in Hg as [_ (h & cs & Hn & _)]. rewrite Hgn in Hn. injection Hn as ->. eauto. }
  assert (HF : ∀ dx, okh (ar_headers (t_ar m)) dx → (∀ ρ a b r, eval ρ df = Some a → eval ρ dg = Some b →
     eval ρ dx = Some r → trel I o a b r) → P2 (ar_headers (t_ar m)) (trel I o) df dg dx).
  { intros dx Ox HR. apply P2_intro; try done. intros ρ a b r _. apply HR. }
  pose proof (tg_undet _ _ Hgd) as Hu.
  assert (HU : o ≠ VReplace → (df = Leaf VUndet ∨ dg = Leaf VUndet) → tarm_ok o m df dg (VRet mt_undet)).
  { intros Ho Hd. exists (Leaf VUndet). split; [done|]. split; [cbn; lia|]. apply HF; [done|].
    intros ρ a b r Ea Eb [= <-]. unfold trel.
    destruct Hd as [-> | ->]; [injection Ea as <-|injection Eb as <-]; destruct o; try done; by destruct a. }
  assert (Hdec : o = VReplace ∨ o ≠ VReplace) by (destruct o; auto).
  destruct Hdec as [->|Ho].
  - cbn [vop_arm]. destruct df as [[|zf]|hdf dsf].
    + subst fn. exists dg. split; [done|]. split; [cbn; lia|]. apply HF; [done|].
      intros ρ a b r [= <-] Eb Er. unfold trel. cbn. congruence.
    + subst fn. assert (Hx : tarm_ok VReplace m (Leaf (VVal zf)) dg (VRet f)); [|by destruct gn as [[]|]].
      exists (Leaf (VVal zf)). split; [done|]. split; [cbn; lia|]. apply HF; [done|].
      intros ρ a b r [= <-] Eb [= <-]. done.
    + destruct Kf as (h & cs & ->). destruct dg as [[|zg]|hdg dsg].
      * subst gn. exists (Br hdf dsf). split; [done|]. split; [cbn; lia|]. apply HF; [done|].
        intros ρ a b r Ea [= <-] Er. unfold trel. cbn. rewrite Ea in Er. injection Er as <-. by destruct a.
      * subst gn. cbn [tarm_ok rank]. lia.
      * destruct Kg as (h' & cs' & ->). cbn [tarm_ok rank]. lia.
  - assert (Hx : ∀ h cs, fn = NT h cs → (∀ t, gn = Term t → dg = Leaf t) →
      tarm_ok o m df dg match gn with Term VUndet => VRet mt_undet | _ => VRec end).
    { intros h cs -> Hgt. destruct df as [|hdf dsf]; [congruence|].
      destruct gn as [[|]|]; [apply HU; auto|cbn [tarm_ok rank]; lia|cbn [tarm_ok rank]; lia]. }
    assert (Hgt : ∀ t, gn = Term t → dg = Leaf t).
    { intros t ->. destruct dg; [congruence|]. by destruct Kg as (? & ? & ?). }
    destruct df as [[|zf]|hdf dsf].
    + subst fn. replace (vop_arm I o f g (Term VUndet) gn) with (VRet mt_undet) by (destruct o, gn; done).
      apply HU; auto.
    + subst fn. destruct dg as [[|zg]|hdg dsg].
      * subst gn. replace (vop_arm I o f g _ _) with (VRet mt_undet) by by destruct o. apply HU; auto.
      * subst gn. replace (vop_arm I o f g _ _) with (vop_num I o zf zg) by by destruct o.
        assert (Hv : ∀ r, vsem I o (VVal zf) (VVal zg) = Some r →
          P2 (ar_headers (t_ar m)) (trel I o) (Leaf (VVal zf)) (Leaf (VVal zg)) (Leaf r)).
        { intros r Hr. apply HF; [done|]. intros ρ a b r' [= <-] [= <-] [= <-]. done. }
        assert (Hn : vsem I o (VVal zf) (VVal zg) = None → tbad o m (Leaf (VVal zf)) (Leaf (VVal zg))).
        { intros Hn. exists (λ _, 0), (VVal zf), (VVal zg). split; [|done]. apply vokh_zero, Hgd. }
        assert (Hs : vsem I o (VVal zf) (VVal zg) =
          match vop_num I o zf zg with VNum z => Some (VVal z) | VQuit => Some VUndet | _ => None end) by by destruct o.
        rewrite Hs in Hv, Hn.
        assert (Hk : match vop_num I o zf zg with VRet _ | VRec => False | _ => True end).
        { destruct o; cbn; try destruct (vi_ovf _ _); try destruct (_ =? 0)%Z; try destruct (_ && _); done. }
        destruct (vop_num I o zf zg); cbn [tarm_ok]; auto; done.
      * destruct Kg as (h' & cs' & ->). replace (vop_arm I o f g _ _) with VRec by by destruct o.
        cbn [tarm_ok rank]. lia.
    + destruct Kf as (h & cs & ->).
      replace (vop_arm I o f g (NT h cs) gn) with match gn with Term VUndet => VRet mt_undet | _ => VRec end
        by (destruct o, gn as [[]|]; done).
      by eapply Hx.
Qed.

Lemma tbad_cof o m df dg hd i : twf m → okh (ar_headers (t_ar m)) df → okh (ar_headers (t_ar m)) dg →
  hd ∈ ar_headers (t_ar m) → i < h_edges hd → rank df ≤ S (h_level hd) → rank dg ≤ S (h_level hd) →
  tbad o m (cof df (h_level hd) i) (cof dg (h_level hd) i) → tbad o m df dg.
Proof.
  intros Hw Of Og Hin Hi Kf Kg (ρ & a & b & Hv & Ha & Hb & Hn). pose proof (tg_hc _ _ (tw_good _ Hw)) as Hc.
  exists (upd ρ (h_level hd) i), a, b. sp; try done.
  - by apply vokh_upd.
  - rewrite (okh_cof_upd (ar_headers (t_ar m))); done.
  - rewrite (okh_cof_upd (ar_headers (t_ar m))); done.
Qed.

Lemma tbin_spec o : ∀ n m f g df dg, twf m → repr (t_ar m) df f → repr (t_ar m) dg g →
  rank df `max` rank dg < n → tres o m df dg (mt_bin_f I o n m f g).
Proof.
  induction n as [|n IH]; intros m f g df dg Hw Hf Hg Hn; [lia|]. cbn [mt_bin_f].
  assert (Hsw : ∃ f' g' df' dg', (if vop_swap o && (g <? f) then (g, f) else (f, g)) = (f', g') ∧
    repr (t_ar m) df' f' ∧ repr (t_ar m) dg' g' ∧ rank df' `max` rank dg' < S n ∧
    (∀ x, tres o m df' dg' x → tres o m df dg x)).
  { destruct (vop_swap o && (g <? f)) eqn:Hs.
    - apply andb_true_iff in Hs as [Hs _]. exists g, f, dg, df. sp; try done; [lia|].
      intros [[m' r]|].
      + intros [Hst (dr & Hr & Hk & Hp)]. split; [done|]. exists dr. sp; try done; [lia|].
        intros ρ Hv. destruct (Hp ρ Hv) as (a & b & c & ? & ? & ? & Hrel). exists b, a, c. sp; try done.
        unfold trel. by rewrite vsem_sym.
      + intros (ρ & a & b & Hv & Ha & Hb & Hbad). exists ρ, b, a. sp; try done. by rewrite vsem_sym.
    - exists f, g, df, dg. done. }
  destruct Hsw as (f' & g' & df' & dg' & -> & Hf' & Hg' & Hn' & Hback). apply Hback.
  clear f g df dg Hf Hg Hn Hback. rename f' into f, g' into g, df' into df, dg' into dg.
  rename Hf' into Hf, Hg' into Hg, Hn' into Hn.
  pose proof (tw_good _ Hw) as Hgd.
  destruct (tcache_get m o f g df dg Hw Hf Hg) as (hit & -> & Hhit). cbn [mbind option_bind].
  destruct hit as [x|].
  { destruct (Hhit x eq_refl) as (dr & Hr & Hk & Hp). split; [by apply tstep_refl|]. by exists dr. }
  destruct (live_lookup _ _ (repr_live _ _ _ Hf)) as [fn Hfn].
  destruct (live_lookup _ _ (repr_live _ _ _ Hg)) as [gn Hgn].
  rewrite Hfn, Hgn. cbn [mbind option_bind].
  pose proof (tarm_spec o m f g df dg fn gn Hw Hf Hg Hfn Hgn) as Harm.
  destruct (vop_arm I o f g fn gn) as [x|z| | |]; cbn [fst snd].
  - destruct Harm as (dr & Hr & Hk & Hp). by eapply (tfinish o m m).
  - destruct (mt_value_ok m z Hw) as (m' & r & -> & Hst & Hr). cbn [fst snd].
    eapply (tfinish o m m'); try done. cbn; lia.
  - split; [by apply tstep_refl|]. exists (Leaf VUndet). sp; try done; [by apply Hgd|cbn; lia].
  - done.
  - cbn in Harm.
    destruct (expand_spec Rn Rn true (t_ar m) (t_ar m) f g df dg fn gn)
      as (h & hd & ps & -> & Hh & Hmax & Hlen & Hps); try done; try apply Hgd.
    cbn [mbind option_bind].
    pose proof (t_okh _ _ _ Hw Hf) as Of. pose proof (t_okh _ _ _ Hw Hg) as Og.
    pose proof (trec m h hd ps (λ m p, mt_bin_f I o n m p.1 p.2)
      (λ i d, P2 (ar_headers (t_ar m)) (trel I o) (cof df (h_level hd) i) (cof dg (h_level hd) i) d)
      (λ i _, tbad o m (cof df (h_level hd) i) (cof dg (h_level hd) i)) Hw Hh Hlen) as Hrec.
    assert (HF : ∀ i p m', ps !! i = Some p → tstep m m' →
      match mt_bin_f I o n m' p.1 p.2 with
      | Some (m'', r) => tstep m' m'' ∧ ∃ dr, repr (t_ar m'') dr r ∧ rank dr ≤ h_level hd ∧
           P2 (ar_headers (t_ar m)) (trel I o) (cof df (h_level hd) i) (cof dg (h_level hd) i) dr
      | None => tbad o m (cof df (h_level hd) i) (cof dg (h_level hd) i)
      end).
    { intros i p m' Hi (Hw' & He' & Hh'). destruct (Hps i p Hi) as (Hr1 & Hk1 & Hr2 & Hk2).
      pose proof (IH m' p.1 p.2 (cof df (h_level hd) i) (cof dg (h_level hd) i)) as IHi.
      unfold tres, tbad in IHi. rewrite Hh' in IHi.
      assert (Hx1 : repr (t_ar m') (cof df (h_level hd) i) p.1) by by eapply repr_mono.
      assert (Hx2 : repr (t_ar m') (cof dg (h_level hd) i) p.2) by by eapply repr_mono.
      specialize (IHi Hw' Hx1 Hx2 ltac:(lia)).
      destruct (mt_bin_f I o n m' p.1 p.2) as [[m'' r]|]; [|done].
      destruct IHi as [Hst (dr & Hr & Hk & Hp)]. split; [done|]. exists dr. sp; try done. lia. }
    specialize (Hrec HF).
    destruct (mapst _ m ps) as [[m' ns]|]; cbn [mbind option_bind].
    + destruct Hrec as (m2 & r & dr & ds & -> & Hst & Hr & Hk & Hmk & Hds & HPP). cbn [fst snd].
      eapply (tfinish o m m2); try done; [lia|].
      eapply shannon2; try done; [apply Hgd|by eapply elem_of_list_lookup_2].
    + destruct Hrec as (i & p & Hi & Hb). apply lookup_lt_Some in Hi.
      eapply (tbad_cof o m df dg hd i); try done; [by eapply elem_of_list_lookup_2|lia|lia|lia].
Qed.

Lemma mt_bin_ok o m f g df dg : twf m → repr (t_ar m) df f → repr (t_ar m) dg g →
  tres o m df dg (mt_bin I o m f g).
Proof.
  intros Hw Hf Hg. pose proof (a_fuel_enough _ _ _ Hf). pose proof (a_fuel_enough _ _ _ Hg).
  apply tbin_spec; try done. lia.
Qed.

(** ** new, create_header, gc, clear_cache *)
Lemma mt_new_ok : twf mt_new.
Proof.
  assert (Hl : ∀ i, live (t_ar mt_new) i ↔ i < 1).
  { intros i. unfold live. cbn. split; [by intros [? _]|]. split; [done|apply not_elem_of_nil]. }
  constructor; cbn; try apply cache_ok_new.
  constructor; cbn.
  - constructor; cbn.
    * intros h hd H. by rewrite lookup_nil in H.
    * constructor.
    * intros id H. by apply elem_of_nil in H.
    * intros id h cs H. apply Hl in H. destruct id as [|]; cbn; intros; [done|lia].
    * intros h cs id. rewrite lookup_empty. split; [done|]. intros [H Hn].
      apply Hl in H. destruct id as [|]; cbn in *; [done|lia].
    * intros i j t Hi Hj Hni Hnj. apply Hl in Hi, Hj. lia.
  - split; [apply Hl; unfold mt_undet; lia|done].
  - split; intros hd; [|intros hd']; by intros ?%elem_of_nil.
  - intros z id. rewrite lookup_empty. split; [done|]. intros [H Hn]%repr_leaf. apply Hl in H.
    destruct id as [|]; cbn in *; [done|lia].
Qed.

Lemma mt_create_header_ok m level label edges m' h : twf m →
  hcons (ar_headers (t_ar m) ++ [Header (length (ar_headers (t_ar m))) level label edges]) →
  mt_create_header m level label edges = (m', h) →
  twf m' ∧ ext (t_ar m) (t_ar m') ∧ h = length (ar_headers (t_ar m)) ∧
  ar_headers (t_ar m') = ar_headers (t_ar m) ++ [Header h level label edges] ∧
  ar_nodes (t_ar m') = ar_nodes (t_ar m) ∧ (∀ i, live (t_ar m') i ↔ live (t_ar m) i).
Proof.
  intros Hw Hnew. unfold mt_create_header. destruct (ar_create_header _ _ _ _) as [a h0] eqn:Ha.
  intros [= <- <-]. cbn [mt_with_ar t_ar].
  destruct (create_header_spec _ _ _ _ _ _ _ (tg_wf _ _ (tw_good _ Hw)) Ha) as (Hwf & He & Hh & -> & Hns & Hl).
  sp; try done. destruct Hw as [[_ Hu Hed Hv] Hc]. constructor; try done; cbn.
  - constructor; try done; try by eapply repr_mono.
    + by rewrite Hh.
    + intros z id. rewrite Hv, !repr_leaf, Hns, Hl. done.
  - eapply cache_ok_mono; [|done]. intros k v. by apply tcentry_mono.
Qed.

Lemma mt_clear_cache_ok m : twf m → twf (mt_clear_cache m).
Proof. intros [Hg [Hc _]]. constructor; try done; cbn; by apply cache_ok_clear. Qed.

Lemma mt_gc_ok m roots : twf m → (∀ r, r ∈ roots → live (t_ar m) r) →
  ∃ m' n, mt_gc m roots = Some (m', n) ∧ twf m' ∧
    ar_headers (t_ar m') = ar_headers (t_ar m) ∧ ar_nodes (t_ar m') = ar_nodes (t_ar m) ∧
    (∀ id, live (t_ar m') id ↔ id ∈ [mt_undet] ∨ reach (t_ar m) roots id) ∧
    (∀ id, live (t_ar m') id → live (t_ar m) id) ∧
    n = length (ar_free (t_ar m')).
Proof.
  intros Hw Hroots. pose proof (tw_good _ Hw) as Hg. unfold mt_gc.
  destruct (gc_spec Rn (t_ar m) [mt_undet] roots)
    as (a' & lv & -> & Hwf & Hhd & Hns & Hlen & Hl & Hsub & Hm); try done.
  { apply Hg. }
  { intros b. rewrite elem_of_list_singleton. intros ->. destruct Hg as [_ [??] _ _]. eauto. }
  cbn [mbind option_bind].
  assert (Hlt : ∀ d i, repr (t_ar m) d i → i < length lv).
  { intros d i Hd. rewrite Hlen. by apply repr_live in Hd as [? _]. }
  assert (Hrg : ∀ d i, marked lv i → repr (t_ar m) d i → repr a' d i).
  { intros d i Hi Hd. eapply repr_gc; try done. by apply Hm. }
  unfold mt_retain. rewrite decide_True.
  2:{ intros z id Hz. apply (tg_vt _ _ Hg) in Hz. by eapply Hlt. }
  cbn [mbind option_bind].
  destruct (cache_ok_retain (t_cache m) _ (tcentry a') lv (tw_c _ Hw)) as (c' & -> & Hc).
  { intros k v (o & df & dg & dr & Ho & Hf & Hg' & Hr & _).
    unfold words2. rewrite !Forall_cons, Forall_nil. sp; eauto. }
  { intros k v (o & df & dg & dr & Ho & Hf & Hg' & Hr & Hk & Hp) Hal.
    unfold words2 in Hal. rewrite !Forall_cons in Hal. destruct Hal as (A1 & A2 & A3 & _).
    exists o, df, dg, dr. rewrite Hhd. sp; try done; by apply Hrg. }
  cbn [mbind option_bind]. eexists _, _. split; [done|]. cbn [t_ar].
  sp; try done. constructor; try done; cbn.
  destruct Hg as [? Hu He Hv]. constructor; try done.
  - apply Hrg; [|done]. apply Hm, Hl. left. set_solver.
  - by rewrite Hhd.
  - intros z id. rewrite map_filter_lookup_Some. cbn. rewrite Hv, !repr_leaf, Hns.
    change (lv !! id = Some true) with (marked lv id). rewrite Hm. split; [by intros [[_ ?] ?]|].
    intros [Hi ?]. sp; auto.
Qed.
End mt.
