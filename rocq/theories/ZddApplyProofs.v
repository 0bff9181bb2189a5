(** The operations of ZddManager evaluate no pair twice. *)
From Verif Require Import Prelude Arena Trees ArenaProofs Bdd BddProofs Zdd ZddTrees ZddProofs Apply ApplyProofs ZddApply.

Global Set Default Goal Selector "!".

Definition zf (o : zop) : nat → zdd → nat → nat → option (zdd * nat) :=
  match o with
  | ZIntersect => zdd_intersect_f | ZUnion => zdd_union_f | ZSetdiff => zdd_setdiff_f | ZProduct => zdd_product_f | ZDivision => zdd_divide_f
  end.

Lemma zap_erase o n : ∀ m f g, drop_tr (zdd_ap_tf o n m f g) = zf o n m f g.
Proof.
  induction n as [|n IH]; intros m f g; [by destruct o|].
  assert (Hrec : ∀ m f g, zf o n m f g = drop_tr (zdd_ap_tf o n m f g)) by (intros; symmetry; apply IH). clear IH.
  destruct o; cbn [zf] in *;
    cbn [zdd_ap_tf zdd_intersect_f zdd_union_f zdd_setdiff_f zdd_product_f zdd_divide_f zap_same];
    (try (destruct (f =? g); [done|]));
    (destruct (zdd_cache_get m _ f g); [done|]);
    (destruct (ar_nodes (z_ar m) !! f) as [[[]|hf fc]|]; cbn [mbind option_bind]; [..|done]);
    (destruct (ar_nodes (z_ar m) !! g) as [[[]|hg gc]|]; cbn [mbind option_bind]; [..|done]); cbn [zap_plan mbind option_bind];
    try done;
    try (destruct (hdr_level (z_ar m) hf) as [lf|]; cbn [mbind option_bind]; [|done]);
    try (destruct (hdr_level (z_ar m) hg) as [lg|]; cbn [mbind option_bind]; [|done]);
    try (destruct (edges2 fc) as [[f0 f1]|]; cbn [mbind option_bind]; [|done]);
    try (destruct (edges2 gc) as [[g0 g1]|]; cbn [mbind option_bind]; [|done]);
    repeat match goal with |- context [if ?a <? ?b then _ else _] => destruct (a <? b); cbn [mbind option_bind] end;
    repeat match goal with
    | |- context [zdd_intersect_f n ?a ?b ?c] => rewrite (Hrec a b c); destruct (zdd_ap_tf ZIntersect n a b c) as [[[? ?] ?]|]; cbn [drop_tr mbind option_bind]; [|done]
    | |- context [zdd_union_f n ?a ?b ?c] => rewrite (Hrec a b c); destruct (zdd_ap_tf ZUnion n a b c) as [[[? ?] ?]|]; cbn [drop_tr mbind option_bind]; [|done]
    | |- context [zdd_setdiff_f n ?a ?b ?c] => rewrite (Hrec a b c); destruct (zdd_ap_tf ZSetdiff n a b c) as [[[? ?] ?]|]; cbn [drop_tr mbind option_bind]; [|done]
    | |- context [zdd_product_f n ?a ?b ?c] => rewrite (Hrec a b c); destruct (zdd_ap_tf ZProduct n a b c) as [[[? ?] ?]|]; cbn [drop_tr mbind option_bind]; [|done]
    | |- context [zdd_divide_f n ?a ?b ?c] => rewrite (Hrec a b c); destruct (zdd_ap_tf ZDivision n a b c) as [[[? ?] ?]|]; cbn [drop_tr mbind option_bind]; [|done]
    | |- context [zdd_union ?a ?b ?c] => destruct (zdd_union a b c) as [[? ?]|]; cbn [drop_tr mbind option_bind]; [|done]
    | |- context [zdd_intersect ?a ?b ?c] => destruct (zdd_intersect a b c) as [[? ?]|]; cbn [drop_tr mbind option_bind]; [|done]
    | |- context [zdd_create_node ?a ?b ?c ?d] => destruct (zdd_create_node a b c d); cbn [drop_tr mbind option_bind]
    end; done.
Qed.

(** ** Keys stay in the table *)
Definition zgrow (m m' : zdd) : Prop := ∀ k, is_Some (z_cache m !! k) → is_Some (z_cache m' !! k).
(** the pairs [tr] were not in the table before, are there after, and are listed once *)
Definition zfr (o : zop) (m : zdd) (tr : list (nat * nat)) (m' : zdd) : Prop :=
  NoDup tr ∧ (∀ k, k ∈ tr → z_cache m !! (o, k.1, k.2) = None ∧ is_Some (z_cache m' !! (o, k.1, k.2))) ∧ zgrow m m'.

Lemma zgrow_trans m1 m2 m3 : zgrow m1 m2 → zgrow m2 m3 → zgrow m1 m3.
Proof. intros H1 H2 k Hk. by apply H2, H1. Qed.
Lemma zfr_grow o m m' : zgrow m m' → zfr o m [] m'.
Proof. intros H. split; [constructor|]. split; [by intros k ?%elem_of_nil|done]. Qed.
Lemma zfr_app o m1 t1 m2 t2 m3 : zfr o m1 t1 m2 → zfr o m2 t2 m3 → zfr o m1 (t1 ++ t2) m3.
Proof.
  intros (N1 & H1 & G1) (N2 & H2 & G2). split; [|split].
  - apply NoDup_app. split; [done|]. split; [|done]. intros k K1 K2. destruct (H1 k K1) as [_ [v Hv]]. destruct (H2 k K2) as [Hn _]. congruence.
  - intros k [Hk|Hk]%elem_of_app.
    + destruct (H1 k Hk) as [Hn Hs]. split; [done|]. by apply G2.
    + destruct (H2 k Hk) as [Hn Hs]. split; [|done]. destruct (z_cache m1 !! _) as [v|] eqn:E; [|done].
      destruct (G1 (o, k.1, k.2)) as [w Hw]; [by exists v|congruence].
  - by eapply zgrow_trans.
Qed.
Lemma zcreate_node_cache m h lo hi m' r : zdd_create_node m h lo hi = (m', r) → z_cache m' = z_cache m.
Proof. unfold zdd_create_node. destruct (hi =? zdd_zero); [by intros [= <- <-]|]. destruct (ar_hashcons _ _ _) as [a id]. by intros [= <- <-]. Qed.
Lemma zcreate_node_grow m h lo hi m' r : zdd_create_node m h lo hi = (m', r) → zgrow m m'.
Proof. intros E%zcreate_node_cache k. by rewrite E. Qed.
Lemma zput_grow m o f g v : zgrow m (zdd_cache_put m o f g v).
Proof. intros k Hk. cbn [zdd_cache_put z_cache]. destruct (decide ((o, f, g) = k)) as [<-|Hne]; [rewrite lookup_insert; by eexists|by rewrite lookup_insert_ne]. Qed.

Lemma zap_grow o n : ∀ m f g m' r tr, (∀ m f g m' r, o ∈ [ZProduct; ZDivision] → zdd_union m f g = Some (m', r) → zgrow m m') →
  (∀ m f g m' r, o ∈ [ZProduct; ZDivision] → zdd_intersect m f g = Some (m', r) → zgrow m m') →
  zdd_ap_tf o n m f g = Some (m', r, tr) → zgrow m m'.
Proof.
  induction n as [|n IH]; intros m f g m' r tr HU HI E; [done|]. cbn [zdd_ap_tf] in E.
  destruct (zap_same o f g); [injection E as <- <- <-; by intros k|].
  destruct (zdd_cache_get m o f g); [injection E as <- <- <-; by intros k|].
  destruct (ar_nodes (z_ar m) !! f) as [fn|]; [|done]. destruct (ar_nodes (z_ar m) !! g) as [gn|]; [|done]. cbn [mbind option_bind] in E.
  destruct (zap_plan o m f g fn gn) as [p|] eqn:Hp; [|done]. cbn [mbind option_bind] in E.
  match type of E with mbind _ ?X = _ => destruct X as [[[m1 r1] t1]|] eqn:Eq; [|done] end. cbn [mbind option_bind] in E. injection E as <- <- <-.
  eapply zgrow_trans; [|apply zput_grow].
  assert (Ho : ∀ h f0 f1 g0 g1, p = PProd h f0 f1 g0 g1 ∨ p = PDiv f0 f1 g0 g1 → o ∈ [ZProduct; ZDivision]).
  { intros h f0 f1 g0 g1 Hpp. destruct o; [| | | apply elem_of_list_here | apply elem_of_list_further, elem_of_list_here]; exfalso; revert Hp;
      destruct fn as [[]|hf fc], gn as [[]|hg gc]; cbn [zap_plan];
      try (destruct (hdr_level (z_ar m) hf) as [lf|]; cbn [mbind option_bind]; [|done]);
      try (destruct (hdr_level (z_ar m) hg) as [lg|]; cbn [mbind option_bind]; [|done]);
      try (destruct (edges2 fc) as [[a0 a1]|]; cbn [mbind option_bind]; [|done]);
      try (destruct (edges2 gc) as [[b0 b1]|]; cbn [mbind option_bind]; [|done]);
      repeat match goal with |- context [if ?a <? ?b then _ else _] => destruct (a <? b) end; intros [= <-]; by destruct Hpp. }
  destruct p as [x|f' g'|h f' g' hi|h f0 g0 f1 g1|h f0 f1 g0 g1|f0 f1 g0 g1].
  - injection Eq as <- <- <-. by intros k.
  - exact (IH _ _ _ _ _ _ HU HI Eq).
  - destruct (zdd_ap_tf o n m f' g') as [[[m2 l] t0]|] eqn:E0; [|done]. cbn [mbind option_bind] in Eq.
    destruct (zdd_create_node m2 h l hi) as [m3 x] eqn:Ec. injection Eq as <- <- <-.
    eapply zgrow_trans; [exact (IH _ _ _ _ _ _ HU HI E0)|exact (zcreate_node_grow _ _ _ _ _ _ Ec)].
  - destruct (zdd_ap_tf o n m f0 g0) as [[[m2 l] t0]|] eqn:E0; [|done]. cbn [mbind option_bind] in Eq.
    destruct (zdd_ap_tf o n m2 f1 g1) as [[[m3 l']t1']|] eqn:E1; [|done]. cbn [mbind option_bind] in Eq.
    destruct (zdd_create_node m3 h l l') as [m4 x] eqn:Ec. injection Eq as <- <- <-.
    eapply zgrow_trans; [exact (IH _ _ _ _ _ _ HU HI E0)|]. eapply zgrow_trans; [exact (IH _ _ _ _ _ _ HU HI E1)|]. exact (zcreate_node_grow _ _ _ _ _ _ Ec).
  - specialize (Ho h f0 f1 g0 g1 (or_introl eq_refl)).
    destruct (zdd_ap_tf o n m f0 g0) as [[[m2 l] t0]|] eqn:E0; [|done]. cbn [mbind option_bind] in Eq.
    destruct (zdd_ap_tf o n m2 f1 g1) as [[[m3 l'] t1']|] eqn:E1; [|done]. cbn [mbind option_bind] in Eq.
    destruct (zdd_ap_tf o n m3 f1 g0) as [[[m4 l2] t2]|] eqn:E2; [|done]. cbn [mbind option_bind] in Eq.
    destruct (zdd_union m4 l' l2) as [[m5 u]|] eqn:E3; [|done]. cbn [mbind option_bind] in Eq.
    destruct (zdd_ap_tf o n m5 f0 g1) as [[[m6 l3] t3]|] eqn:E4; [|done]. cbn [mbind option_bind] in Eq.
    destruct (zdd_union m6 u l3) as [[m7 u']|] eqn:E5; [|done]. cbn [mbind option_bind] in Eq.
    destruct (zdd_create_node m7 h l u') as [m8 x] eqn:Ec. injection Eq as <- <- <-.
    eapply zgrow_trans; [exact (IH _ _ _ _ _ _ HU HI E0)|]. eapply zgrow_trans; [exact (IH _ _ _ _ _ _ HU HI E1)|]. eapply zgrow_trans; [exact (IH _ _ _ _ _ _ HU HI E2)|].
    eapply zgrow_trans; [exact (HU _ _ _ _ _ Ho E3)|]. eapply zgrow_trans; [exact (IH _ _ _ _ _ _ HU HI E4)|]. eapply zgrow_trans; [exact (HU _ _ _ _ _ Ho E5)|]. exact (zcreate_node_grow _ _ _ _ _ _ Ec).
  - specialize (Ho 0 f0 f1 g0 g1 (or_intror eq_refl)).
    destruct (zdd_ap_tf o n m f0 g0) as [[[m2 l] t0]|] eqn:E0; [|done]. cbn [mbind option_bind] in Eq.
    destruct (zdd_ap_tf o n m2 f1 g1) as [[[m3 l'] t1']|] eqn:E1; [|done]. cbn [mbind option_bind] in Eq.
    destruct (zdd_intersect m3 l l') as [[m4 u]|] eqn:E3; [|done]. injection Eq as <- <- <-.
    eapply zgrow_trans; [exact (IH _ _ _ _ _ _ HU HI E0)|]. eapply zgrow_trans; [exact (IH _ _ _ _ _ _ HU HI E1)|]. exact (HI _ _ _ _ _ Ho E3).
Qed.

Lemma zsimple_grow o m f g m' r : o ∈ [ZUnion; ZIntersect] → zf o (ar_fuel (z_ar m)) m f g = Some (m', r) → zgrow m m'.
Proof.
  intros Ho E. rewrite <- zap_erase in E. destruct (zdd_ap_tf o _ m f g) as [[[m1 r1] tr]|] eqn:Et; [|done]. injection E as -> ->.
  eapply zap_grow; [..|exact Et]; intros ? ? ? ? ? Ho'; exfalso; revert Ho Ho'; rewrite !elem_of_cons, elem_of_nil; destruct o; naive_solver.
Qed.
Lemma zunion_grow m f g m' r : zdd_union m f g = Some (m', r) → zgrow m m'.
Proof. exact (zsimple_grow ZUnion m f g m' r ltac:(apply elem_of_list_here)). Qed.
Lemma zintersect_grow m f g m' r : zdd_intersect m f g = Some (m', r) → zgrow m m'.
Proof. exact (zsimple_grow ZIntersect m f g m' r ltac:(apply elem_of_list_further, elem_of_list_here)). Qed.

(** ** Every evaluated pair is new and below the operands *)
Lemma zap_spec o n m f g df dg : zwf m → repr (z_ar m) df f → repr (z_ar m) dg g → rank df `max` rank dg < n → zres o m df dg (zf o n m f g).
Proof.
  intros Hw Hf Hg Hn. destruct o; cbn [zf]; [by apply zintersect_spec|by apply zunion_spec|by apply zsetdiff_spec|by apply zproduct_spec|by apply zdivide_spec].
Qed.


Definition zsubs (p : zplan) : list (nat * nat) :=
  match p with
  | PDone _ => [] | PCall f g => [(f, g)] | PLow _ f g _ => [(f, g)] | PNode _ f0 g0 f1 g1 => [(f0, g0); (f1, g1)]
  | PProd _ f0 f1 g0 g1 => [(f0, g0); (f1, g1); (f1, g0); (f0, g1)] | PDiv f0 f1 g0 g1 => [(f0, g0); (f1, g1)]
  end.

(** [k] is a pair of nodes below [f] and [g], of rank at most [R] *)
Definition zkey (a : arena tv) (f g R : nat) (k : nat * nat) : Prop :=
  reach a [f] k.1 ∧ reach a [g] k.2 ∧ ∃ d1 d2, repr a d1 k.1 ∧ repr a d2 k.2 ∧ rank d1 `max` rank d2 ≤ R.

Lemma zkey_mono a f g f' g' R R' k : (∀ x, reach a [f] x → reach a [f'] x) → (∀ x, reach a [g] x → reach a [g'] x) → R ≤ R' →
  zkey a f g R k → zkey a f' g' R' k.
Proof. intros Hf Hg HR (H1 & H2 & d1 & d2 & D1 & D2 & Hd). split; [auto|]. split; [auto|]. exists d1, d2. split; [done|]. split; [done|lia]. Qed.

Lemma zsame_node m0 m d id : zstep m0 m → repr (z_ar m0) d id → ar_nodes (z_ar m) !! id = ar_nodes (z_ar m0) !! id.
Proof.
  intros St Hr. pose proof (repr_live _ _ _ Hr) as Hl. destruct (live_lookup _ _ Hl) as [nd Hnd]. destruct St as (_ & [_ He] & _).
  destruct (He id nd Hl Hnd) as [_ ->]. done.
Qed.

(** What is known of an operand: it is a leaf, or a node with two children *)
Definition zview (a : arena tv) (f : nat) (d : dd tv) (nd : node tv) : Prop :=
  (∃ t, d = Leaf t ∧ nd = Term t) ∨
  (∃ h hd lo hi dlo dhi, d = Br hd [dlo; dhi] ∧ nd = NT h [lo; hi] ∧ ar_headers a !! h = Some hd ∧ repr a dlo lo ∧ repr a dhi hi ∧
     rank dlo ≤ h_level hd ∧ rank dhi ≤ h_level hd ∧ (∀ x, reach a [lo] x → reach a [f] x) ∧ (∀ x, reach a [hi] x → reach a [f] x)).
Lemma zview_ok a f d : zgood a → repr a d f → ∃ nd, ar_nodes a !! f = Some nd ∧ zview a f d nd.
Proof.
  intros Hg Hr. destruct d as [t|hd ds].
  - pose proof Hr as [_ Hnd]%repr_leaf. eexists. split; [exact Hnd|]. left. by exists t.
  - destruct (zrepr_node2 _ _ _ _ Hg Hr) as (h & lo & hi & dlo & dhi & -> & Hnd & Hh & Hlo & Hhi & Rlo & Rhi & _).
    eexists. split; [exact Hnd|]. right. exists h, hd, lo, hi, dlo, dhi. do 7 (split; [done|]).
    split; intros x; (eapply reach_kid1; [exact Hnd|]); [apply elem_of_list_here|apply elem_of_list_further, elem_of_list_here].
Qed.

Lemma zsubs_ok o m0 m f g df dg fn gn p : zwf m0 → zstep m0 m → repr (z_ar m0) df f → repr (z_ar m0) dg g →
  zview (z_ar m0) f df fn → zview (z_ar m0) g dg gn → zap_plan o m f g fn gn = Some p →
  ∀ x y, (x, y) ∈ zsubs p → ∃ dx dy, repr (z_ar m0) dx x ∧ repr (z_ar m0) dy y ∧ rank dx `max` rank dy < rank df `max` rank dg ∧
    (∀ z, reach (z_ar m0) [x] z → reach (z_ar m0) [f] z) ∧ (∀ z, reach (z_ar m0) [y] z → reach (z_ar m0) [g] z).
Proof.
  intros Hw0 St Hf Hg Vf Vg Hp x y Hin. pose proof (zw_good _ Hw0) as Hgd.
  assert (Hone : ∀ id, repr (z_ar m0) (Leaf TOne) id → id = zdd_one).
  { intros id Hid. eapply repr_inj; [apply (zg_wf _ Hgd)|exact Hid|apply Hgd]. }
  destruct Vf as [(t & -> & ->)|(h & hd & lo & hi & dlo & dhi & -> & -> & Hh & Hlo & Hhi & Rlo & Rhi & B0 & B1)];
  destruct Vg as [(u & -> & ->)|(h' & hd' & lo' & hi' & dlo' & dhi' & -> & -> & Hh' & Hlo' & Hhi' & Rlo' & Rhi' & B0' & B1')].
  - destruct o, t, u; cbn [zap_plan] in Hp; injection Hp as <-; by apply elem_of_nil in Hin.
  - destruct t; (destruct o; cbn [zap_plan edges2 mbind option_bind] in Hp; injection Hp as <-; cbn [zsubs] in Hin;
      first [by apply elem_of_nil in Hin|apply elem_of_list_singleton in Hin; injection Hin as -> ->]);
      pose proof (Hone _ Hf) as ->; exists (Leaf TOne), dlo'; (split; [done|]); (split; [done|]); (split; [cbn [rank]; lia|]); by split.
  - destruct u; (destruct o; cbn [zap_plan edges2 mbind option_bind] in Hp; injection Hp as <-; cbn [zsubs] in Hin;
      first [by apply elem_of_nil in Hin|apply elem_of_list_singleton in Hin; injection Hin as -> ->]);
      pose proof (Hone _ Hg) as ->; exists dlo, (Leaf TOne); (split; [done|]); (split; [done|]); (split; [cbn [rank]; lia|]); by split.
  - assert (El : hdr_level (z_ar m) h = Some (h_level hd)) by (unfold hdr_level; destruct St as (_ & _ & ->); by rewrite Hh).
    assert (El' : hdr_level (z_ar m) h' = Some (h_level hd')) by (unfold hdr_level; destruct St as (_ & _ & ->); by rewrite Hh').
    cbn [rank].
    destruct o; cbn [zap_plan] in Hp; rewrite El, El' in Hp; cbn [edges2 mbind option_bind] in Hp;
      (destruct (Nat.ltb_spec (h_level hd') (h_level hd)); [|destruct (Nat.ltb_spec (h_level hd) (h_level hd'))]); injection Hp as <-; cbn [zsubs] in Hin;
      repeat match goal with
      | H : _ ∈ [] |- _ => by apply elem_of_nil in H
      | H : _ ∈ _ :: _ |- _ => apply elem_of_cons in H as [[= -> ->]|H]
      end;
      match goal with |- ∃ dx dy, repr _ _ ?x ∧ repr _ _ ?y ∧ _ =>
        match goal with Hx : repr _ ?dx x, Hy : repr _ ?dy y |- _ => exists dx, dy; split; [exact Hx|]; split; [exact Hy|] end
      end; (split; [cbn [rank]; lia|]); split; first [assumption|exact (λ z Hz, Hz)].
Qed.

Lemma zap_fresh o n : ∀ m0 m f g df dg m' r tr, zwf m0 → zstep m0 m → repr (z_ar m0) df f → repr (z_ar m0) dg g → rank df `max` rank dg < n →
  zdd_ap_tf o n m f g = Some (m', r, tr) →
  zstep m0 m' ∧ (∃ dr, repr (z_ar m') dr r) ∧ zfr o m tr m' ∧ ∀ k, k ∈ tr → zkey (z_ar m0) f g (rank df `max` rank dg) k.
Proof.
  induction n as [|n IH]; intros m0 m f g df dg m' r tr Hw0 St Hf Hg Hn E; [done|].
  assert (Sp : zstep m m' ∧ ∃ dr, repr (z_ar m') dr r).
  { destruct (zap_spec o (S n) m f g df dg) as (m1 & r1 & dr & E1 & St1 & Hr1 & _); [apply St|by eapply zstep_repr..|done|].
    rewrite <- zap_erase, E in E1. injection E1 as <- <-. eauto. }
  destruct Sp as [St1 Hr]. split; [by eapply zstep_trans|]. split; [done|]. clear St1 Hr. cbn [zdd_ap_tf] in E.
  destruct (zap_same o f g); [injection E as <- <- <-; split; [by apply zfr_grow; intros k|by intros k ?%elem_of_nil]|].
  destruct (zdd_cache_get m o f g) as [v|] eqn:Hget; [injection E as <- <- <-; split; [by apply zfr_grow; intros k|by intros k ?%elem_of_nil]|].
  destruct (zview_ok _ _ _ (zw_good _ Hw0) Hf) as (fn & Hfn & Vf). destruct (zview_ok _ _ _ (zw_good _ Hw0) Hg) as (gn & Hgn & Vg).
  rewrite (zsame_node _ _ _ _ St Hf), (zsame_node _ _ _ _ St Hg), Hfn, Hgn in E. cbn [mbind option_bind] in E.
  destruct (zap_plan o m f g fn gn) as [p|] eqn:Hp; [|done]. cbn [mbind option_bind] in E.
  pose proof (zsubs_ok _ _ _ _ _ _ _ _ _ _ Hw0 St Hf Hg Vf Vg Hp) as Hsub.
  match type of E with mbind _ ?X = _ => destruct X as [[[m1 r1] t1]|] eqn:Eq; [|done] end. cbn [mbind option_bind] in E. injection E as <- <- <-.
  (* the calls made, one by one *)
  assert (Hcall : ∀ x y ma mb l t, (x, y) ∈ zsubs p → zstep m0 ma → zdd_ap_tf o n ma x y = Some (mb, l, t) →
    zstep m0 mb ∧ (∃ dl, repr (z_ar mb) dl l) ∧ zfr o ma t mb ∧ ∀ k, k ∈ t → zkey (z_ar m0) f g (pred (rank df `max` rank dg)) k).
  { intros x y ma mb l t Hin Sta Ea. destruct (Hsub x y Hin) as (dx & dy & Hx & Hy & Hrk & Bx & By).
    destruct (IH m0 ma x y dx dy mb l t) as (Stb & Hl & Fr & K); [done|done|done|done|lia|done|].
    split; [done|]. split; [done|]. split; [done|]. intros k Hk. eapply zkey_mono; [exact Bx|exact By| |by apply K]. lia. }
  assert (Hmid : zfr o m t1 m1 ∧ (∀ k, k ∈ t1 → zkey (z_ar m0) f g (pred (rank df `max` rank dg)) k) ∧ (t1 = [] ∨ 0 < rank df `max` rank dg)).
  { assert (Hpos : t1 = [] ∨ 0 < rank df `max` rank dg).
    { destruct (zsubs p) as [|[x y] l] eqn:Es.
      - left. destruct p; try done. by injection Eq as <- <- <-.
      - right. destruct (Hsub x y) as (dx & dy & _ & _ & ? & _); [apply elem_of_list_here|lia]. }
    cut (zfr o m t1 m1 ∧ (∀ k, k ∈ t1 → zkey (z_ar m0) f g (pred (rank df `max` rank dg)) k)); [tauto|]. clear Hpos.
    destruct p as [x|f' g'|h f' g' hi|h f0 g0 f1 g1|h f0 f1 g0 g1|f0 f1 g0 g1]; cbn [zsubs] in Hcall.
    - injection Eq as <- <- <-. split; [by apply zfr_grow; intros k|by intros k ?%elem_of_nil].
    - destruct (Hcall f' g' m m1 r1 t1) as (_ & _ & Fr & K); [apply elem_of_list_here|done|done|]. done.
    - destruct (zdd_ap_tf o n m f' g') as [[[m2 l] t0]|] eqn:E0; [|done]. cbn [mbind option_bind] in Eq.
      destruct (zdd_create_node m2 h l hi) as [m3 x] eqn:Ec. injection Eq as <- <- <-. apply zcreate_node_grow in Ec.
      destruct (Hcall f' g' m m2 l t0) as (_ & _ & Fr & K); [apply elem_of_list_here|done|done|]. split; [|done].
      rewrite <- (app_nil_r t0). eapply zfr_app; [exact Fr|by apply zfr_grow].
    - destruct (zdd_ap_tf o n m f0 g0) as [[[m2 l] t0]|] eqn:E0; [|done]. cbn [mbind option_bind] in Eq.
      destruct (zdd_ap_tf o n m2 f1 g1) as [[[m3 l'] t1']|] eqn:E1; [|done]. cbn [mbind option_bind] in Eq.
      destruct (zdd_create_node m3 h l l') as [m4 x] eqn:Ec. injection Eq as <- <- <-. apply zcreate_node_grow in Ec.
      destruct (Hcall f0 g0 m m2 l t0) as (St2 & _ & Fr0 & K0); [apply elem_of_list_here|done|done|].
      destruct (Hcall f1 g1 m2 m3 l' t1') as (St3 & _ & Fr1 & K1); [apply elem_of_list_further, elem_of_list_here|done|done|].
      split; [|intros k [Hk|Hk]%elem_of_app; auto].
      rewrite <- (app_nil_r (t0 ++ t1')). eapply zfr_app; [by eapply zfr_app|by apply zfr_grow].
    - destruct (zdd_ap_tf o n m f0 g0) as [[[m2 l] t0]|] eqn:E0; [|done]. cbn [mbind option_bind] in Eq.
      destruct (zdd_ap_tf o n m2 f1 g1) as [[[m3 l'] t1']|] eqn:E1; [|done]. cbn [mbind option_bind] in Eq.
      destruct (zdd_ap_tf o n m3 f1 g0) as [[[m4 l2] t2]|] eqn:E2; [|done]. cbn [mbind option_bind] in Eq.
      destruct (zdd_union m4 l' l2) as [[m5 u]|] eqn:E3; [|done]. cbn [mbind option_bind] in Eq.
      destruct (zdd_ap_tf o n m5 f0 g1) as [[[m6 l3] t3]|] eqn:E4; [|done]. cbn [mbind option_bind] in Eq.
      destruct (zdd_union m6 u l3) as [[m7 u']|] eqn:E5; [|done]. cbn [mbind option_bind] in Eq.
      destruct (zdd_create_node m7 h l u') as [m8 x] eqn:Ec. injection Eq as <- <- <-. apply zcreate_node_grow in Ec.
      destruct (Hcall f0 g0 m m2 l t0) as (St2 & _ & Fr0 & K0); [apply elem_of_list_here|done|done|].
      destruct (Hcall f1 g1 m2 m3 l' t1') as (St3 & [dl' Hl'] & Fr1 & K1); [apply elem_of_list_further, elem_of_list_here|done|done|].
      destruct (Hcall f1 g0 m3 m4 l2 t2) as (St4 & [dl2 Hl2] & Fr2 & K2); [apply elem_of_list_further, elem_of_list_further, elem_of_list_here|done|done|].
      assert (St5 : zstep m0 m5).
      { assert (repr (z_ar m4) dl' l') as Hl4.
        { destruct (Hsub f1 g0) as (dx & dy & Hx & Hy & Hrk & _); [apply elem_of_list_further, elem_of_list_further, elem_of_list_here|].
          destruct (zap_spec o n m3 f1 g0 dx dy) as (m1' & r1' & dr & E' & St' & _); [apply St3|by eapply zstep_repr..|lia|].
          rewrite <- zap_erase, E2 in E'. injection E' as <- <-. by eapply zstep_repr. }
        destruct (zdd_union_ok m4 l' l2 dl' dl2) as (ma & ra & da & Ea & Sta & _); [apply St4|done|done|].
        rewrite E3 in Ea. injection Ea as <- <-. by eapply zstep_trans. }
      destruct (Hcall f0 g1 m5 m6 l3 t3) as (St6 & _ & Fr3 & K3); [do 3 apply elem_of_list_further; apply elem_of_list_here|done|done|].
      apply zunion_grow in E3, E5.
      split; [|intros k [Hk|[Hk|[Hk|Hk]%elem_of_app]%elem_of_app]%elem_of_app; auto].
      eapply zfr_app; [exact Fr0|]. eapply zfr_app; [exact Fr1|]. eapply zfr_app; [exact Fr2|].
      eapply (zfr_app _ _ [] m5); [by apply zfr_grow|]. rewrite <- (app_nil_r t3). eapply zfr_app; [exact Fr3|].
      apply zfr_grow. by eapply zgrow_trans.
    - destruct (zdd_ap_tf o n m f0 g0) as [[[m2 l] t0]|] eqn:E0; [|done]. cbn [mbind option_bind] in Eq.
      destruct (zdd_ap_tf o n m2 f1 g1) as [[[m3 l'] t1']|] eqn:E1; [|done]. cbn [mbind option_bind] in Eq.
      destruct (zdd_intersect m3 l l') as [[m4 u]|] eqn:E3; [|done]. injection Eq as <- <- <-. apply zintersect_grow in E3.
      destruct (Hcall f0 g0 m m2 l t0) as (St2 & _ & Fr0 & K0); [apply elem_of_list_here|done|done|].
      destruct (Hcall f1 g1 m2 m3 l' t1') as (St3 & _ & Fr1 & K1); [apply elem_of_list_further, elem_of_list_here|done|done|].
      split; [|intros k [Hk|Hk]%elem_of_app; auto].
      rewrite <- (app_nil_r (t0 ++ t1')). eapply zfr_app; [by eapply zfr_app|by apply zfr_grow]. }
  destruct Hmid as ((Nd & Hnew & Gr) & K & Hpos).
  assert (Hnot : (f, g) ∉ t1).
  { intros Hin. destruct Hpos as [->|Hpos]; [by apply elem_of_nil in Hin|]. destruct (K _ Hin) as (_ & _ & d1 & d2 & H1 & H2 & Hle). cbn [fst snd] in H1, H2.
    rewrite (repr_fun _ _ _ _ H1 Hf), (repr_fun _ _ _ _ H2 Hg) in Hle. lia. }
  split.
  - split; [|split].
    + apply NoDup_app. split; [done|]. split; [intros k Hk ->%elem_of_list_singleton; done|apply NoDup_singleton].
    + intros k [Hk| ->%elem_of_list_singleton]%elem_of_app.
      * destruct (Hnew k Hk) as [H1 H2]. split; [done|by apply zput_grow].
      * cbn [fst snd]. split; [done|]. cbn [zdd_cache_put z_cache]. rewrite lookup_insert. by eexists.
    + eapply zgrow_trans; [exact Gr|apply zput_grow].
  - intros k [Hk| ->%elem_of_list_singleton]%elem_of_app.
    + eapply zkey_mono; [done|done| |by apply K]. lia.
    + split; [apply reach_self|]. split; [apply reach_self|]. exists df, dg. split; [done|]. split; [done|lia].
Qed.
