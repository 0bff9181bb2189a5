(** The narrowed MTMDD and ZMDD managers against the wide ones. *)
From Verif Require Import Prelude ComputeCache ComputeCacheProofs Arena ArenaProofs Bdd Mdd MtMdd Zmdd SpecMdd SpecZmdd NaryProofs MtProofs MddMain ZmddProofs ZmddMain Bdd32 Bdd32Proofs Bdd32Main SpecLog32 Two32 Mdd32Proofs Mt32.

Definition tlen (m : mt) : nat := length (ar_nodes (t_ar m)).
Definition thd (m : mt) : nat := length (ar_headers (t_ar m)).
Definition tfit (m : mt) : Prop :=
  afit (t_ar m) ∧ cfit (t_cache m) (tlen m) ∧ (∀ z id, t_vtab m !! z = Some id → id < tlen m) ∧ 0 < tlen m.
Notation ttwo w := (two2 tlen thd tfit (cap w) (idok tlen)).
Notation tmo := (mo2 tlen thd).

(** ** Terminals and nodes *)
Lemma tvalue_two w m z : tfit m → ttwo w m (Some (mt_value m z)) (Some (nt_value w m z)).
Proof.
  intros (Ha & Hc & Hv & H0). unfold mt_value, nt_value. destruct (t_vtab m !! z) as [x|] eqn:Ez.
  { apply two2_ret; [done|]. exact (Hv _ _ Ez). }
  destruct (ar_alloc (t_ar m) (Term (VVal z))) as [a id] eqn:Ea.
  destruct (afit_alloc _ (Term (VVal z)) _ _ Ha I Ea) as (Ha1 & Hd & _ & Hl & Hr). apply two2_guard.
  - intros m' r [= <- <-]. unfold tfit, le, idok, tlen, thd in *. cbn. rewrite Hd. sp; try done; try lia.
    + eapply cfit_mono; [|exact Hc]. done.
    + intros z' id' [[-> ->]|[_ E]]%lookup_insert_Some; [done|]. specialize (Hv _ _ E). lia.
  - intros m' r [= <- <-]. unfold le, tlen, thd. cbn. by rewrite Hd.
  - intros _ p HL. assert (id < cap w ∨ ¬ length (ar_nodes a) ≤ cap w) as [Hi|Hi] by lia.
    + by rewrite narrow_id.
    + split; intros [= <-]; by destruct Hi.
Qed.
Lemma tvalue_mo w m z : tmo m (Some (nt_value w m z)).
Proof.
  intros m' r [= H]. revert H. unfold nt_value. destruct (t_vtab m !! z); [intros [= <- <-]; apply le_refl|].
  unfold ar_alloc. destruct (ar_free (t_ar m)); intros [= <- <-]; unfold le, tlen, thd; cbn.
  - rewrite app_length. split; [lia|done].
  - by rewrite insert_length.
Qed.
Lemma thash_two w m h cs : tfit m → h < thd m → Forall (λ c, c < tlen m) cs → thd m ≤ cap w →
  ttwo w m (let '(a, id) := ar_hashcons (t_ar m) h cs in Some (mt_with_ar m a, id))
           (let '(a, id) := n_hashcons w (t_ar m) h cs in Some (mt_with_ar m a, id)).
Proof.
  intros (Ha & Hc & Hv & H0) Hh Hcs HW. apply two2_guard.
  - intros m' r H. destruct (ar_hashcons (t_ar m) h cs) as [a id] eqn:He. injection H as <- <-.
    destruct (afit_hashcons _ _ cs _ _ Ha Hh Hcs He) as (Ha1 & Hd & Hl & Hr).
    unfold tfit, le, idok, tlen, thd in *. cbn. rewrite Hd. sp; try done; try lia.
    + eapply cfit_mono; [|exact Hc]. done.
    + intros z' id' E. specialize (Hv _ _ E). lia.
  - intros m' r H. pose proof (n_hashcons_grow w (t_ar m) h cs) as [G1 G2].
    destruct (n_hashcons w _ _ _) as [a id]. injection H as <- <-. unfold le, tlen, thd. cbn in *. by rewrite G2.
  - intros Hl p HL. pose proof (hashcons_iff w (t_ar m) h cs) as E.
    destruct (ar_hashcons _ _ _) as [a1 i1] eqn:E1. destruct (n_hashcons _ _ _ _) as [a2 i2] eqn:E2. cbn in E.
    split; intros [= <-]; cbn in HL; (assert ((a2, i2) = (a1, i1)) as [= -> ->]; [apply E; try done; tauto|done]).
Qed.
Lemma thash_mo w m h cs : tmo m (let '(a, id) := n_hashcons w (t_ar m) h cs in Some (mt_with_ar m a, id)).
Proof.
  intros m' r H. pose proof (n_hashcons_grow w (t_ar m) h cs) as [G1 G2].
  destruct (n_hashcons w _ _ _) as [a id]. injection H as <- <-. unfold le, tlen, thd. cbn in *. by rewrite G2.
Qed.
Lemma tcreate_two w m h cs : tfit m → h < thd m → Forall (λ c, c < tlen m) cs → thd m ≤ cap w →
  ttwo w m (Some (mt_create_node m h cs)) (Some (nt_create_node w m h cs)).
Proof.
  intros Hm Hh Hc HW. pose proof (thash_two w m h cs Hm Hh Hc HW) as T. unfold mt_create_node, nt_create_node.
  destruct (all_same cs) as [x|] eqn:Es.
  - apply two2_ret; [done|]. apply all_same_in in Es. rewrite Forall_forall in Hc. by apply Hc.
  - by destruct (ar_hashcons _ _ _), (n_hashcons _ _ _ _).
Qed.
Lemma tcreate_mo w m h cs : tmo m (Some (nt_create_node w m h cs)).
Proof.
  pose proof (thash_mo w m h cs) as T. unfold nt_create_node. destruct (all_same cs); [apply mo2_ret|].
  by destruct (n_hashcons _ _ _ _).
Qed.
Lemma zcreate_two w m h cs : tfit m → h < thd m → Forall (λ c, c < tlen m) cs → thd m ≤ cap w →
  ttwo w m (zm_create_node m h cs) (nzm_create_node w m h cs).
Proof.
  intros Hm Hh Hc HW. unfold zm_create_node, nzm_create_node. destruct cs as [|c cs']; [apply two2_none|].
  destruct (forallb _ cs'); [|by apply thash_two]. apply two2_ret; [done|]. by inversion Hc.
Qed.
Lemma zcreate_mo w m h cs : tmo m (nzm_create_node w m h cs).
Proof.
  unfold nzm_create_node. destruct cs as [|c cs']; [done|]. destruct (forallb _ cs'); [apply mo2_ret|apply thash_mo].
Qed.

(** ** The memo table: the code is the only difference between the two managers *)
Definition cget (m : mt) (k : N) (f g : nat) : option (option nat) :=
  r ← cc_get (t_cache m) k (N.of_nat f) (N.of_nat g); Some (option_map N.to_nat r).
Definition cput (m : mt) (k : N) (f g v : nat) : option mt :=
  c ← cc_put (t_cache m) k (N.of_nat f) (N.of_nat g) (N.of_nat v); Some (Mt (t_ar m) (t_vtab m) c).
Definition ncget (w : N) (m : mt) (k : N) (f g : nat) := cget m k (narrow w f) (narrow w g).
Definition ncput (w : N) (m : mt) (k : N) (f g v : nat) := cput m k (narrow w f) (narrow w g) (narrow w v).
Lemma cput_two w m k f g r : tfit m → f < tlen m → g < tlen m → r < tlen m →
  ttwo w m (m ← cput m k f g r; Some (m, r)) (m ← ncput w m k f g r; Some (m, r)).
Proof.
  intros (Ha & Hc & Hv & H0) Hf Hg Hr. apply two2_write.
  - unfold cput. intros m1 H. destruct (cc_put _ _ _ _ _) as [c|] eqn:E; [|done]. injection H as <-.
    unfold tfit. cbn. sp; try done. eapply cfit_put; [exact Hc| |exact E]. unfold tlen. cbn. rewrite Nat2N.id. done.
  - intros HW. unfold ncput. by rewrite !(nn w _ (tlen m)).
  - unfold ncput, cput. intros m1 H. destruct (cc_put _ _ _ _ _) as [c|]; [|done]. by injection H as <-.
Qed.
Lemma cput_mo w m k f g r : tmo m (m ← ncput w m k f g r; Some (m, r)).
Proof.
  intros m' r' H. unfold ncput, cput in H. destruct (cc_put _ _ _ _ _); [|done]. cbn in H. injection H as <- <-. by split.
Qed.
Lemma cget_two w m k f g d d' : tfit m → f < tlen m → g < tlen m → ttwo w m d d' → tmo m d' →
  ttwo w m (hit ← cget m k f g; match hit with Some x => Some (m, x) | None => d end)
           (hit ← ncget w m k f g; match hit with Some x => Some (m, x) | None => d' end).
Proof.
  intros Hm Hf Hg H Ho. apply two2_look.
  - intros HW. unfold ncget. by rewrite !(nn w _ (tlen m)).
  - intros [x|] E; [|done]. apply two2_ret; [done|]. destruct Hm as (_ & Hc & _). unfold cget in E.
    destruct (cc_get _ _ _ _) as [[v|]|] eqn:E2; cbn in E; try done. injection E as <-. by eapply cfit_get.
  - intros [x|]; [apply mo2_ret|done].
Qed.
Lemma cstore_two w m k f g (x y : option (mt * nat)) : f < tlen m → g < tlen m → ttwo w m x y →
  ttwo w m ('(m, result) ← x; m ← cput m k f g result; Some (m, result))
           ('(m, result) ← y; m ← ncput w m k f g result; Some (m, result)).
Proof.
  intros Hf Hg H. apply (two2_bind tlen thd tfit (cap w) (idok tlen) (idok tlen) m x y); [done| |].
  - intros m1 r F [L1 L2] R. unfold idok in R. apply cput_two; try done; lia.
  - intros. apply cput_mo.
Qed.
(** the same for a call that cannot fail *)
Lemma cstore_pair w m k f g (p q : mt * nat) : f < tlen m → g < tlen m → ttwo w m (Some p) (Some q) →
  ttwo w m (m ← cput p.1 k f g p.2; Some (m, p.2)) (m ← ncput w q.1 k f g q.2; Some (m, q.2)).
Proof. intros Hf Hg H. pose proof (cstore_two w m k f g (Some p) (Some q) Hf Hg H) as T. by destruct p, q. Qed.
Lemma cstore_pmo w m k f g (q : mt * nat) : tmo m (Some q) → tmo m (m ← ncput w q.1 k f g q.2; Some (m, q.2)).
Proof.
  intros H. pose proof (mo2_bind tlen thd m (Some q) (λ m r, m ← ncput w m k f g r; Some (m, r)) H) as T.
  destruct q as [m1 r]. apply T. intros. apply cput_mo.
Qed.

(** ** The multi-terminal operations *)
Section bin.
Context (w : N) (I : vint) (o : vop).
Lemma tbin_mo n : ∀ m f g, tmo m (nt_bin_f w I o n m f g).
Proof using.
  induction n as [|n IH]; intros m f g; [done|]. cbn [nt_bin_f]. destruct (if vop_swap o && (g <? f) then (g, f) else (f, g)) as [f' g'].
  apply mo2_obind. intros [x|]; [apply mo2_ret|]. apply mo2_obind. intros fn. apply mo2_obind. intros gn.
  destruct (vop_arm I o f' g' fn gn) as [x|z| | |].
  - apply cput_mo.
  - apply (cstore_pmo w m (vop_code o)). apply tvalue_mo.
  - apply mo2_ret.
  - done.
  - apply mo2_obind. intros [h ps]. apply (mo2_bind tlen thd m (mapst (λ m p, nt_bin_f w I o n m p.1 p.2) m ps)).
    + apply mo2_mapst. intros. apply IH.
    + intros m1 ns. apply (cstore_pmo w m1 (vop_code o)). apply tcreate_mo.
Qed.
Lemma tbin_two n : ∀ m f g, tfit m → f < tlen m → g < tlen m → thd m ≤ cap w →
  ttwo w m (mt_bin_f I o n m f g) (nt_bin_f w I o n m f g).
Proof using.
  induction n as [|n IH]; intros m f g Hm Hf Hg HW; [apply two2_none|]. pose proof (tbin_mo (S n) m f g) as MO.
  cbn [mt_bin_f nt_bin_f] in *. assert (0 < tlen m) as H0 by apply Hm.
  assert (∃ f' g', (if vop_swap o && (g <? f) then (g, f) else (f, g)) = (f', g') ∧ f' < tlen m ∧ g' < tlen m) as (f' & g' & Esw & Hf' & Hg').
  { destruct (vop_swap o && (g <? f)); eauto. }
  rewrite Esw in *. clear Esw. apply (cget_two w m (vop_code o)); [done|done|done| |].
  2: { clear MO. apply mo2_obind. intros fn. apply mo2_obind. intros gn. destruct (vop_arm I o f' g' fn gn) as [x|z| | |].
    - apply cput_mo.
    - apply (cstore_pmo w m (vop_code o)). apply tvalue_mo.
    - apply mo2_ret.
    - done.
    - apply mo2_obind. intros [h ps]. apply (mo2_bind tlen thd m (mapst (λ m p, nt_bin_f w I o n m p.1 p.2) m ps)).
      + apply mo2_mapst. intros. apply tbin_mo.
      + intros m1 ns. apply (cstore_pmo w m1 (vop_code o)). apply tcreate_mo. }
  apply two2_obind. intros fn Hfn. apply two2_obind. intros gn Hgn.
  assert (∀ x, vop_arm I o f' g' fn gn = VRet x → x < tlen m) as Hret.
  { intros x. unfold vop_arm, mt_undet. destruct o, fn as [[]|], gn as [[]|]; cbn; unfold varm_of; repeat case_match; intros [= <-]; try done; lia. }
  destruct (vop_arm I o f' g' fn gn) as [x|z| | |].
  - apply (cput_two w m (vop_code o)); try done. by apply Hret.
  - apply (cstore_pair w m (vop_code o)); try done. by apply tvalue_two.
  - apply two2_ret; [done|]. exact H0.
  - apply two2_none.
  - apply two2_obind. intros [h ps] He.
    apply (expand_fit _ _ _ _ _ _ _ _ _ (tlen m) (tlen m)) in He as [Hh Hps]; try done.
    2: { intros h' cs ->. by eapply (nt_fit _ (proj1 Hm)). } 2: { intros h' cs ->. by eapply (nt_fit _ (proj1 Hm)). }
    apply (two2_bind tlen thd tfit (cap w) (idsok tlen) (idok tlen) m (mapst (λ m p, mt_bin_f I o n m p.1 p.2) m ps)
      (mapst (λ m p, nt_bin_f w I o n m p.1 p.2) m ps)).
    + apply two2_mapst; [done| |intros; apply tbin_mo]. intros m1 p Hin F1 [L1 E1]. rewrite Forall_forall in Hps.
      destruct (Hps _ Hin). apply IH; try done; lia.
    + intros m1 ns F1 [L1 E1] R1. apply (cstore_pair w m1 (vop_code o)); [lia|lia|].
      apply tcreate_two; try done; [unfold thd in *; lia|lia].
    + intros m1 ns. apply (cstore_pmo w m1 (vop_code o)). apply tcreate_mo.
Qed.
End bin.

(** ** The ZMDD operations *)
Section zm.
Context (w : N).
Lemma zbase_mo n : ∀ m f v, tmo m (nzm_set_baseline_f w n m f v).
Proof using.
  induction n as [|n IH]; intros m f v; [done|]. cbn [nzm_set_baseline_f]. apply mo2_obind. intros [[|z]|h [|c cs]]; try done.
  - apply tvalue_mo.
  - apply mo2_ret.
  - apply (mo2_bind tlen thd m (nzm_set_baseline_f w n m c v)); [apply IH|]. intros. apply zcreate_mo.
Qed.
Lemma zbase_two n : ∀ m f v, tfit m → f < tlen m → thd m ≤ cap w → ttwo w m (zm_set_baseline_f n m f v) (nzm_set_baseline_f w n m f v).
Proof using.
  induction n as [|n IH]; intros m f v Hm Hf HW; [apply two2_none|]. cbn [zm_set_baseline_f nzm_set_baseline_f].
  apply two2_obind. intros [[|z]|h [|c cs]] Hn.
  - by apply tvalue_two.
  - by apply two2_ret.
  - apply two2_none.
  - destruct (nt_fit _ (proj1 Hm) _ _ _ Hn) as [Hh Hc]. inversion Hc as [|? ? Hc1 Hc2]; subst.
    apply (two2_bind tlen thd tfit (cap w) (idok tlen) (idok tlen) m (zm_set_baseline_f n m c v) (nzm_set_baseline_f w n m c v)).
    + by apply IH.
    + intros m1 r F1 [L1 E1] R1. apply zcreate_two; try done; [unfold thd in *; lia| |lia].
      constructor; [done|]. eapply Forall_impl; [exact Hc2|]. cbn. intros x Hx. unfold tlen in *. lia.
    + intros. apply zcreate_mo.
Qed.

Ltac tmomo IH :=
  repeat lazymatch goal with
    | |- mo2 _ _ ?m None => done
    | |- mo2 _ _ ?m (Some (?m, _)) => apply mo2_ret
    | |- mo2 _ _ ?m (Some (nt_value _ _ _)) => apply tvalue_mo
    | |- mo2 _ _ ?m (nzm_create_node _ _ _ _) => apply zcreate_mo
    | |- mo2 _ _ ?m (mbind _ (nzm_cache_put _ ?m ?o _ _ _)) => apply (cput_mo w m (zop_code o))
    | |- mo2 _ _ ?m (mbind _ (zm_zip ?F ?m ?l ?l2)) =>
        apply (mo2_bind tlen thd m (zm_zip F m l l2)); [apply mo2_mapst; intros ? ?|intros ? ?]
    | |- mo2 _ _ ?m (mbind _ ?y) =>
        lazymatch type of y with
        | option (mt * nat) => apply (mo2_bind tlen thd m y); [|intros ? ?]
        | _ => apply mo2_obind; intros ?
        end
    | |- mo2 _ _ ?m (match ?x with _ => _ end) => destruct x
    | |- _ => first [apply IH]
    end.
Lemma zint_mo n : ∀ m f g, tmo m (nzm_intersect_f w n m f g).
Proof using. induction n as [|n IH]; intros m f g; [done|]. cbn [nzm_intersect_f]. tmomo IH. Qed.
Lemma zdif_mo n : ∀ m f g, tmo m (nzm_setdiff_f w n m f g).
Proof using. induction n as [|n IH]; intros m f g; [done|]. cbn [nzm_setdiff_f]. cbn zeta. tmomo IH. Qed.
Lemma zip_two m h (F F' : mt → nat → nat → option (mt * nat)) fc gc : tfit m → h < thd m → thd m ≤ cap w →
  Forall (λ c, c < tlen m) fc → Forall (λ c, c < tlen m) gc →
  (∀ m1 f g, tfit m1 → f < tlen m1 → g < tlen m1 → thd m1 ≤ cap w → ttwo w m1 (F m1 f g) (F' m1 f g)) → (∀ m1 f g, tmo m1 (F' m1 f g)) →
  ttwo w m ('(m, cs) ← zm_zip F m fc gc; zm_create_node m h cs) ('(m, cs) ← zm_zip F' m fc gc; nzm_create_node w m h cs).
Proof using.
  intros Hm Hh HW Hf Hg HF Ho. apply (two2_bind tlen thd tfit (cap w) (idsok tlen) (idok tlen) m (zm_zip F m fc gc) (zm_zip F' m fc gc)).
  - apply two2_mapst; [done| |intros; apply Ho]. intros m1 [x y] Hin F1 [L1 E1]. cbn.
    apply elem_of_list_lookup in Hin as [i Hi]. apply lookup_zip_with_Some in Hi as (x' & y' & [= <- <-] & Hx & Hy).
    rewrite Forall_lookup in Hf, Hg. specialize (Hf _ _ Hx). specialize (Hg _ _ Hy). cbn in *. apply HF; try done; lia.
  - intros m1 ns F1 [L1 E1] R. apply zcreate_two; try done; lia.
  - intros. apply zcreate_mo.
Qed.
Lemma kid m cs x : Forall (λ c, c < tlen m) cs → cs !! 0 = Some x → x < tlen m.
Proof using. rewrite Forall_lookup. intros H E. exact (H _ _ E). Qed.
Lemma zint_two n : ∀ m f g, tfit m → f < tlen m → g < tlen m → thd m ≤ cap w →
  ttwo w m (zm_intersect_f n m f g) (nzm_intersect_f w n m f g).
Proof using.
  induction n as [|n IH]; intros m f g Hm Hf Hg HW; [apply two2_none|]. pose proof (zint_mo n) as MN.
  cbn [zm_intersect_f nzm_intersect_f]. assert (0 < tlen m) as H0 by apply Hm.
  assert (∃ f' g', (if g <? f then (g, f) else (f, g)) = (f', g') ∧ f' < tlen m ∧ g' < tlen m) as (f' & g' & -> & Hf' & Hg').
  { destruct (g <? f); eauto. }
  apply (cget_two w m (zop_code ZInter)); [done|done|done| |tmomo MN].
  apply two2_obind. intros fn Hfn. apply two2_obind. intros gn Hgn. apply (cstore_two w m (zop_code ZInter)); [done|done|].
  assert (∀ h cs, fn = NT h cs → h < thd m ∧ Forall (λ c, c < tlen m) cs) as Nf by (intros h' cs ->; by eapply (nt_fit _ (proj1 Hm))).
  assert (∀ h cs, gn = NT h cs → h < thd m ∧ Forall (λ c, c < tlen m) cs) as Ng by (intros h' cs ->; by eapply (nt_fit _ (proj1 Hm))).
  destruct fn as [[|a]|hf fc].
  - by apply two2_ret.
  - destruct gn as [[|b]|hg gc].
    + by apply two2_ret.
    + destruct (a =? b)%Z; [by apply tvalue_two|by apply two2_ret].
    + destruct (Ng _ _ eq_refl) as [Hhg Hgc]. apply two2_obind. intros g0 Hg0. apply IH; try done. by eapply kid.
  - destruct (Nf _ _ eq_refl) as [Hhf Hfc]. destruct gn as [[|b]|hg gc].
    + by apply two2_ret.
    + apply two2_obind. intros f0 Hf0. apply IH; try done. by eapply kid.
    + destruct (Ng _ _ eq_refl) as [Hhg Hgc]. apply two2_obind. intros lf _. apply two2_obind. intros lg _.
      destruct (lg <? lf); [apply two2_obind; intros f0 Hf0; apply IH; try done; exact (kid m _ _ Hfc Hf0)|].
      destruct (lf <? lg); [apply two2_obind; intros g0 Hg0; apply IH; try done; exact (kid m _ _ Hgc Hg0)|].
      by apply zip_two.
Qed.
Lemma zdif_two n : ∀ m f g, tfit m → f < tlen m → g < tlen m → thd m ≤ cap w →
  ttwo w m (zm_setdiff_f n m f g) (nzm_setdiff_f w n m f g).
Proof using.
  induction n as [|n IH]; intros m f g Hm Hf Hg HW; [apply two2_none|]. pose proof (zdif_mo n) as MN.
  cbn [zm_setdiff_f nzm_setdiff_f]. cbn zeta. assert (0 < tlen m) as H0 by apply Hm.
  apply (cget_two w m (zop_code ZDiff)); [done|done|done| |tmomo MN].
  apply two2_obind. intros fn Hfn. apply two2_obind. intros gn Hgn. apply (cstore_two w m (zop_code ZDiff)); [done|done|].
  assert (∀ h cs, fn = NT h cs → h < thd m ∧ Forall (λ c, c < tlen m) cs) as Nf by (intros h' cs ->; by eapply (nt_fit _ (proj1 Hm))).
  assert (∀ h cs, gn = NT h cs → h < thd m ∧ Forall (λ c, c < tlen m) cs) as Ng by (intros h' cs ->; by eapply (nt_fit _ (proj1 Hm))).
  assert (∀ h fc, h < thd m → Forall (λ c, c < tlen m) fc →
    ttwo w m (match fc with [] => None | f0 :: fc => '(m, r) ← zm_setdiff_f n m f0 g; zm_create_node m h (r :: fc) end)
             (match fc with [] => None | f0 :: fc => '(m, r) ← nzm_setdiff_f w n m f0 g; nzm_create_node w m h (r :: fc) end)) as Sk.
  { intros h [|c cs] Hh Hc; [apply two2_none|]. inversion Hc as [|? ? Hc1 Hc2]; subst.
    apply (two2_bind tlen thd tfit (cap w) (idok tlen) (idok tlen) m (zm_setdiff_f n m c g) (nzm_setdiff_f w n m c g)).
    + by apply IH.
    + intros m1 r F1 [L1 E1] R1. apply zcreate_two; try done; [unfold thd in *; lia| |lia].
      constructor; [done|]. eapply Forall_impl; [exact Hc2|]. cbn. intros x Hx. lia.
    + intros. apply zcreate_mo. }
  destruct fn as [[|a]|hf fc].
  - by apply two2_ret.
  - destruct gn as [[|b]|hg gc].
    + by apply two2_ret.
    + destruct (a =? b)%Z; [by apply two2_ret|by apply tvalue_two].
    + destruct (Ng _ _ eq_refl) as [Hhg Hgc]. apply two2_obind. intros g0 Hg0. apply IH; try done. by eapply kid.
  - destruct (Nf _ _ eq_refl) as [Hhf Hfc]. destruct gn as [[|b]|hg gc].
    + by apply two2_ret.
    + by apply Sk.
    + destruct (Ng _ _ eq_refl) as [Hhg Hgc]. apply two2_obind. intros lf _. apply two2_obind. intros lg _.
      destruct (lg <? lf); [by apply Sk|].
      destruct (lf <? lg); [apply two2_obind; intros g0 Hg0; apply IH; try done; exact (kid m _ _ Hgc Hg0)|].
      by apply zip_two.
Qed.
End zm.

(** ** Whole logs *)
Definition tslots_fit (m : mt) : Prop := ∀ id h cs, ar_nodes (t_ar m) !! id = Some (NT h cs) →
  h < thd m ∧ Forall (λ c, c < tlen m) cs.
Lemma tfit_slots m : tfit m → tslots_fit m.
Proof. by intros [[? _] _]. Qed.
Lemma tfit_of I m : twf I m → tslots_fit m → tfit m.
Proof.
  intros [Hg [Hcw Hco]] Hs. unfold tfit, afit. sp; try done.
  - intros [h cs] id Hu. apply (aw_ut _ _ (tg_wf _ _ Hg)) in Hu as [[? _] _]. done.
  - apply (aw_free_lt _ _ (tg_wf _ _ Hg)).
  - split; [done|]. intros k v Hv. destruct (Hco _ _ Hv) as (? & ? & ? & ? & _ & _ & _ & Hr & _). by apply repr_live in Hr as [? _].
  - intros z id Hz. apply (tg_vt _ _ Hg) in Hz. by apply repr_live in Hz as [? _].
  - pose proof (tg_undet _ _ Hg) as Hu. apply repr_live in Hu as [Hu _]. exact Hu.
Qed.
Lemma zmfit_of m : zmwf m → tslots_fit m → tfit m.
Proof.
  intros [Hg [Hcw Hco]] Hs. unfold tfit, afit. sp; try done.
  - intros [h cs] id Hu. apply (aw_ut _ _ (zmg_wf _ _ Hg)) in Hu as [[? _] _]. done.
  - apply (aw_free_lt _ _ (zmg_wf _ _ Hg)).
  - split; [done|]. intros k v Hv. destruct (Hco _ _ Hv) as (? & ? & ? & ? & _ & _ & _ & Hr & _). by apply repr_live in Hr as [? _].
  - intros z id Hz. apply (zmg_vt _ _ Hg) in Hz. by apply repr_live in Hz as [? _].
  - pose proof (zmg_undet _ _ Hg) as Hu. apply repr_live in Hu as [Hu _]. exact Hu.
Qed.
Lemma tnew_slots : tslots_fit mt_new.
Proof. intros [|id] h cs H; cbn in H; [done|]. by destruct id. Qed.
Lemma tgc_shape m roots m1 k : mt_gc m roots = Some (m1, k) →
  ar_nodes (t_ar m1) = ar_nodes (t_ar m) ∧ ar_headers (t_ar m1) = ar_headers (t_ar m).
Proof.
  unfold mt_gc, ar_gc. intros H.
  destruct (ar_mark _ _ _ _) as [lv|]; [|done]. cbn [mbind option_bind] in H.
  destruct (ar_retain _ _) as [ut|]; [|done]. cbn [mbind option_bind] in H.
  destruct (mt_retain _ _) as [vt|]; [|done]. cbn [mbind option_bind] in H.
  destruct (cc_retain_live _ _); [|done]. cbn [mbind option_bind] in H. injection H as <- _. done.
Qed.
Notation tgrow := (grow tlen thd).
Lemma tof_le m m1 : le tlen thd m m1 → tgrow m m1.
Proof. intros []. split; lia. Qed.
Lemma tgc_grow w m roots m1 k : nt_gc w m roots = Some (m1, k) → tgrow m m1.
Proof.
  unfold nt_gc. intros H. destruct (mt_gc m roots) as [[m2 k2]|] eqn:E; [|done]. cbn in H. injection H as <- _.
  apply tgc_shape in E as [E1 E2]. unfold grow, tlen, thd. cbn. rewrite E1, E2. done.
Qed.
Lemma thead_grow m l s e m1 r : Some (mt_create_header m l s e) = Some (m1, r) → tgrow m m1 ∧ ar_nodes (t_ar m1) = ar_nodes (t_ar m).
Proof. intros [= <- _]. unfold grow, tlen, thd. cbn. rewrite app_length. cbn. split; [lia|done]. Qed.
Lemma tslots_grow m m1 : tslots_fit m → tgrow m m1 → ar_nodes (t_ar m1) = ar_nodes (t_ar m) → tslots_fit m1.
Proof.
  intros Hs [_ G] En id h cs Hid. unfold tlen. rewrite En in *. destruct (Hs _ _ _ Hid) as [Hh Hc]. split; [|done]. lia.
Qed.
(** garbage collection, given that the collected manager's free list is in range *)
Lemma tgc_iff w m roots p : (∀ m1 k, mt_gc m roots = Some (m1, k) → ∀ id, id ∈ ar_free (t_ar m1) → id < tlen m1) →
  tlen p.1 ≤ cap w → mt_gc m roots = Some p ↔ nt_gc w m roots = Some p.
Proof.
  intros Hfr HL. unfold nt_gc. destruct (mt_gc m roots) as [[m1 k]|] eqn:E; [|done]. cbn [mbind option_bind].
  assert (tlen m1 ≤ cap w → mt_with_ar m1 (n_free w (t_ar m1)) = m1) as Hn.
  { intros Hc. specialize (Hfr _ _ eq_refl). destruct m1 as [[hs ns ut fr] c ci]. unfold mt_with_ar, n_free. cbn. f_equal. f_equal. apply narrow_map.
    apply Forall_forall. intros id Hid. specialize (Hfr id Hid). unfold tlen, cap in *. cbn in *. lia. }
  split; intros [= <-]; cbn in HL; f_equal; f_equal; [by apply Hn|symmetry; by apply Hn].
Qed.
Lemma tfits_range m h cs : node_fits (t_ar m) h cs → h < thd m ∧ Forall (λ c, c < tlen m) cs.
Proof.
  unfold node_fits. destruct (ar_headers (t_ar m) !! h) as [hd|] eqn:Hh; [|done]. intros [_ Hc].
  split; [by eapply lookup_lt_Some|]. eapply Forall_impl; [exact Hc|]. by intros c [[? _] _].
Qed.

Section mt.
Context (I : vint).
Definition tinv (m : mt) : Prop := twf I m ∧ tfit m.
Lemma nt_exec_grow w m c m1 r : nt_exec w I m c = Some (m1, r) → tgrow m m1.
Proof using.
  destruct c as [l s e|z|h cs|o f g|roots|]; cbn [nt_exec]; intros H.
  - by apply thead_grow in H as [? _].
  - apply tof_le. by eapply tvalue_mo.
  - apply tof_le. by eapply tcreate_mo.
  - apply tof_le. by eapply tbin_mo.
  - by eapply tgc_grow.
  - injection H as <- _. done.
Qed.
Lemma texec_two w m c : tfit m → mt_legal m c → thd m ≤ cap w →
  match c with TValue _ | TNode _ _ | TBin _ _ _ => ttwo w m (mt_exec I m c) (nt_exec w I m c) | _ => True end.
Proof using.
  intros Hm Hl HW. destruct c as [l s e|z|h cs|o f g|roots|]; try done; cbn [mt_exec nt_exec].
  - by apply tvalue_two.
  - apply tfits_range in Hl as [? ?]. by apply tcreate_two.
  - destruct Hl as [[V _] [V2 _]]. by apply tbin_two.
Qed.
Lemma texec_inv m c m1 r : tinv m → mt_legal m c → mt_exec I m c = Some (m1, r) → tinv m1 ∧ tgrow m m1.
Proof using.
  intros [Hw Hm] Hl He. destruct (texec_ok I m c m1 r Hw Hl He) as [Hw' _].
  set (w := N.of_nat (thd m)).
  assert (thd m ≤ cap w) as HW. { unfold cap, w. rewrite Nat2N.id. pose proof (Nat.pow_gt_lin_r 2 (thd m)). lia. }
  assert (∀ y, ttwo w m (mt_exec I m c) y → tinv m1 ∧ tgrow m m1) as Hgen.
  { intros y [Tf _]. destruct (Tf _ _ He) as (F & L & _). split; [done|by apply tof_le]. }
  pose proof (texec_two w m c Hm Hl HW) as T. pose proof (tfit_slots m Hm) as Hs.
  destruct c as [l s e|z|h cs|o f g|roots|]; try (by eapply Hgen); cbn [mt_exec] in *.
  - apply thead_grow in He as [G En]. split; [|done]. split; [done|]. apply (tfit_of I); [done|]. by eapply tslots_grow.
  - pose proof (tgc_shape _ _ _ _ He) as [E1 E2]. assert (tgrow m m1) as G by (unfold grow, tlen, thd; by rewrite E1, E2).
    split; [|done]. split; [done|]. apply (tfit_of I); [done|]. by eapply tslots_grow.
  - injection He as <- <-. split; [|done]. split; [done|]. apply (tfit_of I); [done|]. exact Hs.
Qed.
Lemma texec_iff w m c p : tinv m → mt_legal m c → thd m ≤ cap w → tlen p.1 ≤ cap w →
  mt_exec I m c = Some p ↔ nt_exec w I m c = Some p.
Proof using.
  intros [Hw Hm] Hl HW HL. pose proof (texec_two w m c Hm Hl HW) as T.
  destruct c as [l s e|z|h cs|o f g|roots|]; try (by apply T); cbn [mt_exec nt_exec]; try done.
  apply tgc_iff; [|done]. intros m1 k E. destruct (texec_ok I m (TGc roots) m1 k Hw Hl E) as [Hw1 _].
  exact (aw_free_lt _ _ (tg_wf _ _ (tw_good _ _ Hw1))).
Qed.
Lemma twithin_same w cs rs m : within w (t_ar m) →
  log32 mt_legal (nt_exec w I) mt_new cs = Some (rs, m) ↔ log32 mt_legal (mt_exec I) mt_new cs = Some (rs, m).
Proof using.
  intros [H1%cap_N H2%cap_N]. eapply (log32_same tlen thd mt_legal (mt_exec I) (nt_exec w I) tinv w); try done.
  - apply texec_inv.
  - intros. by eapply nt_exec_grow.
  - intros. by apply texec_iff.
  - split; [apply mt_new_ok|apply (tfit_of I); [apply mt_new_ok|apply tnew_slots]].
Qed.
End mt.

Definition zminv (m : mt) : Prop := zmwf m ∧ tfit m.
Lemma nzm_exec_grow w m c m1 r : nzm_exec w m c = Some (m1, r) → tgrow m m1.
Proof.
  destruct c as [l s e|z|h cs|f g|f g|f z|roots|]; cbn [nzm_exec]; intros H.
  - by apply thead_grow in H as [? _].
  - apply tof_le. by eapply tvalue_mo.
  - apply tof_le. by eapply zcreate_mo.
  - apply tof_le. by eapply zint_mo.
  - apply tof_le. by eapply zdif_mo.
  - apply tof_le. by eapply zbase_mo.
  - by eapply tgc_grow.
  - injection H as <- _. done.
Qed.
Lemma zmexec_two w m c : tfit m → zm_legal m c → thd m ≤ cap w →
  match c with ZHeader _ _ _ | ZGc _ | ZClear => True | _ => ttwo w m (zm_exec m c) (nzm_exec w m c) end.
Proof.
  intros Hm Hl HW. destruct c as [l s e|z|h cs|f g|f g|f z|roots|]; try done; cbn [zm_exec nzm_exec].
  - by apply tvalue_two.
  - apply tfits_range in Hl as [? ?]. by apply zcreate_two.
  - destruct Hl as [[V _] [V2 _]]. by apply zint_two.
  - destruct Hl as [[V _] [V2 _]]. by apply zdif_two.
  - destruct Hl as [V _]. by apply zbase_two.
Qed.
Lemma zmexec_inv m c m1 r : zminv m → zm_legal m c → zm_exec m c = Some (m1, r) → zminv m1 ∧ tgrow m m1.
Proof.
  intros [Hw Hm] Hl He. destruct (zm_exec_ok m c Hw Hl) as (m1' & r' & He' & Hw' & _). rewrite He in He'. injection He' as <- <-.
  set (w := N.of_nat (thd m)).
  assert (thd m ≤ cap w) as HW. { unfold cap, w. rewrite Nat2N.id. pose proof (Nat.pow_gt_lin_r 2 (thd m)). lia. }
  assert (∀ y, ttwo w m (zm_exec m c) y → zminv m1 ∧ tgrow m m1) as Hgen.
  { intros y [Tf _]. destruct (Tf _ _ He) as (F & L & _). split; [done|by apply tof_le]. }
  pose proof (zmexec_two w m c Hm Hl HW) as T. pose proof (tfit_slots m Hm) as Hs.
  destruct c as [l s e|z|h cs|f g|f g|f z|roots|]; try (by eapply Hgen); cbn [zm_exec] in *.
  - apply thead_grow in He as [G En]. split; [|done]. split; [done|]. apply zmfit_of; [done|]. by eapply tslots_grow.
  - pose proof (tgc_shape _ _ _ _ He) as [E1 E2]. assert (tgrow m m1) as G by (unfold grow, tlen, thd; by rewrite E1, E2).
    split; [|done]. split; [done|]. apply zmfit_of; [done|]. by eapply tslots_grow.
  - injection He as <- <-. split; [|done]. split; [done|]. apply zmfit_of; [done|]. exact Hs.
Qed.
Lemma zmexec_iff w m c p : zminv m → zm_legal m c → thd m ≤ cap w → tlen p.1 ≤ cap w →
  zm_exec m c = Some p ↔ nzm_exec w m c = Some p.
Proof.
  intros [Hw Hm] Hl HW HL. pose proof (zmexec_two w m c Hm Hl HW) as T.
  destruct c as [l s e|z|h cs|f g|f g|f z|roots|]; try (by apply T); cbn [zm_exec nzm_exec]; try done.
  apply tgc_iff; [|done]. intros m1 k E. destruct (zm_exec_ok m (ZGc roots) Hw Hl) as (m1' & k' & E' & Hw1 & _).
  cbn [zm_exec] in E'. unfold zm_gc in E'. rewrite E in E'. injection E' as <- <-.
  exact (aw_free_lt _ _ (zmg_wf _ _ (zmw_good _ Hw1))).
Qed.
Lemma zmwithin_same w cs rs m : within w (t_ar m) →
  log32 zm_legal (nzm_exec w) zm_new cs = Some (rs, m) ↔ log32 zm_legal zm_exec zm_new cs = Some (rs, m).
Proof.
  intros [H1%cap_N H2%cap_N]. eapply (log32_same tlen thd zm_legal zm_exec (nzm_exec w) zminv w); try done.
  - apply zmexec_inv.
  - intros. by eapply nzm_exec_grow.
  - intros. by apply zmexec_iff.
  - split; [apply zm_new_ok|apply zmfit_of; [apply zm_new_ok|apply tnew_slots]].
Qed.
