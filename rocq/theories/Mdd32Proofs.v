(** The narrowed MDD manager against the wide one. *)
From Verif Require Import Prelude ComputeCache ComputeCacheProofs Arena ArenaProofs Bdd Mdd MtMdd SpecBdd SpecMdd MddProofs MddMain Bdd32 Bdd32Proofs Bdd32Main SpecLog32 Two32 Mdd32.

(** ** Ids read from a store are in range *)
Section read.
Context {T : Type} (a : arena T).
Hypothesis Ha : afit a.
Local Notation L := (length (ar_nodes a)).
Local Notation H := (length (ar_headers a)).
Lemma nt_fit f h cs : ar_nodes a !! f = Some (NT h cs) → h < H ∧ Forall (λ c, c < L) cs.
Proof using Ha. apply Ha. Qed.
Lemma cofs_fit x top k cs : x < L → ite_cofactor a x top k = Some cs → Forall (λ c, c < L) cs.
Proof using Ha.
  intros Hx. unfold ite_cofactor. destruct (ar_node_level a x) as [lv|]; [|done]. cbn [mbind option_bind].
  case_decide; [|intros [= <-]; by apply Forall_replicate].
  destruct (ar_nodes a !! x) as [[t|h cs']|] eqn:E; cbn; [intros [= <-]; by apply Forall_replicate| |done].
  intros [= <-]. by eapply nt_fit.
Qed.
Lemma ttop_fit xs top h k : ite_top_header a xs top = Some (h, k) → h < H.
Proof using Ha.
  induction xs as [|x xs IH]; [done|]. cbn [ite_top_header]. destruct (ar_node_level a x); [|done]. cbn [mbind option_bind].
  case_decide; [|done]. destruct (ar_nodes a !! x) as [[t|h' cs]|] eqn:E; cbn; [done| |done].
  intros [= <- <-]. by eapply nt_fit.
Qed.
End read.
Lemma triples_fit L k fc gc hc ts : Forall (λ c, c < L) fc → Forall (λ c, c < L) gc → Forall (λ c, c < L) hc →
  ite_triples k fc gc hc = Some ts → Forall (λ t, t.1.1 < L ∧ t.1.2 < L ∧ t.2 < L) ts.
Proof.
  intros Hf Hg Hh. unfold ite_triples. intros E. apply mapM_Some in E. apply Forall_lookup. intros i t Ht.
  destruct (Forall2_lookup_r _ _ _ _ _ E Ht) as (j & _ & Hj).
  destruct (fc !! j) eqn:E1; [|done]. destruct (gc !! j) eqn:E2; [|done]. destruct (hc !! j) eqn:E3; [|done].
  cbn in Hj. injection Hj as <-. rewrite Forall_lookup in Hf, Hg, Hh. cbn.
  sp; [by eapply Hf|by eapply Hg|by eapply Hh].
Qed.
Lemma expand_fit {T1 T2} left (a1 : arena T1) (a2 : arena T2) f g fn gn h ps L1 L2 :
  (∀ h cs, fn = NT h cs → h < length (ar_headers a1) ∧ Forall (λ c, c < L1) cs) →
  (∀ h cs, gn = NT h cs → h < length (ar_headers a2) ∧ Forall (λ c, c < L2) cs) → f < L1 → g < L2 →
  expand left a1 a2 f g fn gn = Some (h, ps) →
  h < length (ar_headers a1) `max` length (ar_headers a2) ∧ Forall (λ p, p.1 < L1 ∧ p.2 < L2) ps.
Proof.
  intros H1 H2 Hf Hg. unfold expand.
  destruct fn as [t|hf fc], gn as [t2|hg gc]; [done| | |].
  - destruct (H2 _ _ eq_refl) as [? Hc]. intros [= <- <-]. split; [lia|]. apply Forall_map. eapply Forall_impl; [exact Hc|]. done.
  - destruct (H1 _ _ eq_refl) as [? Hc]. intros [= <- <-]. split; [lia|]. apply Forall_map. eapply Forall_impl; [exact Hc|]. done.
  - destruct (H1 _ _ eq_refl) as [? Hc]. destruct (H2 _ _ eq_refl) as [? Hc2].
    destruct (hdr_level a1 hf) as [lf|]; [|done]. destruct (hdr_level a2 hg) as [lg|]; [|done]. cbn [mbind option_bind].
    destruct (lg <? lf); [|destruct (lf <? lg)].
    + intros [= <- <-]. split; [lia|]. apply Forall_map. eapply Forall_impl; [exact Hc|]. done.
    + intros [= <- <-]. split; [lia|]. apply Forall_map. eapply Forall_impl; [exact Hc2|]. done.
    + intros [= <- <-]. split; [destruct left; lia|]. apply Forall_lookup. intros i [x y] Hi.
      apply lookup_zip_with_Some in Hi as (x' & y' & [= <- <-] & Hx & Hy).
      rewrite Forall_lookup in Hc, Hc2. eauto.
Qed.
Lemma all_same_in cs x : all_same cs = Some x → x ∈ cs.
Proof. destruct cs as [|y cs]; [done|]. cbn [all_same]. destruct (forallb _ _); [|done]. intros [= <-]. left. Qed.

(** ** The manager *)
Definition mlen (m : mdd) : nat := length (ar_nodes (d_ar m)).
Definition mhd (m : mdd) : nat := length (ar_headers (d_ar m)).
Definition mfit (m : mdd) : Prop := afit (d_ar m) ∧ cfit (d_cache m) (mlen m) ∧ cfit (d_ite m) (mlen m) ∧ 2 < mlen m.
Notation mtwo w := (two2 mlen mhd mfit (cap w) (idok mlen)).
Notation mmo := (mo2 mlen mhd).

Lemma mcreate_fit m h cs m1 r : mfit m → h < mhd m → Forall (λ c, c < mlen m) cs →
  mdd_create_node m h cs = (m1, r) → mfit m1 ∧ le mlen mhd m m1 ∧ r < mlen m1.
Proof.
  intros (Ha & Hc & Hi & H2) Hh Hcs. unfold mdd_create_node. destruct (all_same cs) as [x|] eqn:Es.
  { intros [= <- <-]. sp; try done. apply all_same_in in Es. rewrite Forall_forall in Hcs. by apply Hcs. }
  destruct (ar_hashcons (d_ar m) h cs) as [a id] eqn:He. intros [= <- <-].
  destruct (afit_hashcons _ _ cs _ _ Ha Hh Hcs He) as (Ha1 & Hd & Hl & Hr).
  unfold mfit, le, mlen, mhd in *. cbn. rewrite Hd. sp; try done; try lia; (eapply cfit_mono; [|done]; done).
Qed.
Lemma mcreate_mo w m h cs : mmo m (Some (nm_create_node w m h cs)).
Proof.
  intros m' r [= H]. revert H. unfold nm_create_node. destruct (all_same cs); [intros [= <- <-]; apply le_refl|].
  pose proof (n_hashcons_grow w (d_ar m) h cs) as [G1 G2].
  destruct (n_hashcons w _ _ _) as [a id]. intros [= <- <-]. unfold le, mlen, mhd. cbn in *. by rewrite G2.
Qed.
Lemma mcreate_two w m h cs : mfit m → h < mhd m → Forall (λ c, c < mlen m) cs → mhd m ≤ cap w →
  mtwo w m (Some (mdd_create_node m h cs)) (Some (nm_create_node w m h cs)).
Proof.
  intros Hf Hh Hc HW. apply two2_guard.
  - intros m' r [= H]. exact (mcreate_fit m h cs m' r Hf Hh Hc H).
  - apply mcreate_mo.
  - intros Hl p HL. unfold mdd_create_node, nm_create_node. destruct (all_same cs); [done|].
    pose proof (hashcons_iff w (d_ar m) h cs) as E. destruct Hf as (Ha & _).
    destruct (ar_hashcons _ _ _) as [a1 i1] eqn:E1. destruct (n_hashcons _ _ _ _) as [a2 i2] eqn:E2. cbn in E.
    split; intros [= <-]; cbn in HL; (assert ((a2, i2) = (a1, i1)) as [= -> ->]; [apply E; try done; tauto|done]).
Qed.
Lemma mput_two w m o f g r : mfit m → f < mlen m → g < mlen m → r < mlen m →
  mtwo w m (m ← mdd_cache_put m o f g r; Some (m, r)) (m ← nm_cache_put w m o f g r; Some (m, r)).
Proof.
  intros (Ha & Hc & Hi & H2) Hf Hg Hr. apply two2_write.
  - unfold mdd_cache_put. intros m1 H. destruct (cc_put _ _ _ _ _) as [c|] eqn:E; [|done]. injection H as <-.
    unfold mfit. cbn. sp; try done. eapply cfit_put; [exact Hc| |exact E]. unfold mlen. cbn. rewrite Nat2N.id. done.
  - intros HW. unfold nm_cache_put. by rewrite !(nn w _ (mlen m)).
  - unfold nm_cache_put, mdd_cache_put. intros m1 H. destruct (cc_put _ _ _ _ _) as [c|]; [|done]. by injection H as <-.
Qed.
Lemma miput_two w m f g h r : mfit m → f < mlen m → g < mlen m → h < mlen m → r < mlen m →
  mtwo w m (m ← mdd_ite_put m f g h r; Some (m, r)) (m ← nm_ite_put w m f g h r; Some (m, r)).
Proof.
  intros (Ha & Hc & Hi & H2) Hf Hg Hh Hr. apply two2_write.
  - unfold mdd_ite_put. intros m1 H. destruct (cc_put _ _ _ _ _) as [c|] eqn:E; [|done]. injection H as <-.
    unfold mfit. cbn. sp; try done. eapply cfit_put; [exact Hi| |exact E]. unfold mlen. cbn. rewrite Nat2N.id. done.
  - intros HW. unfold nm_ite_put. by rewrite !(nn w _ (mlen m)).
  - unfold nm_ite_put, mdd_ite_put. intros m1 H. destruct (cc_put _ _ _ _ _) as [c|]; [|done]. by injection H as <-.
Qed.
Lemma mput_mo w m o f g r : mmo m (m ← nm_cache_put w m o f g r; Some (m, r)).
Proof.
  intros m' r' H. unfold nm_cache_put, mdd_cache_put in H. destruct (cc_put _ _ _ _ _); [|done]. cbn in H.
  injection H as <- <-. by split.
Qed.
Lemma miput_mo w m f g h r : mmo m (m ← nm_ite_put w m f g h r; Some (m, r)).
Proof.
  intros m' r' H. unfold nm_ite_put, mdd_ite_put in H. destruct (cc_put _ _ _ _ _); [|done]. cbn in H.
  injection H as <- <-. by split.
Qed.
Lemma mget_val m o f g x : mfit m → mdd_cache_get m o f g = Some (Some x) → x < mlen m.
Proof.
  intros (_ & Hc & _) H. unfold mdd_cache_get in H. destruct (cc_get _ _ _ _) as [[v|]|] eqn:E; cbn in H; try done.
  injection H as <-. by eapply cfit_get.
Qed.
Lemma miget_val m f g h x : mfit m → mdd_ite_get m f g h = Some (Some x) → x < mlen m.
Proof.
  intros (_ & _ & Hc & _) H. unfold mdd_ite_get in H. destruct (cc_get _ _ _ _) as [[v|]|] eqn:E; cbn in H; try done.
  injection H as <-. by eapply cfit_get.
Qed.
Lemma mlook_two w m o f g d d' : mfit m → f < mlen m → g < mlen m → mtwo w m d d' → mmo m d' →
  mtwo w m (hit ← mdd_cache_get m o f g; match hit with Some x => Some (m, x) | None => d end)
           (hit ← nm_cache_get w m o f g; match hit with Some x => Some (m, x) | None => d' end).
Proof.
  intros Hm Hf Hg H Ho. apply two2_look.
  - intros HW. unfold nm_cache_get. by rewrite !(nn w _ (mlen m)).
  - intros [x|] E; [|done]. apply two2_ret; [done|]. by eapply mget_val.
  - intros [x|]; [apply mo2_ret|done].
Qed.
Lemma milook_two w m f g h d d' : mfit m → f < mlen m → g < mlen m → h < mlen m → mtwo w m d d' → mmo m d' →
  mtwo w m (hit ← mdd_ite_get m f g h; match hit with Some x => Some (m, x) | None => d end)
           (hit ← nm_ite_get w m f g h; match hit with Some x => Some (m, x) | None => d' end).
Proof.
  intros Hm Hf Hg Hh H Ho. apply two2_look.
  - intros HW. unfold nm_ite_get. by rewrite !(nn w _ (mlen m)).
  - intros [x|] E; [|done]. apply two2_ret; [done|]. by eapply miget_val.
  - intros [x|]; [apply mo2_ret|done].
Qed.
Lemma mstore_two w m o f g (x y : option (mdd * nat)) : f < mlen m → g < mlen m → mtwo w m x y →
  mtwo w m ('(m, result) ← x; m ← mdd_cache_put m o f g result; Some (m, result))
           ('(m, result) ← y; m ← nm_cache_put w m o f g result; Some (m, result)).
Proof.
  intros Hf Hg H. apply (two2_bind mlen mhd mfit (cap w) (idok mlen) (idok mlen) m x y); [done| |].
  - intros m1 r F [L1 L2] R. unfold idok in R. apply mput_two; try done; lia.
  - intros. apply mput_mo.
Qed.
(** visit the children, then create the node *)
Lemma mrec_two {A} w m h (F F' : mdd → A → option (mdd * nat)) l : mfit m → h < mhd m → mhd m ≤ cap w →
  (∀ m1 a, a ∈ l → mfit m1 → mlen m ≤ mlen m1 → mhd m1 = mhd m → mtwo w m1 (F m1 a) (F' m1 a)) → (∀ m1 a, mmo m1 (F' m1 a)) →
  mtwo w m ('(m, ns) ← mapst F m l; Some (mdd_create_node m h ns)) ('(m, ns) ← mapst F' m l; Some (nm_create_node w m h ns)).
Proof.
  intros Hm Hh HW HF Ho. apply (two2_bind mlen mhd mfit (cap w) (idsok mlen) (idok mlen)).
  - apply two2_mapst; [done| |done]. intros m1 a Ha F1 [L1 L2]. by apply HF.
  - intros m1 ns F1 [L1 L2] R. apply mcreate_two; try done; lia.
  - intros. apply mcreate_mo.
Qed.

Ltac mmomo IH :=
  repeat lazymatch goal with
    | |- mo2 _ _ ?m None => done
    | |- mo2 _ _ ?m (Some (?m, _)) => apply mo2_ret
    | |- mo2 _ _ ?m (Some (nm_create_node _ _ _ _)) => apply mcreate_mo
    | |- mo2 _ _ ?m (mbind _ (nm_cache_put _ _ _ _ _ _)) => apply mput_mo
    | |- mo2 _ _ ?m (mbind _ (nm_ite_put _ _ _ _ _ _)) => apply miput_mo
    | |- mo2 _ _ ?m (mbind _ (mapst ?F ?m ?l)) => apply (mo2_bind mlen mhd m (mapst F m l)); [apply mo2_mapst; intros ? ?|intros ? ?]
    | |- mo2 _ _ ?m (mbind _ ?y) =>
        lazymatch type of y with
        | option (mdd * nat) => apply (mo2_bind mlen mhd m y); [|intros ? ?]
        | _ => apply mo2_obind; intros ?
        end
    | |- mo2 _ _ ?m (match nm_create_node ?w ?m ?h ?cs with _ => _ end) =>
        refine (mo2_bind mlen mhd m (Some (nm_create_node w m h cs)) _ _ _); [|intros ? ?]
    | |- mo2 _ _ ?m (match ?x with _ => _ end) => destruct x
    | |- _ => first [apply IH]
    end.
Lemma mnot_mo w n : ∀ m f, mmo m (nm_not_f w n m f).
Proof. induction n as [|n IH]; intros m f; [done|]. cbn [nm_not_f]. mmomo IH. Qed.
Lemma mbin_mo w o n : ∀ m f g, mmo m (nm_bin_f w o n m f g).
Proof.
  induction n as [|n IH]; intros m f g; [done|]. pose proof (mnot_mo w (S n)) as IN. cbn [nm_bin_f]. mmomo IH; apply IN.
Qed.
Lemma mite_mo w n : ∀ m f g h, mmo m (nm_ite_f w n m f g h).
Proof. induction n as [|n IH]; intros m f g h; [done|]. cbn [nm_ite_f]. mmomo IH. Qed.

Lemma mnot_two w n : ∀ m f, mfit m → f < mlen m → mhd m ≤ cap w → mtwo w m (mdd_not_f n m f) (nm_not_f w n m f).
Proof.
  induction n as [|n IH]; intros m f Hm Hf HW; [apply two2_none|]. cbn [mdd_not_f nm_not_f].
  pose proof (mnot_mo w n) as MN. assert (2 < mlen m) as H2 by apply Hm.
  apply mlook_two; [done|done|lia| |mmomo MN].
  apply two2_obind. intros fn Hfn. apply mstore_two; [done|lia|].
  destruct fn as [[]|hf fc]; try (apply two2_ret; [done|unfold idok, mdd_one, mdd_zero, mdd_undet; lia]).
  destruct (nt_fit _ (proj1 Hm) _ _ _ Hfn) as [Hh Hc]. apply mrec_two; try done.
  - intros m1 c Hin F1 L1 E1. apply IH; [done| |lia]. rewrite Forall_forall in Hc. specialize (Hc _ Hin). unfold mlen in *. lia.
Qed.
Lemma arm_fit o f g fn gn L x : f < L → g < L → 2 < L → mop_arm o f g fn gn = ARet x ∨ mop_arm o f g fn gn = ANeg x → x < L.
Proof.
  intros Hf Hg H2 [H|H]; destruct o, fn as [[]|], gn as [[]|]; cbn in H; repeat case_match; try done;
    injection H as <-; unfold mdd_zero, mdd_one, mdd_undet; lia.
Qed.
Lemma mbin_two w o n : ∀ m f g, mfit m → f < mlen m → g < mlen m → mhd m ≤ cap w →
  mtwo w m (mdd_bin_f o n m f g) (nm_bin_f w o n m f g).
Proof.
  induction n as [|n IH]; intros m f g Hm Hf Hg HW; [apply two2_none|].
  pose proof (mnot_two w (S n)) as IN. pose proof (mnot_mo w (S n)) as MO. cbn [mdd_bin_f nm_bin_f].
  pose proof (mbin_mo w o n) as MN. assert (2 < mlen m) as H2 by apply Hm.
  assert (∃ f' g', (if mop_swap o && (g <? f) then (g, f) else (f, g)) = (f', g') ∧ f' < mlen m ∧ g' < mlen m) as (f' & g' & -> & Hf' & Hg').
  { destruct (mop_swap o && (g <? f)); eauto. }
  apply mlook_two; [done|done|done| |mmomo MN; apply MO].
  apply two2_obind. intros fn Hfn. apply two2_obind. intros gn Hgn. apply mstore_two; [done|done|].
  pose proof (arm_fit o f' g' fn gn (mlen m)) as AF.
  destruct (mop_arm o f' g' fn gn) as [x|x|].
  - apply two2_ret; [done|]. apply AF; auto.
  - apply IN; try done. apply AF; auto.
  - apply two2_obind. intros [h ps] He.
    apply (expand_fit _ _ _ _ _ _ _ _ _ (mlen m) (mlen m)) in He as [Hh Hps]; try done.
    2: { intros h' cs ->. by eapply (nt_fit _ (proj1 Hm)). } 2: { intros h' cs ->. by eapply (nt_fit _ (proj1 Hm)). }
    apply mrec_two; try done; [unfold mhd; lia|].
    intros m1 p Hin F1 L1 E1. rewrite Forall_forall in Hps. destruct (Hps _ Hin). apply IH; try done; lia.
Qed.
Lemma mite_two w n : ∀ m f g h, mfit m → f < mlen m → g < mlen m → h < mlen m → mhd m ≤ cap w →
  mtwo w m (mdd_ite_f n m f g h) (nm_ite_f w n m f g h).
Proof.
  induction n as [|n IH]; intros m f g h Hm Hf Hg Hh HW; [apply two2_none|]. cbn [mdd_ite_f nm_ite_f].
  pose proof (mite_mo w n) as MN. assert (2 < mlen m) as H2 by apply Hm. apply two2_obind. intros fn Hfn.
  destruct fn as [[]|hf fc0]; try (apply two2_ret; [done|unfold idok, mdd_undet; lia]).
  destruct (g =? h); [by apply two2_ret|].
  apply milook_two; try done; [|mmomo MN].
  apply two2_obind. intros top0 _. apply two2_obind. intros top1 _. apply two2_obind. intros top _.
  apply two2_obind. intros [hid k] Eh. apply (ttop_fit _ (proj1 Hm)) in Eh.
  apply two2_obind. intros fc Ef. apply (cofs_fit _ (proj1 Hm)) in Ef; [|done].
  apply two2_obind. intros gc Eg. apply (cofs_fit _ (proj1 Hm)) in Eg; [|done].
  apply two2_obind. intros hc Ec. apply (cofs_fit _ (proj1 Hm)) in Ec; [|done].
  apply two2_obind. intros ts Et. apply (triples_fit (mlen m)) in Et; try done.
  apply (two2_bind mlen mhd mfit (cap w) (idsok mlen) (idok mlen) m (mapst (λ m t, mdd_ite_f n m t.1.1 t.1.2 t.2) m ts)
    (mapst (λ m t, nm_ite_f w n m t.1.1 t.1.2 t.2) m ts)).
  { apply two2_mapst; [done| |intros; apply MN]. intros m1 t Hin F1 [L1 E1]. rewrite Forall_forall in Et.
    destruct (Et _ Hin) as (? & ? & ?). apply IH; try done; lia. }
  2: { intros. mmomo MN. }
  intros m1 ns F1 [L1 E1] R1. cbn beta.
  refine (two2_bind mlen mhd mfit (cap w) (idok mlen) (idok mlen) m1 (Some (mdd_create_node m1 hid ns)) (Some (nm_create_node w m1 hid ns))
    (λ m r, m ← mdd_ite_put m f g h r; Some (m, r)) (λ m r, m ← nm_ite_put w m f g h r; Some (m, r)) _ _ _).
  - apply mcreate_two; try done; [unfold mhd in *; lia|lia].
  - intros m2 r F2 [L2 E2] R2. unfold idok in R2. apply miput_two; try done; lia.
  - intros. apply miput_mo.
Qed.

Lemma mconn_two w c m f g : mfit m → f < mlen m → g < mlen m → mhd m ≤ cap w → mtwo w m (mdd_conn c m f g) (nm_conn w c m f g).
Proof.
  intros Hm Hf Hg HW.
  assert (∀ (x y : option (mdd * nat)), mtwo w m x y →
    mtwo w m ('(m, t) ← x; mdd_not m t) ('(m, t) ← y; nm_not w m t)) as Hneg.
  { intros x y H. apply (two2_bind mlen mhd mfit (cap w) (idok mlen) (idok mlen) m x y); [done| |].
    - intros m1 r F [L1 L2] R. apply mnot_two; try done. lia.
    - intros. apply mnot_mo. }
  destruct c; cbn [mdd_conn nm_conn].
  - by apply mbin_two.
  - by apply mbin_two.
  - by apply mbin_two.
  - apply (two2_bind mlen mhd mfit (cap w) (idok mlen) (idok mlen) m (mdd_not m f) (nm_not w m f)); [by apply mnot_two| |].
    + intros m1 r F [L1 L2] R. unfold idok in R. apply mbin_two; try done; lia.
    + intros. apply mbin_mo.
  - apply Hneg. by apply mbin_two.
  - apply Hneg. by apply mbin_two.
  - apply Hneg. by apply mbin_two.
Qed.
Lemma mconn_mo w c m f g : mmo m (nm_conn w c m f g).
Proof.
  destruct c; cbn [nm_conn]; try apply mbin_mo.
  - apply (mo2_bind mlen mhd m (nm_not w m f)); [apply mnot_mo|intros; apply mbin_mo].
  - apply (mo2_bind mlen mhd m (nm_and w m f g)); [apply mbin_mo|intros; apply mnot_mo].
  - apply (mo2_bind mlen mhd m (nm_or w m f g)); [apply mbin_mo|intros; apply mnot_mo].
  - apply (mo2_bind mlen mhd m (nm_xor w m f g)); [apply mbin_mo|intros; apply mnot_mo].
Qed.

(** ** Whole logs *)
Definition mslots_fit (m : mdd) : Prop := ∀ id h cs, ar_nodes (d_ar m) !! id = Some (NT h cs) →
  h < mhd m ∧ Forall (λ c, c < mlen m) cs.
Lemma mfit_of m : mwf m → mslots_fit m → mfit m.
Proof.
  intros [Hg Hco Hci] Hs. unfold mfit, afit. sp; try done.
  - intros [h cs] id Hu. apply (aw_ut _ _ (mg_wf _ Hg)) in Hu as [[? _] _]. done.
  - apply (aw_free_lt _ _ (mg_wf _ Hg)).
  - destruct Hco as [Hcw Hco]. split; [done|]. intros k v Hv. destruct (Hco _ _ Hv) as (? & ? & ? & ? & _ & _ & _ & Hr & _). by apply repr_live in Hr as [? _].
  - destruct Hci as [Hcw Hci]. split; [done|]. intros k v Hv. destruct (Hci _ _ Hv) as (? & ? & ? & ? & _ & _ & _ & Hr & _). by apply repr_live in Hr as [? _].
  - pose proof (mg_undet _ Hg) as Hu. apply repr_live in Hu as [Hu _]. exact Hu.
Qed.
Lemma mfit_slots m : mfit m → mslots_fit m.
Proof. by intros [[? _] _]. Qed.
Lemma mnew_fit : mfit mdd_new.
Proof. apply mfit_of; [apply mdd_new_ok|]. intros [|[|[|id]]] h cs H; cbn in H; [done|done|done|]. by destruct id. Qed.
Lemma mgc_shape m roots m1 k : mdd_gc m roots = Some (m1, k) →
  ar_nodes (d_ar m1) = ar_nodes (d_ar m) ∧ ar_headers (d_ar m1) = ar_headers (d_ar m).
Proof.
  unfold mdd_gc, ar_gc. intros H.
  destruct (ar_mark _ _ _ _) as [lv|]; [|done]. cbn [mbind option_bind] in H.
  destruct (ar_retain _ _) as [ut|]; [|done]. cbn [mbind option_bind] in H.
  destruct (cc_retain_live _ _); [|done]. cbn [mbind option_bind] in H. destruct (cc_retain_live3 _ _); [|done]. cbn [mbind option_bind] in H. injection H as <- _. done.
Qed.
Notation mgrow := (grow mlen mhd).
Lemma mof_le m m1 : le mlen mhd m m1 → mgrow m m1.
Proof. intros []. split; lia. Qed.
Lemma nm_exec_grow w m c m1 r : nm_exec w m c = Some (m1, r) → mgrow m m1.
Proof.
  destruct c as [l s e|h cs|f|c f g|f g|f g h|roots|]; cbn [nm_exec]; intros H.
  - injection H as <- _. unfold grow, mlen, mhd. cbn. rewrite app_length. cbn. lia.
  - apply mof_le. by eapply mcreate_mo.
  - apply mof_le. by eapply mnot_mo.
  - apply mof_le. by eapply mconn_mo.
  - apply mof_le. by eapply mbin_mo.
  - apply mof_le. by eapply mite_mo.
  - unfold nm_gc in H. destruct (mdd_gc m roots) as [[m2 k]|] eqn:E; [|done]. cbn in H. injection H as <- _.
    apply mgc_shape in E as [E1 E2]. unfold grow, mlen, mhd. cbn. rewrite E1, E2. done.
  - injection H as <- _. done.
Qed.
Definition minv (m : mdd) : Prop := mwf m ∧ mfit m.
Lemma mgc_iff w m roots p : minv m → mdd_legal m (DGc roots) → mlen p.1 ≤ cap w →
  mdd_gc m roots = Some p ↔ nm_gc w m roots = Some p.
Proof.
  intros [Hw Hm] Hl HL. destruct (mexec_ok m (DGc roots) Hw Hl) as (m1 & k & E & Hw1 & _). cbn [mdd_exec] in E.
  pose proof (mgc_shape _ _ _ _ E) as [E1 E2]. unfold nm_gc. rewrite E. cbn [mbind option_bind].
  assert (mlen m1 ≤ cap w → mdd_with_ar m1 (n_free w (d_ar m1)) = m1) as Hn.
  { intros Hc. destruct m1 as [[hs ns ut fr] c ci]. unfold mdd_with_ar, n_free. cbn. f_equal. f_equal. apply narrow_map.
    apply Forall_forall. intros id Hid. pose proof (aw_free_lt _ _ (mg_wf _ (mw_good _ Hw1)) id Hid). unfold mlen, cap in *. cbn in *. lia. }
  split; intros [= <-]; cbn in HL; f_equal; f_equal; [by apply Hn|symmetry; by apply Hn].
Qed.
Lemma mfits_range m h cs : node_fits (d_ar m) h cs → h < mhd m ∧ Forall (λ c, c < mlen m) cs.
Proof.
  unfold node_fits. destruct (ar_headers (d_ar m) !! h) as [hd|] eqn:Hh; [|done]. intros [_ Hc].
  split; [by eapply lookup_lt_Some|]. eapply Forall_impl; [exact Hc|]. by intros c [[? _] _].
Qed.
(** every call that builds: the two managers side by side *)
Lemma mexec_two w m c : mfit m → mdd_legal m c → mhd m ≤ cap w →
  match c with DNode _ _ | DNot _ | DConn _ _ _ | DReplace _ _ | DIte _ _ _ => mtwo w m (mdd_exec m c) (nm_exec w m c) | _ => True end.
Proof.
  intros Hm Hl HW. destruct c as [l s e|h cs|f|c f g|f g|f g h|roots|]; try done; cbn [mdd_exec nm_exec].
  - apply mfits_range in Hl as [? ?]. by apply mcreate_two.
  - destruct Hl as [V _]. by apply mnot_two.
  - destruct Hl as [[V _] [V2 _]]. by apply mconn_two.
  - destruct Hl as [[V _] [V2 _]]. by apply mbin_two.
  - destruct Hl as [[V _] [[V2 _] [V3 _]]]. by apply mite_two.
Qed.
Lemma mexec_inv m c m1 r : minv m → mdd_legal m c → mdd_exec m c = Some (m1, r) → minv m1 ∧ mgrow m m1.
Proof.
  intros [Hw Hm] Hl He. destruct (mexec_ok m c Hw Hl) as (m1' & r' & He' & Hw' & _). rewrite He in He'. injection He' as <- <-.
  set (w := N.of_nat (mhd m)).
  assert (mhd m ≤ cap w) as HW. { unfold cap, w. rewrite Nat2N.id. pose proof (Nat.pow_gt_lin_r 2 (mhd m)). lia. }
  assert (∀ y, mtwo w m (mdd_exec m c) y → minv m1 ∧ mgrow m m1) as Hgen.
  { intros y [Tf _]. destruct (Tf _ _ He) as (F & L & _). split; [done|by apply mof_le]. }
  pose proof (mexec_two w m c Hm Hl HW) as T.
  destruct c as [l s e|h cs|f|c f g|f g|f g h|roots|]; try (by eapply Hgen); cbn [mdd_exec] in *.
  - assert (m1 = (mdd_create_header m l s e).1) as Em by (injection He as E0 _; by rewrite <- E0).
    assert (mgrow m m1) as G. { rewrite Em. unfold grow, mlen, mhd. cbn. rewrite app_length. cbn. lia. }
    split; [|done]. split; [done|]. apply mfit_of; [done|]. intros id h cs Hid.
    assert (ar_nodes (d_ar m1) = ar_nodes (d_ar m)) as En by (by rewrite Em).
    unfold mlen. rewrite En in *.
    destruct (mfit_slots m Hm _ _ _ Hid) as [Hh Hc]. split; [|done]. destruct G as [_ G]. unfold mhd in *. lia.
  - pose proof (mgc_shape _ _ _ _ He) as [E1 E2]. split; [|unfold grow, mlen, mhd; by rewrite E1, E2].
    split; [done|]. apply mfit_of; [done|]. intros id h cs. unfold mlen, mhd. rewrite E1, E2. apply mfit_slots; done.
  - injection He as <- <-. split; [|done]. split; [done|]. apply mfit_of; [done|]. exact (mfit_slots m Hm).
Qed.
Lemma mexec_iff w m c p : minv m → mdd_legal m c → mhd m ≤ cap w → mlen p.1 ≤ cap w →
  mdd_exec m c = Some p ↔ nm_exec w m c = Some p.
Proof.
  intros [Hw Hm] Hl HW HL. pose proof (mexec_two w m c Hm Hl HW) as T.
  destruct c as [l s e|h cs|f|c f g|f g|f g h|roots|]; try (by apply T); cbn [mdd_exec nm_exec].
  - done.
  - by apply mgc_iff.
  - done.
Qed.
Lemma mwithin_same w cs rs m : within w (d_ar m) →
  log32 mdd_legal (nm_exec w) mdd_new cs = Some (rs, m) ↔ log32 mdd_legal mdd_exec mdd_new cs = Some (rs, m).
Proof.
  intros [H1%cap_N H2%cap_N]. eapply (log32_same mlen mhd mdd_legal mdd_exec (nm_exec w) minv w); try done.
  - apply mexec_inv.
  - intros. by eapply nm_exec_grow.
  - intros. by apply mexec_iff.
  - split; [apply mdd_new_ok|apply mnew_fit].
Qed.
