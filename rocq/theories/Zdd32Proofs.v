(** The narrowed ZDD manager against the wide one. *)
From Verif Require Import Prelude Arena ArenaProofs Bdd Zdd SpecZdd ZddProofs ZddMain Bdd32 Bdd32Proofs Bdd32Main SpecLog32 Two32 Zdd32.

Definition zlen (m : zdd) : nat := length (ar_nodes (z_ar m)).
Definition zhd (m : zdd) : nat := length (ar_headers (z_ar m)).
Definition zfit (m : zdd) : Prop :=
  afit (z_ar m) ∧ (∀ k v, z_cache m !! k = Some v → v < zlen m) ∧ 2 < zlen m.
Notation ztwo w := (two2 zlen zhd zfit (cap w) (idok zlen)).
Notation zmo := (mo2 zlen zhd).

Lemma zcreate_fit m h lo hi m1 r : zfit m → h < zhd m → lo < zlen m → hi < zlen m →
  zdd_create_node m h lo hi = (m1, r) → zfit m1 ∧ le zlen zhd m m1 ∧ r < zlen m1.
Proof.
  intros (Ha & Hc & H2) Hh Hlo Hhi. unfold zdd_create_node. destruct (hi =? zdd_zero).
  { intros [= <- <-]. sp; try done. }
  destruct (ar_hashcons (z_ar m) h [lo; hi]) as [a id] eqn:He. intros [= <- <-].
  destruct (afit_hashcons _ _ [lo; hi] _ _ Ha Hh ltac:(repeat constructor; done) He) as (Ha1 & Hd & Hl & Hr).
  unfold zfit, le, zlen, zhd in *. cbn. rewrite Hd. sp; try done; try lia.
  intros k v Hv. specialize (Hc _ _ Hv). lia.
Qed.
Lemma zcreate_mo w m h lo hi : zmo m (Some (nz_create_node w m h lo hi)).
Proof.
  intros m' r [= H]. revert H. unfold nz_create_node. destruct (hi =? zdd_zero); [intros [= <- <-]; apply le_refl|].
  pose proof (n_hashcons_grow w (z_ar m) h [lo; hi]) as [G1 G2].
  destruct (n_hashcons w _ _ _) as [a id]. intros [= <- <-]. unfold le, zlen, zhd. cbn in *. by rewrite G2.
Qed.
Lemma zcreate_two w m h lo hi : zfit m → h < zhd m → lo < zlen m → hi < zlen m → zhd m ≤ cap w →
  ztwo w m (Some (zdd_create_node m h lo hi)) (Some (nz_create_node w m h lo hi)).
Proof.
  intros Hf Hh Hlo Hhi HW. apply two2_guard.
  - intros m' r [= H]. exact (zcreate_fit m h lo hi m' r Hf Hh Hlo Hhi H).
  - apply zcreate_mo.
  - intros Hl p HL. unfold zdd_create_node, nz_create_node. destruct (hi =? zdd_zero); [done|].
    pose proof (hashcons_iff w (z_ar m) h [lo; hi]) as E. destruct Hf as (Ha & _).
    assert (Forall (λ c, c < length (ar_nodes (z_ar m))) [lo; hi]) as Hc by (repeat constructor; done).
    destruct (ar_hashcons _ _ _) as [a1 i1] eqn:E1. destruct (n_hashcons _ _ _ _) as [a2 i2] eqn:E2. cbn in E.
    split; intros [= <-]; cbn in HL; (assert ((a2, i2) = (a1, i1)) as [= -> ->]; [apply E; try done; tauto|done]).
Qed.
Lemma zput_two w m o f g r : zfit m → f < zlen m → g < zlen m → r < zlen m →
  ztwo w m (Some (zdd_cache_put m o f g r, r)) (Some (nz_cache_put w m o f g r, r)).
Proof.
  intros (Ha & Hc & H2) Hf Hg Hr.
  apply (two2_write zlen zhd zfit (cap w) (idok zlen) m (Some (zdd_cache_put m o f g r)) (Some (nz_cache_put w m o f g r)) r).
  - intros m1 [= <-]. unfold zfit. sp; try done. intros k v. cbn. destruct (decide (k = (o, f, g))) as [->|Hne].
    + rewrite lookup_insert. by intros [= <-].
    + rewrite lookup_insert_ne by done. apply Hc.
  - intros HW. unfold nz_cache_put. by rewrite !(nn w _ (zlen m)).
  - by intros m1 [= <-].
Qed.
Lemma zput_mo w m o f g r : zmo m (Some (nz_cache_put w m o f g r, r)).
Proof. intros m' r' [= <- <-]. by split. Qed.
Lemma zget_look w m o f g k k' d d' : zfit m → f < zlen m → g < zlen m →
  (∀ x, x < zlen m → ztwo w m (k x) (k' x)) → ztwo w m d d' → (∀ a, zmo m (k' a)) → zmo m d' →
  ztwo w m (match zdd_cache_get m o f g with Some x => k x | None => d end)
           (match nz_cache_get w m o f g with Some x => k' x | None => d' end).
Proof.
  intros (Ha & Hc & H2) Hf Hg Hk Hd Hm Hm'. apply two2_hit; try done.
  - intros HW. unfold nz_cache_get. by rewrite !(nn w _ (zlen m)).
  - intros x Hx. apply Hk. by eapply Hc.
Qed.
Lemma zfit_edges m f h cs lo hi : zfit m → ar_nodes (z_ar m) !! f = Some (NT h cs) → edges2 cs = Some (lo, hi) →
  h < zhd m ∧ lo < zlen m ∧ hi < zlen m.
Proof.
  intros (Ha & _) H E. destruct Ha as (Ha & _). destruct (Ha _ _ _ H) as [? Hc]. destruct cs as [|a [|b [|]]]; try done. injection E as <- <-.
  inversion_clear Hc. inversion_clear H2. done.
Qed.

Ltac zmomo IH :=
  repeat lazymatch goal with
    | |- mo2 _ _ ?m None => done
    | |- mo2 _ _ ?m (Some (?m, _)) => apply mo2_ret
    | |- mo2 _ _ ?m (Some (nz_create_node _ _ _ _ _)) => apply zcreate_mo
    | |- mo2 _ _ ?m (Some (nz_cache_put _ _ _ _ _ _, _)) => apply zput_mo
    | |- mo2 _ _ ?m (mbind _ ?y) =>
        lazymatch type of y with
        | option (zdd * nat) => apply (mo2_bind zlen zhd m y); [|intros ? ?]
        | _ => apply mo2_obind; intros ?
        end
    | |- mo2 _ _ ?m (match ?x with _ => _ end) => destruct x
    | |- _ => first [apply IH]
    end.
Lemma zinter_mo w n : ∀ m f g, zmo m (nz_intersect_f w n m f g).
Proof. induction n as [|n IH]; intros m f g; [done|]. cbn [nz_intersect_f]. zmomo IH. Qed.
Lemma zunion_mo w n : ∀ m f g, zmo m (nz_union_f w n m f g).
Proof. induction n as [|n IH]; intros m f g; [done|]. cbn [nz_union_f]. zmomo IH. Qed.
Lemma zdiff_mo w n : ∀ m f g, zmo m (nz_setdiff_f w n m f g).
Proof. induction n as [|n IH]; intros m f g; [done|]. cbn [nz_setdiff_f]. zmomo IH. Qed.
Lemma zprod_mo w n : ∀ m f g, zmo m (nz_product_f w n m f g).
Proof. induction n as [|n IH]; intros m f g; [done|]. cbn [nz_product_f]. zmomo IH; apply zunion_mo. Qed.
Lemma zdiv_mo w n : ∀ m f g, zmo m (nz_divide_f w n m f g).
Proof. induction n as [|n IH]; intros m f g; [done|]. cbn [nz_divide_f]. zmomo IH; apply zinter_mo. Qed.

(** one apply: look, compute, store *)
Lemma zstore_two w m o f g (x y : option (zdd * nat)) : f < zlen m → g < zlen m → ztwo w m x y →
  ztwo w m ('(m, result) ← x; Some (zdd_cache_put m o f g result, result))
           ('(m, result) ← y; Some (nz_cache_put w m o f g result, result)).
Proof.
  intros Hf Hg H. apply (two2_bind zlen zhd zfit (cap w) (idok zlen) (idok zlen) m x y); [done| |].
  - intros m1 r F [L1 L2] R. unfold idok in R. apply zput_two; try done; lia.
  - intros. apply zput_mo.
Qed.
Lemma zlook_two w m o f g d d' : zfit m → f < zlen m → g < zlen m → ztwo w m d d' → zmo m d' →
  ztwo w m (match zdd_cache_get m o f g with Some x => Some (m, x) | None => d end)
           (match nz_cache_get w m o f g with Some x => Some (m, x) | None => d' end).
Proof.
  intros Hm Hf Hg H Ho. apply (zget_look w m o f g (λ x, Some (m, x)) (λ x, Some (m, x))); try done.
  - intros z Hz. by apply two2_ret.
  - intros. apply mo2_ret.
Qed.
Ltac zt w IH MO :=
  repeat lazymatch goal with
    | E : edges2 ?cs = Some (?a, ?b), Hn : ar_nodes (z_ar ?m) !! _ = Some (NT ?h ?cs) |- two2 _ _ _ _ _ ?m _ _ =>
        destruct (zfit_edges m _ h cs a b ltac:(assumption) Hn E) as (? & ? & ?); clear E
    | |- two2 _ _ _ _ _ ?m (Some (?m, _)) _ => apply two2_ret; [done|unfold idok, zdd_zero, zdd_one, zdd_undet; lia]
    | |- two2 _ _ _ _ _ ?m (Some (zdd_create_node _ _ _ _)) _ => apply zcreate_two; first [done|lia]
    | |- two2 _ _ _ _ _ ?m (mbind _ ?x) (mbind _ ?y) =>
        lazymatch type of x with
        | option (zdd * nat) =>
            let F := fresh "F" in let L := fresh "L" in let L' := fresh "L'" in let R := fresh "R" in
            apply (two2_bind zlen zhd zfit (cap w) (idok zlen) (idok zlen) m x y);
              [|intros ? ? F [L L'] R; unfold idok in R; cbn beta|intros; MO]
        | _ => apply two2_obind; intros ? ?
        end
    | |- two2 _ _ _ _ _ ?m (match ?x with _ => _ end) _ => destruct x as []
    | |- _ => apply IH; first [done|unfold zdd_one; lia]
    end.
Lemma zinter_two w n : ∀ m f g, zfit m → f < zlen m → g < zlen m → zhd m ≤ cap w →
  ztwo w m (zdd_intersect_f n m f g) (nz_intersect_f w n m f g).
Proof.
  induction n as [|n IH]; intros m f g Hm Hf Hg HW; [apply two2_none|]. cbn [zdd_intersect_f nz_intersect_f].
  pose proof (zinter_mo w n) as MN. assert (2 < zlen m) as H2 by apply Hm. destruct (f =? g); [by apply two2_ret|].
  apply zlook_two; try done; [|zmomo MN].
  apply two2_obind. intros fn Hfn. apply two2_obind. intros gn Hgn. apply zstore_two; try done.
  destruct fn as [[]|hf fc], gn as [[]|hg gc]; zt w IH ltac:(zmomo MN).
Qed.
Lemma zunion_two w n : ∀ m f g, zfit m → f < zlen m → g < zlen m → zhd m ≤ cap w →
  ztwo w m (zdd_union_f n m f g) (nz_union_f w n m f g).
Proof.
  induction n as [|n IH]; intros m f g Hm Hf Hg HW; [apply two2_none|]. cbn [zdd_union_f nz_union_f].
  pose proof (zunion_mo w n) as MN. assert (2 < zlen m) as H2 by apply Hm. destruct (f =? g); [by apply two2_ret|].
  apply zlook_two; try done; [|zmomo MN].
  apply two2_obind. intros fn Hfn. apply two2_obind. intros gn Hgn. apply zstore_two; try done.
  destruct fn as [[]|hf fc], gn as [[]|hg gc]; zt w IH ltac:(zmomo MN).
Qed.
Lemma zdiff_two w n : ∀ m f g, zfit m → f < zlen m → g < zlen m → zhd m ≤ cap w →
  ztwo w m (zdd_setdiff_f n m f g) (nz_setdiff_f w n m f g).
Proof.
  induction n as [|n IH]; intros m f g Hm Hf Hg HW; [apply two2_none|]. cbn [zdd_setdiff_f nz_setdiff_f].
  pose proof (zdiff_mo w n) as MN. assert (2 < zlen m) as H2 by apply Hm. destruct (f =? g).
  { apply two2_ret; [done|]. unfold idok. destruct (f =? zdd_undet); unfold zdd_undet, zdd_zero; lia. }
  apply zlook_two; try done; [|zmomo MN].
  apply two2_obind. intros fn Hfn. apply two2_obind. intros gn Hgn. apply zstore_two; try done.
  destruct fn as [[]|hf fc], gn as [[]|hg gc]; zt w IH ltac:(zmomo MN).
Qed.
Lemma zprod_two w n : ∀ m f g, zfit m → f < zlen m → g < zlen m → zhd m ≤ cap w →
  ztwo w m (zdd_product_f n m f g) (nz_product_f w n m f g).
Proof.
  induction n as [|n IH]; intros m f g Hm Hf Hg HW; [apply two2_none|]. cbn [zdd_product_f nz_product_f].
  pose proof (zprod_mo w n) as MN. assert (2 < zlen m) as H2 by apply Hm.
  apply zlook_two; try done; [|zmomo MN; apply zunion_mo].
  apply two2_obind. intros fn Hfn. apply two2_obind. intros gn Hgn. apply zstore_two; try done.
  destruct fn as [[]|hf fc], gn as [[]|hg gc]; zt w IH ltac:(zmomo MN; apply zunion_mo); apply zunion_two; first [done|lia].
Qed.
Lemma zdiv_two w n : ∀ m f g, zfit m → f < zlen m → g < zlen m → zhd m ≤ cap w →
  ztwo w m (zdd_divide_f n m f g) (nz_divide_f w n m f g).
Proof.
  induction n as [|n IH]; intros m f g Hm Hf Hg HW; [apply two2_none|]. cbn [zdd_divide_f nz_divide_f].
  pose proof (zdiv_mo w n) as MN. assert (2 < zlen m) as H2 by apply Hm.
  apply zlook_two; try done; [|zmomo MN; apply zinter_mo].
  apply two2_obind. intros fn Hfn. apply two2_obind. intros gn Hgn. apply zstore_two; try done.
  destruct fn as [[]|hf fc], gn as [[]|hg gc]; zt w IH ltac:(zmomo MN; apply zinter_mo); apply zinter_two; first [done|lia].
Qed.

(** ** Calls *)
Definition zslots_fit (m : zdd) : Prop := ∀ id h cs, ar_nodes (z_ar m) !! id = Some (NT h cs) →
  h < length (ar_headers (z_ar m)) ∧ Forall (λ c, c < length (ar_nodes (z_ar m))) cs.
Lemma zfit_of m : zwf m → zslots_fit m → zfit m.
Proof.
  intros [Hg Hco] Hs. unfold zfit, afit. sp; try done.
  - intros [h cs] id Hu. apply (aw_ut _ _ (zg_wf _ Hg)) in Hu as [[? _] _]. done.
  - apply (aw_free_lt _ _ (zg_wf _ Hg)).
  - intros k v Hv. destruct (Hco _ _ Hv) as (? & ? & ? & _ & _ & Hr & _). by apply repr_live in Hr as [? _].
  - pose proof (zg_undet _ Hg) as Hu. apply repr_live in Hu as [Hu _]. exact Hu.
Qed.
Lemma zfit_slots m : zfit m → zslots_fit m.
Proof. by intros [[? _] _]. Qed.
Lemma znew_fit : zfit zdd_new.
Proof. apply zfit_of; [apply znew_ok|]. intros [|[|[|id]]] h cs H; cbn in H; [done|done|done|]. by destruct id. Qed.
Lemma zgc_shape m roots m1 k : zdd_gc m roots = Some (m1, k) →
  ar_nodes (z_ar m1) = ar_nodes (z_ar m) ∧ ar_headers (z_ar m1) = ar_headers (z_ar m).
Proof.
  unfold zdd_gc, ar_gc. intros H.
  destruct (ar_mark _ _ _ _) as [lv|]; [|done]. cbn [mbind option_bind] in H.
  destruct (ar_retain _ _) as [ut|]; [|done]. cbn [mbind option_bind] in H.
  case_decide; [|done]. injection H as <- _. done.
Qed.
Notation zgrow := (grow zlen zhd).
Lemma zof_le m m1 : le zlen zhd m m1 → zgrow m m1.
Proof. intros []. split; lia. Qed.
Lemma zop_two w o m f g : zfit m → f < zlen m → g < zlen m → zhd m ≤ cap w → ztwo w m (zdd_op o m f g) (nz_op w o m f g).
Proof. intros. destruct o; [by apply zinter_two|by apply zunion_two|by apply zdiff_two|by apply zprod_two|by apply zdiv_two]. Qed.
Lemma zop_mo w o m f g : zmo m (nz_op w o m f g).
Proof. destruct o; [apply zinter_mo|apply zunion_mo|apply zdiff_mo|apply zprod_mo|apply zdiv_mo]. Qed.
Lemma nz_exec_grow w m c m1 r : nz_exec w m c = Some (m1, r) → zgrow m m1.
Proof.
  destruct c as [l s|h lo hi|o f g|roots|]; cbn [nz_exec]; intros H.
  - injection H as <- _. unfold grow, zlen, zhd. cbn. rewrite app_length. cbn. lia.
  - apply zof_le. by eapply zcreate_mo.
  - apply zof_le. by eapply zop_mo.
  - unfold nz_gc in H. destruct (zdd_gc m roots) as [[m2 k]|] eqn:E; [|done]. cbn in H. injection H as <- _.
    apply zgc_shape in E as [E1 E2]. unfold grow, zlen, zhd. cbn. rewrite E1, E2. done.
  - injection H as <- _. done.
Qed.
Definition zinv (m : zdd) : Prop := zwf m ∧ zfit m.
Lemma zgc_iff w m roots p : zinv m → zdd_legal m (ZGc roots) → zlen p.1 ≤ cap w →
  zdd_gc m roots = Some p ↔ nz_gc w m roots = Some p.
Proof.
  intros [Hw Hm] Hl HL. destruct (zexec_ok m (ZGc roots) Hw Hl) as (m1 & k & E & Hw1 & _). cbn [zdd_exec] in E.
  pose proof (zgc_shape _ _ _ _ E) as [E1 E2]. unfold nz_gc. rewrite E. cbn [mbind option_bind].
  assert (zlen m1 ≤ cap w → zwith_ar m1 (n_free w (z_ar m1)) = m1) as Hn.
  { intros Hc. destruct m1 as [[hs ns ut fr] c]. unfold zwith_ar, n_free. cbn. f_equal. f_equal. apply narrow_map.
    apply Forall_forall. intros id Hid. pose proof (aw_free_lt _ _ (zg_wf _ (zw_good _ Hw1)) id Hid). unfold zlen, cap in *. cbn in *. lia. }
  split; intros [= <-]; cbn in HL; f_equal; f_equal; [by apply Hn|symmetry; by apply Hn].
Qed.
Lemma zexec_inv m c m1 r : zinv m → zdd_legal m c → zdd_exec m c = Some (m1, r) → zinv m1 ∧ zgrow m m1.
Proof.
  intros [Hw Hm] Hl He. destruct (zexec_ok m c Hw Hl) as (m1' & r' & He' & Hw' & _). rewrite He in He'. injection He' as <- <-.
  set (w := N.of_nat (zhd m)).
  assert (zhd m ≤ cap w) as HW. { unfold cap, w. rewrite Nat2N.id. pose proof (Nat.pow_gt_lin_r 2 (zhd m)). lia. }
  assert (∀ y, ztwo w m (zdd_exec m c) y → zinv m1 ∧ zgrow m m1) as Hgen.
  { intros y [Tf _]. destruct (Tf _ _ He) as (F & L & _). split; [done|by apply zof_le]. }
  destruct c as [l s|h lo hi|o f g|roots|]; cbn [zdd_exec] in *.
  - assert (m1 = (zdd_create_header m l s).1) as Em by (injection He as E0 _; by rewrite <- E0).
    assert (zgrow m m1) as G. { rewrite Em. unfold grow, zlen, zhd. cbn. rewrite app_length. cbn. lia. }
    split; [|done]. split; [done|]. apply zfit_of; [done|]. intros id h cs Hid.
    assert (ar_nodes (z_ar m1) = ar_nodes (z_ar m)) as En by (by rewrite Em). rewrite En in *.
    destruct (zfit_slots m Hm _ _ _ Hid) as [Hh Hc]. split; [|done]. destruct G as [_ G]. unfold zhd in G. lia.
  - eapply Hgen. cbn in Hl. destruct (ar_headers (z_ar m) !! h) as [hd|] eqn:Hh; [|done]. destruct Hl as [[[Vl _] _] [[Vh _] _]].
    apply zcreate_two; try done. by eapply lookup_lt_Some.
  - eapply Hgen. destruct Hl as [[V _] [V2 _]]. by apply zop_two.
  - pose proof (zgc_shape _ _ _ _ He) as [E1 E2]. split; [|unfold grow, zlen, zhd; by rewrite E1, E2].
    split; [done|]. apply zfit_of; [done|]. intros id h cs. rewrite E1, E2. apply zfit_slots; done.
  - injection He as <- <-. split; [|done]. split; [done|]. apply zfit_of; [done|]. exact (zfit_slots m Hm).
Qed.
Lemma zexec_iff w m c p : zinv m → zdd_legal m c → zhd m ≤ cap w → zlen p.1 ≤ cap w →
  zdd_exec m c = Some p ↔ nz_exec w m c = Some p.
Proof.
  intros [Hw Hm] Hl HW HL. destruct c as [l s|h lo hi|o f g|roots|]; cbn [zdd_exec nz_exec].
  - done.
  - cbn in Hl. destruct (ar_headers (z_ar m) !! h) as [hd|] eqn:Hh; [|done]. destruct Hl as [[[Vl _] _] [[Vh _] _]].
    apply (zcreate_two w m h lo hi); try done. by eapply lookup_lt_Some.
  - destruct Hl as [[V _] [V2 _]]. by apply (zop_two w o m f g).
  - by apply zgc_iff.
  - done.
Qed.
Lemma zwithin_same w cs rs m : within w (z_ar m) →
  log32 zdd_legal (nz_exec w) zdd_new cs = Some (rs, m) ↔ log32 zdd_legal zdd_exec zdd_new cs = Some (rs, m).
Proof.
  intros [H1%cap_N H2%cap_N]. eapply (log32_same zlen zhd zdd_legal zdd_exec (nz_exec w) zinv w); try done.
  - apply zexec_inv.
  - intros. by eapply nz_exec_grow.
  - intros. by apply zexec_iff.
  - split; [apply znew_ok|apply znew_fit].
Qed.
