(** The narrowed combined manager against the wide one. *)
From Verif Require Import Prelude ComputeCache ComputeCacheProofs Arena ArenaProofs Bdd Mdd MtMdd MtMdd2 SpecMdd NaryProofs MddProofs MtProofs MmProofs MddMain MmMain
  Bdd32 Bdd32Proofs Bdd32Main SpecLog32 Two32 Two32M Mdd32 Mdd32Proofs Mt32 Mt32Proofs Mm32.

Definition xlen (m : mm) : nat := mlen (mm_b m) `max` tlen (mm_v m).
Definition xle (m m1 : mm) : Prop := le mlen mhd (mm_b m) (mm_b m1) ∧ le tlen thd (mm_v m) (mm_v m1).
Definition xfit (m : mm) : Prop :=
  mfit (mm_b m) ∧ tfit (mm_v m) ∧ thd (mm_v m) = mhd (mm_b m) ∧
  cfit (mm_bc m) (mlen (mm_b m)) ∧ cfit (mm_vc m) (tlen (mm_v m)) ∧ cfit (mm_vite m) (tlen (mm_v m)).
Lemma xle_refl m : xle m m.
Proof. split; apply le_refl. Qed.
Lemma xle_trans a b c : xle a b → xle b c → xle a c.
Proof. intros [? ?] [? ?]. split; by eapply le_trans. Qed.
Lemma xle_len a b : xle a b → xlen a ≤ xlen b.
Proof. intros [[? _] [? _]]. unfold xlen. lia. Qed.
Notation xtwo w := (two3 xlen xle xfit (cap w)).
Notation xmo := (mo3 xle).
Definition Pb (m : mm) (r : nat) : Prop := r < mlen (mm_b m).
Definition Pv (m : mm) (r : nat) : Prop := r < tlen (mm_v m).
Definition Pn (m : mm) (x : mnode) : Prop := match x with NVal r => Pv m r | NBool r => Pb m r end.
Lemma Pb_mono a b r : xle a b → Pb a r → Pb b r.
Proof. intros [[? _] _]. unfold Pb. lia. Qed.
Lemma Pv_mono a b r : xle a b → Pv a r → Pv b r.
Proof. intros [_ [? _]]. unfold Pv. lia. Qed.

Section w.
Context (w : N).
Lemma x_ret {B} (P : mm → B → Prop) m r : xfit m → P m r → xtwo w P m (Some (m, r)) (Some (m, r)).
Proof using. apply two3_ret, xle_refl. Qed.
Lemma x_bind {A B} (P : mm → A → Prop) (Q : mm → B → Prop) m x y k k' : xtwo w P m x y →
  (∀ m1 r1, xfit m1 → xle m m1 → P m1 r1 → xtwo w Q m1 (k m1 r1) (k' m1 r1)) → (∀ m1 r1, xmo m1 (k' m1 r1)) →
  xtwo w Q m ('(m, r) ← x; k m r) ('(m, r) ← y; k' m r).
Proof using. apply two3_bind; [apply xle_trans|apply xle_len]. Qed.
Lemma xm_ret {B} m (r : B) : xmo m (Some (m, r)).
Proof using. apply mo3_ret, xle_refl. Qed.
Lemma xm_bind {A B} m (y : option (mm * A)) (k : mm → A → option (mm * B)) :
  xmo m y → (∀ m1 r1, xmo m1 (k m1 r1)) → xmo m ('(m, r) ← y; k m r).
Proof using. apply mo3_bind, xle_trans. Qed.
Lemma xm_mapst {A B} (F : mm → A → option (mm * B)) l : (∀ m a, xmo m (F m a)) → ∀ m, xmo m (mapst F m l).
Proof using. apply mo3_mapst; [apply xle_refl|apply xle_trans]. Qed.

(** ** A step of one forest is a step of the pair *)
Lemma lift_b {B} (P : mm → B → Prop) (k : nat → B) m x y : xfit m → (∀ b r, r < mlen b → P (mm_with_b m b) (k r)) →
  mtwo w (mm_b m) x y →
  xtwo w P m ('(b, r) ← x; Some (mm_with_b m b, k r)) ('(b, r) ← y; Some (mm_with_b m b, k r)).
Proof using.
  intros (Hb & Hv & Hh & Hbc & Hvc & Hvi) HP [Tf Ti]. split.
  - intros m' r H. destruct x as [[b x]|]; [|done]. injection H as <- <-. destruct (Tf _ _ eq_refl) as (F & [L1 L2] & R).
    unfold xfit, xle, le in *. cbn. rewrite L2. sp; try done.
    + eapply cfit_mono; [|exact Hbc]. done.
    + by apply HP.
  - intros p HL. split; intros H.
    + destruct x as [[b r]|]; [|done]. injection H as <-. unfold xlen in HL. cbn in HL.
      by rewrite (proj1 (Ti (b, r) ltac:(cbn; lia)) eq_refl).
    + destruct y as [[b r]|]; [|done]. injection H as <-. unfold xlen in HL. cbn in HL.
      by rewrite (proj2 (Ti (b, r) ltac:(cbn; lia)) eq_refl).
Qed.
Lemma lift_v {B} (P : mm → B → Prop) (k : nat → B) m x y : xfit m → (∀ v r, r < tlen v → P (mm_with_v m v) (k r)) →
  ttwo w (mm_v m) x y →
  xtwo w P m ('(v, r) ← x; Some (mm_with_v m v, k r)) ('(v, r) ← y; Some (mm_with_v m v, k r)).
Proof using.
  intros (Hb & Hv & Hh & Hbc & Hvc & Hvi) HP [Tf Ti]. split.
  - intros m' r H. destruct x as [[v x]|]; [|done]. injection H as <- <-. destruct (Tf _ _ eq_refl) as (F & [L1 L2] & R).
    unfold xfit, xle, le in *. cbn. rewrite L2. sp; try done.
    + eapply cfit_mono; [|exact Hvc]. done.
    + eapply cfit_mono; [|exact Hvi]. done.
    + by apply HP.
  - intros p HL. split; intros H.
    + destruct x as [[v r]|]; [|done]. injection H as <-. unfold xlen in HL. cbn in HL.
      by rewrite (proj1 (Ti (v, r) ltac:(cbn; lia)) eq_refl).
    + destruct y as [[v r]|]; [|done]. injection H as <-. unfold xlen in HL. cbn in HL.
      by rewrite (proj2 (Ti (v, r) ltac:(cbn; lia)) eq_refl).
Qed.
Lemma liftm_b {B} (k : nat → B) m y : mmo (mm_b m) y → xmo m ('(b, r) ← y; Some (mm_with_b m b, k r)).
Proof using. intros H m' r E. destruct y as [[b x]|]; [|done]. injection E as <- <-. split; [by eapply H|apply le_refl]. Qed.
Lemma liftm_v {B} (k : nat → B) m y : tmo (mm_v m) y → xmo m ('(v, r) ← y; Some (mm_with_v m v, k r)).
Proof using. intros H m' r E. destruct y as [[b x]|]; [|done]. injection E as <- <-. split; [apply le_refl|by eapply H]. Qed.

Lemma bnode_two m h cs : xfit m → h < mhd (mm_b m) → Forall (Pb m) cs → mhd (mm_b m) ≤ cap w →
  xtwo w Pb m (let '(b, x) := mdd_create_node (mm_b m) h cs in Some (mm_with_b m b, x))
              (let '(b, x) := nm_create_node w (mm_b m) h cs in Some (mm_with_b m b, x)).
Proof using.
  intros Hm Hh Hc HW. apply (lift_b Pb (λ r, r) m (Some (mdd_create_node (mm_b m) h cs)) (Some (nm_create_node w (mm_b m) h cs))); [done|done|].
  apply mcreate_two; try done. apply Hm.
Qed.
Lemma bnode_mo m h cs : xmo m (let '(b, x) := nm_create_node w (mm_b m) h cs in Some (mm_with_b m b, x)).
Proof using. apply (liftm_b (λ r, r) m (Some (nm_create_node w (mm_b m) h cs))). apply mcreate_mo. Qed.
Lemma vnode_two m h cs : xfit m → h < thd (mm_v m) → Forall (Pv m) cs → thd (mm_v m) ≤ cap w →
  xtwo w Pv m (let '(v, x) := mt_create_node (mm_v m) h cs in Some (mm_with_v m v, x))
              (let '(v, x) := nt_create_node w (mm_v m) h cs in Some (mm_with_v m v, x)).
Proof using.
  intros Hm Hh Hc HW. apply (lift_v Pv (λ r, r) m (Some (mt_create_node (mm_v m) h cs)) (Some (nt_create_node w (mm_v m) h cs))); [done|done|].
  apply tcreate_two; try done. apply Hm.
Qed.
Lemma vnode_mo m h cs : xmo m (let '(v, x) := nt_create_node w (mm_v m) h cs in Some (mm_with_v m v, x)).
Proof using. apply (liftm_v (λ r, r) m (Some (nt_create_node w (mm_v m) h cs))). apply tcreate_mo. Qed.

(** ** The three memo tables *)
Ltac put Hm E c Hc := unfold xfit, xle; cbn; sp; try done; try apply le_refl; eapply cfit_put; [exact Hc| |exact E]; rewrite Nat2N.id; done.
Lemma bcput_two m o f g r : xfit m → Pv m f → Pv m g → Pb m r →
  xtwo w Pb m (m ← mm_bc_put m o f g r; Some (m, r)) (m ← nmm_bc_put w m o f g r; Some (m, r)).
Proof using.
  intros (Hb & Hv & Hh & Hbc & Hvc & Hvi) Hf Hg Hr. apply two3_write; [apply xle_len| | |].
  - unfold mm_bc_put. intros m1 H. destruct (cc_put _ _ _ _ _) as [c|] eqn:E; [|done]. injection H as <-. put Hm E c Hbc.
  - unfold xlen, Pv, Pb in *. intros HW. unfold nmm_bc_put. by rewrite !(nn w _ (xlen m)) by (unfold xlen; lia).
  - unfold nmm_bc_put, mm_bc_put. intros m1 H. destruct (cc_put _ _ _ _ _) as [c|]; [|done]. injection H as <-. split; apply le_refl.
Qed.
Lemma vcput_two m f g r : xfit m → Pb m f → Pv m g → Pv m r →
  xtwo w Pv m (m ← mm_vc_put m f g r; Some (m, r)) (m ← nmm_vc_put w m f g r; Some (m, r)).
Proof using.
  intros (Hb & Hv & Hh & Hbc & Hvc & Hvi) Hf Hg Hr. apply two3_write; [apply xle_len| | |].
  - unfold mm_vc_put. intros m1 H. destruct (cc_put _ _ _ _ _) as [c|] eqn:E; [|done]. injection H as <-. put Hm E c Hvc.
  - unfold xlen, Pv, Pb in *. intros HW. unfold nmm_vc_put. by rewrite !(nn w _ (xlen m)) by (unfold xlen; lia).
  - unfold nmm_vc_put, mm_vc_put. intros m1 H. destruct (cc_put _ _ _ _ _) as [c|]; [|done]. injection H as <-. split; apply le_refl.
Qed.
Lemma viput_two m f g h r : xfit m → Pb m f → Pv m g → Pv m h → Pv m r →
  xtwo w Pv m (m ← mm_vite_put m f g h r; Some (m, r)) (m ← nmm_vite_put w m f g h r; Some (m, r)).
Proof using.
  intros (Hb & Hv & Hh & Hbc & Hvc & Hvi) Hf Hg Hg2 Hr. apply two3_write; [apply xle_len| | |].
  - unfold mm_vite_put. intros m1 H. destruct (cc_put _ _ _ _ _) as [c|] eqn:E; [|done]. injection H as <-. put Hm E c Hvi.
  - unfold xlen, Pv, Pb in *. intros HW. unfold nmm_vite_put. by rewrite !(nn w _ (xlen m)) by (unfold xlen; lia).
  - unfold nmm_vite_put, mm_vite_put. intros m1 H. destruct (cc_put _ _ _ _ _) as [c|]; [|done]. injection H as <-. split; apply le_refl.
Qed.
Lemma bcput_mo m o f g r : xmo m (m ← nmm_bc_put w m o f g r; Some (m, r)).
Proof using. intros m' r' H. unfold nmm_bc_put, mm_bc_put in H. destruct (cc_put _ _ _ _ _); [|done]. cbn in H. injection H as <- <-. split; apply le_refl. Qed.
Lemma vcput_mo m f g r : xmo m (m ← nmm_vc_put w m f g r; Some (m, r)).
Proof using. intros m' r' H. unfold nmm_vc_put, mm_vc_put in H. destruct (cc_put _ _ _ _ _); [|done]. cbn in H. injection H as <- <-. split; apply le_refl. Qed.
Lemma viput_mo m f g h r : xmo m (m ← nmm_vite_put w m f g h r; Some (m, r)).
Proof using. intros m' r' H. unfold nmm_vite_put, mm_vite_put in H. destruct (cc_put _ _ _ _ _); [|done]. cbn in H. injection H as <- <-. split; apply le_refl. Qed.
Lemma bcget_two m o f g d d' : xfit m → Pv m f → Pv m g → xtwo w Pb m d d' → xmo m d' →
  xtwo w Pb m (hit ← mm_bc_get m o f g; match hit with Some x => Some (m, x) | None => d end)
              (hit ← nmm_bc_get w m o f g; match hit with Some x => Some (m, x) | None => d' end).
Proof using.
  intros Hm Hf Hg H Ho. apply two3_look; [apply xle_len| | |].
  - unfold Pv in *. intros HW. unfold nmm_bc_get. by rewrite !(nn w _ (xlen m)) by (unfold xlen in *; lia).
  - intros [x|] E; [|done]. apply x_ret; [done|]. destruct Hm as (_ & _ & _ & Hc & _). unfold mm_bc_get in E.
    destruct (cc_get _ _ _ _) as [[v|]|] eqn:E2; cbn in E; try done. injection E as <-. by eapply cfit_get.
  - intros [x|]; [apply xm_ret|done].
Qed.
Lemma vcget_two m f g d d' : xfit m → Pb m f → Pv m g → xtwo w Pv m d d' → xmo m d' →
  xtwo w Pv m (hit ← mm_vc_get m f g; match hit with Some x => Some (m, x) | None => d end)
              (hit ← nmm_vc_get w m f g; match hit with Some x => Some (m, x) | None => d' end).
Proof using.
  intros Hm Hf Hg H Ho. apply two3_look; [apply xle_len| | |].
  - unfold Pv, Pb in *. intros HW. unfold nmm_vc_get. by rewrite !(nn w _ (xlen m)) by (unfold xlen in *; lia).
  - intros [x|] E; [|done]. apply x_ret; [done|]. destruct Hm as (_ & _ & _ & _ & Hc & _). unfold mm_vc_get in E.
    destruct (cc_get _ _ _ _) as [[v|]|] eqn:E2; cbn in E; try done. injection E as <-. by eapply cfit_get.
  - intros [x|]; [apply xm_ret|done].
Qed.
Lemma viget_two m f g h d d' : xfit m → Pb m f → Pv m g → Pv m h → xtwo w Pv m d d' → xmo m d' →
  xtwo w Pv m (hit ← mm_vite_get m f g h; match hit with Some x => Some (m, x) | None => d end)
              (hit ← nmm_vite_get w m f g h; match hit with Some x => Some (m, x) | None => d' end).
Proof using.
  intros Hm Hf Hg Hh H Ho. apply two3_look; [apply xle_len| | |].
  - unfold Pv, Pb in *. intros HW. unfold nmm_vite_get. by rewrite !(nn w _ (xlen m)) by (unfold xlen in *; lia).
  - intros [x|] E; [|done]. apply x_ret; [done|]. destruct Hm as (_ & _ & _ & _ & _ & Hc). unfold mm_vite_get in E.
    destruct (cc_get _ _ _ _) as [[v|]|] eqn:E2; cbn in E; try done. injection E as <-. by eapply cfit_get.
  - intros [x|]; [apply xm_ret|done].
Qed.

(** ** The cross-forest operations *)
Ltac xmomo IH :=
  repeat lazymatch goal with
    | |- mo3 _ ?m None => done
    | |- mo3 _ ?m (Some (?m, _)) => apply xm_ret
    | |- mo3 _ ?m (match nm_create_node _ (mm_b ?m) _ _ with _ => _ end) => apply bnode_mo
    | |- mo3 _ ?m (match nt_create_node _ (mm_v ?m) _ _ with (v, x) => Some (mm_with_v ?m v, x) end) => apply vnode_mo
    | |- mo3 _ ?m (mbind _ (nmm_bc_put _ ?m _ _ _ _)) => apply bcput_mo
    | |- mo3 _ ?m (mbind _ (nmm_vc_put _ ?m _ _ _)) => apply vcput_mo
    | |- mo3 _ ?m (mbind _ (nmm_vite_put _ ?m _ _ _ _)) => apply viput_mo
    | |- mo3 _ ?m (mbind _ (mapst ?F ?m ?l)) => apply (xm_bind m (mapst F m l)); [apply xm_mapst; intros ? ?|intros ? ?]
    | |- mo3 _ ?m (mbind _ ?y) =>
        lazymatch type of y with
        | option (mm * nat) => apply (xm_bind m y); [|intros ? ?]
        | _ => apply mo3_obind; intros ?
        end
    | |- mo3 _ ?m (match ?x with _ => _ end) => destruct x
    | |- _ => first [apply IH]
    end.
Lemma vstore_mo m f g h hid ns :
  xmo m (let '(v, r) := nt_create_node w (mm_v m) hid ns in m ← nmm_vite_put w (mm_with_v m v) f g h r; Some (m, r)).
Proof using.
  pose proof (xm_bind m (let '(v, x) := nt_create_node w (mm_v m) hid ns in Some (mm_with_v m v, x))
    (λ m r, m ← nmm_vite_put w m f g h r; Some (m, r)) (vnode_mo m hid ns)) as T.
  destruct (nt_create_node w (mm_v m) hid ns). apply T. intros. apply viput_mo.
Qed.
Lemma cmp_mo o n : ∀ m f g, xmo m (nmm_cmp_f w o n m f g).
Proof using. induction n as [|n IH]; intros m f g; [done|]. cbn [nmm_cmp_f]. xmomo IH. Qed.
Lemma vif_mo n : ∀ m f g, xmo m (nmm_vif_f w n m f g).
Proof using. induction n as [|n IH]; intros m f g; [done|]. cbn [nmm_vif_f]. xmomo IH. Qed.
Lemma vite_mo n : ∀ m f g h, xmo m (nmm_vite_f w n m f g h).
Proof using.
  induction n as [|n IH]; intros m f g h; [done|]. cbn [nmm_vite_f].
  apply mo3_obind. intros [[]|hf fc]; try apply xm_ret. destruct (g =? h); [apply xm_ret|].
  apply mo3_obind. intros [x|]; [apply xm_ret|]. do 3 (apply mo3_obind; intros ?). apply mo3_obind. intros [hid k].
  do 4 (apply mo3_obind; intros ?). apply (xm_bind m (mapst (λ m t, nmm_vite_f w n m t.1.1 t.1.2 t.2) m _)).
  - apply xm_mapst. intros. apply IH.
  - intros. apply vstore_mo.
Qed.

Lemma bn m f h cs : xfit m → ar_nodes (d_ar (mm_b m)) !! f = Some (NT h cs) → h < mhd (mm_b m) ∧ Forall (Pb m) cs.
Proof using. intros Hm E. exact (nt_fit _ (proj1 (proj1 Hm)) _ _ _ E). Qed.
Lemma vn m f h cs : xfit m → ar_nodes (t_ar (mm_v m)) !! f = Some (NT h cs) → h < thd (mm_v m) ∧ Forall (Pv m) cs.
Proof using. intros Hm E. exact (nt_fit _ (proj1 (proj1 (proj2 Hm))) _ _ _ E). Qed.
Lemma cmp_two o n : ∀ m f g, xfit m → Pv m f → Pv m g → mhd (mm_b m) ≤ cap w →
  xtwo w Pb m (mm_cmp_f o n m f g) (nmm_cmp_f w o n m f g).
Proof using.
  induction n as [|n IH]; intros m f g Hm Hf Hg HW; [apply two3_none|]. pose proof (cmp_mo o n) as MN. cbn [mm_cmp_f nmm_cmp_f].
  assert (2 < mlen (mm_b m)) as H2 by apply Hm. assert (thd (mm_v m) = mhd (mm_b m)) as Hh by apply Hm.
  apply bcget_two; [done|done|done| |xmomo MN].
  apply two3_obind. intros fn Hfn. apply two3_obind. intros gn Hgn.
  apply (x_bind Pb Pb).
  - destruct (cop_arm o fn gn) as [x|] eqn:Ea.
    + apply x_ret; [done|]. unfold Pb, cop_arm, mdd_zero, mdd_one in *. destruct fn as [[]|], gn as [[]|]; repeat case_match; simplify_eq; try done; lia.
    + apply two3_obind. intros [h ps] He.
      apply (expand_fit _ _ _ _ _ _ _ _ _ (tlen (mm_v m)) (tlen (mm_v m))) in He as [Hh1 Hps]; try done.
      2: { intros h' cs ->. by eapply (vn m). } 2: { intros h' cs ->. by eapply (vn m). }
      apply (x_bind (λ m rs, Forall (Pb m) rs) Pb m (mapst (λ m p, mm_cmp_f o n m p.1 p.2) m ps) (mapst (λ m p, nmm_cmp_f w o n m p.1 p.2) m ps)).
      * apply two3_mapst; [apply xle_refl|apply xle_trans|apply xle_len|apply Pb_mono|done| |intros; apply MN].
        intros m1 p Hin F1 L1. rewrite Forall_forall in Hps. destruct (Hps _ Hin).
        apply IH; [done|by eapply Pv_mono|by eapply Pv_mono|]. destruct L1 as [[_ L1] _]. lia.
      * intros m1 ns F1 [[L1 E1] [L2 E2]] R1. apply bnode_two; try done; [|lia]. unfold mhd, thd in *. lia.
      * intros. apply bnode_mo.
  - intros m1 r F1 L1 R1. apply bcput_two; [done|by eapply Pv_mono|by eapply Pv_mono|done].
  - intros. apply bcput_mo.
Qed.
Lemma vif_two n : ∀ m f g, xfit m → Pb m f → Pv m g → mhd (mm_b m) ≤ cap w →
  xtwo w Pv m (mm_vif_f n m f g) (nmm_vif_f w n m f g).
Proof using.
  induction n as [|n IH]; intros m f g Hm Hf Hg HW; [apply two3_none|]. pose proof (vif_mo n) as MN. cbn [mm_vif_f nmm_vif_f].
  assert (0 < tlen (mm_v m)) as H2 by apply Hm. assert (thd (mm_v m) = mhd (mm_b m)) as Hh by apply Hm.
  apply vcget_two; [done|done|done| |xmomo MN].
  apply two3_obind. intros fn Hfn. apply two3_obind. intros gn Hgn.
  apply (x_bind Pv Pv).
  - destruct (vif_arm g fn gn) as [x|] eqn:Ea.
    + apply x_ret; [done|]. unfold Pv, vif_arm, mt_undet in *. destruct fn as [[]|], gn as [[]|]; repeat case_match; simplify_eq; done.
    + apply two3_obind. intros [h ps] He.
      apply (expand_fit _ _ _ _ _ _ _ _ _ (mlen (mm_b m)) (tlen (mm_v m))) in He as [Hh1 Hps]; try done.
      2: { intros h' cs ->. by eapply (bn m). } 2: { intros h' cs ->. by eapply (vn m). }
      apply (x_bind (λ m rs, Forall (Pv m) rs) Pv m (mapst (λ m p, mm_vif_f n m p.1 p.2) m ps) (mapst (λ m p, nmm_vif_f w n m p.1 p.2) m ps)).
      * apply two3_mapst; [apply xle_refl|apply xle_trans|apply xle_len|apply Pv_mono|done| |intros; apply MN].
        intros m1 p Hin F1 L1. rewrite Forall_forall in Hps. destruct (Hps _ Hin).
        apply IH; [done|by eapply Pb_mono|by eapply Pv_mono|]. destruct L1 as [[_ L1] _]. lia.
      * intros m1 ns F1 [[L1 E1] [L2 E2]] R1. apply vnode_two; try done; unfold mhd, thd in *; lia.
      * intros. apply vnode_mo.
  - intros m1 r F1 L1 R1. apply vcput_two; [done|by eapply Pb_mono|by eapply Pv_mono|done].
  - intros. apply vcput_mo.
Qed.
Lemma top_fit m f g h top hid k : xfit m → vite_top_header m f g h top = Some (hid, k) → hid < thd (mm_v m).
Proof using.
  intros Hm. pose proof (ttop_fit _ (proj1 (proj1 (proj2 Hm))) [g; h] top hid k) as T. unfold vite_top_header.
  destruct (ar_node_level _ f); [|done]. cbn [mbind option_bind]. case_decide; [|done].
  destruct (ar_nodes (d_ar (mm_b m)) !! f) as [[t|h' cs]|] eqn:E; cbn [mbind option_bind]; [done| |done].
  intros [= <- <-]. destruct (bn m _ _ _ Hm E) as [? _]. destruct Hm as (_ & _ & -> & _). done.
Qed.
Lemma triples_fit2 m k fc gc hc ts : Forall (Pb m) fc → Forall (Pv m) gc → Forall (Pv m) hc →
  ite_triples k fc gc hc = Some ts → Forall (λ t, Pb m t.1.1 ∧ Pv m t.1.2 ∧ Pv m t.2) ts.
Proof using.
  intros Hf Hg Hh. unfold ite_triples. intros E. apply mapM_Some in E. apply Forall_lookup. intros i t Ht.
  destruct (Forall2_lookup_r _ _ _ _ _ E Ht) as (j & _ & Hj).
  destruct (fc !! j) eqn:E1; [|done]. destruct (gc !! j) eqn:E2; [|done]. destruct (hc !! j) eqn:E3; [|done].
  cbn in Hj. injection Hj as <-. rewrite Forall_lookup in Hf, Hg, Hh. cbn.
  sp; [by eapply Hf|by eapply Hg|by eapply Hh].
Qed.
Lemma vite_two n : ∀ m f g h, xfit m → Pb m f → Pv m g → Pv m h → mhd (mm_b m) ≤ cap w →
  xtwo w Pv m (mm_vite_f n m f g h) (nmm_vite_f w n m f g h).
Proof using.
  induction n as [|n IH]; intros m f g h Hm Hf Hg Hh HW; [apply two3_none|]. pose proof (vite_mo n) as MN. cbn [mm_vite_f nmm_vite_f].
  assert (0 < tlen (mm_v m)) as H2 by apply Hm. assert (thd (mm_v m) = mhd (mm_b m)) as Hhd by apply Hm.
  apply two3_obind. intros fn Hfn. destruct fn as [[]|hf fc0]; try (by apply x_ret).
  destruct (g =? h); [by apply x_ret|]. apply viget_two; [done|done|done|done| |].
  2: { do 3 (apply mo3_obind; intros ?). apply mo3_obind. intros [hid k].
    do 4 (apply mo3_obind; intros ?). apply (xm_bind m (mapst (λ m t, nmm_vite_f w n m t.1.1 t.1.2 t.2) m _)).
    - apply xm_mapst. intros. apply MN.
    - intros. apply vstore_mo. }
  apply two3_obind. intros top0 _. apply two3_obind. intros top1 _. apply two3_obind. intros top _.
  apply two3_obind. intros [hid k] Eh. apply top_fit in Eh; [|done].
  apply two3_obind. intros fc Ef. apply (cofs_fit _ (proj1 (proj1 Hm))) in Ef; [|done].
  apply two3_obind. intros gc Eg. apply (cofs_fit _ (proj1 (proj1 (proj2 Hm)))) in Eg; [|done].
  apply two3_obind. intros hc Ec. apply (cofs_fit _ (proj1 (proj1 (proj2 Hm)))) in Ec; [|done].
  apply two3_obind. intros ts Et. apply (triples_fit2 m) in Et; try done.
  apply (x_bind (λ m rs, Forall (Pv m) rs) Pv m (mapst (λ m t, mm_vite_f n m t.1.1 t.1.2 t.2) m ts) (mapst (λ m t, nmm_vite_f w n m t.1.1 t.1.2 t.2) m ts)).
  { apply two3_mapst; [apply xle_refl|apply xle_trans|apply xle_len|apply Pv_mono|done| |intros; apply MN].
    intros m1 t Hin F1 L1. rewrite Forall_forall in Et. destruct (Et _ Hin) as (? & ? & ?).
    apply IH; [done|by eapply Pb_mono|by eapply Pv_mono|by eapply Pv_mono|]. destruct L1 as [[_ L1] _]. lia. }
  2: { intros. apply vstore_mo. }
  intros m1 ns F1 L1 R1. cbn beta.
  assert (hid < thd (mm_v m1)) as Hid by (destruct L1 as [_ [_ L1]]; lia).
  assert (thd (mm_v m1) ≤ cap w) as HW1 by (destruct L1 as [_ [_ L1]]; lia).
  pose proof (x_bind Pv Pv m1 _ _ (λ m r, m ← mm_vite_put m f g h r; Some (m, r)) (λ m r, m ← nmm_vite_put w m f g h r; Some (m, r))
    (vnode_two m1 hid ns F1 Hid R1 HW1)) as T.
  destruct (mt_create_node (mm_v m1) hid ns), (nt_create_node w (mm_v m1) hid ns). apply T; clear T.
  - intros m9 r F2 L2 R2. assert (xle m m9) as L by (by eapply xle_trans).
    apply viput_two; [done|by eapply Pb_mono|by eapply Pv_mono|by eapply Pv_mono|done].
  - intros. apply viput_mo.
Qed.

(** ** The tagged operations *)
Local Notation xtn := (xtwo w Pn).
Lemma asb_two m x y : xtwo w Pb m x y → xtn m (as_bool x) (as_bool y).
Proof using.
  intros H. apply (x_bind Pb Pn m x y (λ m x, Some (m, NBool x)) (λ m x, Some (m, NBool x))); [done| |intros; apply xm_ret].
  intros. by apply x_ret.
Qed.
Lemma asv_two m x y : xtwo w Pv m x y → xtn m (as_val x) (as_val y).
Proof using.
  intros H. apply (x_bind Pv Pn m x y (λ m x, Some (m, NVal x)) (λ m x, Some (m, NVal x))); [done| |intros; apply xm_ret].
  intros. by apply x_ret.
Qed.
Lemma asb_mo m y : xmo m y → xmo m (as_bool y).
Proof using. intros H. apply (xm_bind m y (λ m x, Some (m, NBool x)) H). intros. apply xm_ret. Qed.
Lemma asv_mo m y : xmo m y → xmo m (as_val y).
Proof using. intros H. apply (xm_bind m y (λ m x, Some (m, NVal x)) H). intros. apply xm_ret. Qed.
Lemma onb_two m x y : xfit m → mtwo w (mm_b m) x y → xtn m (on_b m x) (on_b m y).
Proof using. intros Hm H. apply (lift_b Pn NBool m x y); done. Qed.
Lemma onv_two m x y : xfit m → ttwo w (mm_v m) x y → xtn m (on_v m x) (on_v m y).
Proof using. intros Hm H. apply (lift_v Pn NVal m x y); done. Qed.
Lemma onb_mo m y : mmo (mm_b m) y → xmo m (on_b m y).
Proof using. apply (liftm_b NBool). Qed.
Lemma onv_mo m y : tmo (mm_v m) y → xmo m (on_v m y).
Proof using. apply (liftm_v NVal). Qed.
Lemma und_two m : xfit m → xtn m (Some (m, NBool mdd_undet)) (Some (m, NBool mdd_undet)).
Proof using. intros Hm. apply x_ret; [done|]. apply Hm. Qed.
Lemma vund_two m : xfit m → xtn m (Some (m, NVal mt_undet)) (Some (m, NVal mt_undet)).
Proof using. intros Hm. apply x_ret; [done|]. apply Hm. Qed.

Lemma logic_two o m f g : xfit m → Pn m f → Pn m g → mhd (mm_b m) ≤ cap w → xtn m (mm_logic o m f g) (nmm_logic w o m f g).
Proof using.
  intros Hm Hf Hg HW. destruct f, g; try (by apply und_two). apply onb_two; [done|]. apply mbin_two; try done. apply Hm.
Qed.
Lemma logic_mo o m f g : xmo m (nmm_logic w o m f g).
Proof using. destruct f, g; try apply xm_ret. apply onb_mo, mbin_mo. Qed.
Lemma not_two m f : xfit m → Pn m f → mhd (mm_b m) ≤ cap w → xtn m (mm_not m f) (nmm_not w m f).
Proof using. intros Hm Hf HW. destruct f; [by apply und_two|]. apply onb_two; [done|]. apply mnot_two; try done. apply Hm. Qed.
Lemma not_mo m f : xmo m (nmm_not w m f).
Proof using. destruct f; [apply xm_ret|]. apply onb_mo, mnot_mo. Qed.
Lemma arith_two I o m f g : xfit m → Pn m f → Pn m g → mhd (mm_b m) ≤ cap w → xtn m (mm_arith I o m f g) (nmm_arith w I o m f g).
Proof using.
  intros Hm Hf Hg HW. destruct f, g; try (by apply vund_two). apply onv_two; [done|]. apply tbin_two; try done; [apply Hm|].
  destruct Hm as (_ & _ & -> & _). done.
Qed.
Lemma arith_mo I o m f g : xmo m (nmm_arith w I o m f g).
Proof using. destruct f, g; try apply xm_ret. apply onv_mo, tbin_mo. Qed.
Lemma ite_two m f g h : xfit m → Pn m f → Pn m g → Pn m h → mhd (mm_b m) ≤ cap w → xtn m (mm_ite m f g h) (nmm_ite w m f g h).
Proof using.
  intros Hm Hf Hg Hh HW. destruct f, g, h; cbn [mm_ite nmm_ite]; try (by apply und_two); try (by apply vund_two).
  all: try (by apply (asv_two m); apply vite_two).
  all: try (by apply (onb_two m); [done|]; apply mite_two; try done; apply Hm).
  all: apply (two3_none _ _ _ _ _).
Qed.
Lemma ite_mo m f g h : xmo m (nmm_ite w m f g h).
Proof using.
  destruct f, g, h; cbn [nmm_ite]; try apply xm_ret; try done; [apply asv_mo, vite_mo|apply onb_mo, mite_mo].
Qed.
(** a comparison, then the negation of its result *)
Lemma then_not m x y : xtwo w Pb m x y → mhd (mm_b m) ≤ cap w →
  xtn m ('(m, t) ← x; on_b m (mdd_not (mm_b m) t)) ('(m, t) ← y; on_b m (nm_not w (mm_b m) t)).
Proof using.
  intros H HW. apply (x_bind Pb Pn m x y (λ m t, on_b m (mdd_not (mm_b m) t)) (λ m t, on_b m (nm_not w (mm_b m) t))); [done| |].
  - intros m1 r F1 [[L1 E1] _] R1. apply onb_two; [done|]. apply mnot_two; try done; [apply F1|lia].
  - intros. apply onb_mo, mnot_mo.
Qed.
Lemma cmpop_two c m f g : xfit m → Pn m f → Pn m g → mhd (mm_b m) ≤ cap w → xtn m (mm_cmp c m f g) (nmm_cmp w c m f g).
Proof using.
  intros Hm Hf Hg HW.
  destruct c, f as [f|f], g as [g|g]; cbn [mm_cmp nmm_cmp mm_eq nmm_eq mm_neq nmm_neq mm_lt nmm_lt mm_lte nmm_lte mm_gt nmm_gt mm_gte nmm_gte]; try (by apply und_two).
  - apply asb_two. by apply cmp_two.
  - apply onb_two; [done|]. apply (two2_bind mlen mhd mfit (cap w) (idok mlen) (idok mlen) (mm_b m) (mdd_xor (mm_b m) f g) (nm_xor w (mm_b m) f g)).
    + apply mbin_two; try done. apply Hm.
    + intros m1 r F1 [L1 E1] R1. apply mnot_two; try done. lia.
    + intros. apply mnot_mo.
  - apply then_not; [|done]. by apply cmp_two.
  - apply onb_two; [done|]. apply mbin_two; try done. apply Hm.
  - apply asb_two. by apply cmp_two.
  - apply (x_bind Pb Pn m (mm_veq m f g) (nmm_veq w m f g)).
    + by apply cmp_two.
    + intros m1 r F1 L1 R1. destruct (r =? mdd_one).
      * apply x_ret; [done|]. cbn. unfold Pb, mdd_one. destruct F1 as [(_ & _ & _ & ?) _]. lia.
      * apply asb_two. apply cmp_two; [done|by eapply Pv_mono|by eapply Pv_mono|]. destruct L1 as [[_ ?] _]. lia.
    + intros m1 r. destruct (r =? mdd_one); [apply xm_ret|]. apply asb_mo, cmp_mo.
  - apply asb_two. by apply cmp_two.
  - apply then_not; [|done]. by apply cmp_two.
Qed.
Lemma cmpop_mo c m f g : xmo m (nmm_cmp w c m f g).
Proof using.
  destruct c, f as [f|f], g as [g|g]; cbn [nmm_cmp nmm_eq nmm_neq nmm_lt nmm_lte nmm_gt nmm_gte]; try apply xm_ret.
  - apply asb_mo, cmp_mo.
  - apply onb_mo. apply (mo2_bind mlen mhd (mm_b m) (nm_xor w (mm_b m) f g)); [apply mbin_mo|intros; apply mnot_mo].
  - apply (xm_bind m (nmm_veq w m f g) (λ m t, on_b m (nm_not w (mm_b m) t))); [apply cmp_mo|]. intros. apply onb_mo, mnot_mo.
  - apply onb_mo, mbin_mo.
  - apply asb_mo, cmp_mo.
  - apply (xm_bind m (nmm_veq w m f g)); [apply cmp_mo|]. intros m1 r. destruct (r =? mdd_one); [apply xm_ret|]. apply asb_mo, cmp_mo.
  - apply asb_mo, cmp_mo.
  - apply (xm_bind m (nmm_vlt w m f g) (λ m t, on_b m (nm_not w (mm_b m) t))); [apply cmp_mo|]. intros. apply onb_mo, mnot_mo.
Qed.
Lemma gate_two o m f g : xfit m → Pn m f → Pn m g → mhd (mm_b m) ≤ cap w → xtn m (mm_gate o m f g) (nmm_gate w o m f g).
Proof using. destruct o; apply logic_two. Qed.
Lemma gate_mo o m f g : xmo m (nmm_gate w o m f g).
Proof using. destruct o; apply logic_mo. Qed.
Lemma value_two m z : xfit m → xtn m (Some (mm_value m z)) (Some (nmm_value w m z)).
Proof using.
  intros Hm. pose proof (onv_two m (Some (mt_value (mm_v m) z)) (Some (nt_value w (mm_v m) z)) Hm) as T. unfold mm_value, nmm_value.
  cbn in T. pose proof (tvalue_two w (mm_v m) z (proj1 (proj2 Hm))) as T2.
  destruct (mt_value (mm_v m) z), (nt_value w (mm_v m) z). by apply T.
Qed.
Lemma value_mo m z : xmo m (Some (nmm_value w m z)).
Proof using.
  pose proof (onv_mo m (Some (nt_value w (mm_v m) z)) (tvalue_mo w (mm_v m) z)) as T. unfold nmm_value.
  by destruct (nt_value w (mm_v m) z).
Qed.
Lemma xnode_two m h xs : xfit m → mm_fits m h xs → mhd (mm_b m) ≤ cap w → xtn m (mm_create_node m h xs) (nmm_create_node w m h xs).
Proof using.
  intros Hm Hx HW. unfold mm_create_node, nmm_create_node.
  destruct Hx as [[Hk Hx]|[Hk Hx]]; destruct xs as [|[f|f] xs]; try done; inversion Hk as [|? ? [? E] _]; try discriminate E; clear Hk E; subst.
  - apply tfits_range in Hx as [? ?].
    apply (onv_two m (Some (mt_create_node (mm_v m) h _)) (Some (nt_create_node w (mm_v m) h _))); [done|].
    apply tcreate_two; try done; [apply Hm|]. destruct Hm as (_ & _ & -> & _). done.
  - apply mfits_range in Hx as [? ?].
    apply (onb_two m (Some (mdd_create_node (mm_b m) h _)) (Some (nm_create_node w (mm_b m) h _))); [done|].
    apply mcreate_two; try done. apply Hm.
Qed.
Lemma xnode_mo m h xs : xmo m (nmm_create_node w m h xs).
Proof using.
  unfold nmm_create_node. destruct xs as [|[f|f] xs]; [done| |].
  - apply (onv_mo m (Some (nt_create_node w (mm_v m) h _))). apply tcreate_mo.
  - apply (onb_mo m (Some (nm_create_node w (mm_b m) h _))). apply mcreate_mo.
Qed.
Lemma mnd_two m x y : xtn m x y → xtwo w (λ _ _, True) m (mnd x) (mnd y).
Proof using.
  intros H. apply (x_bind Pn (λ _ _, True) m x y (λ m x, Some (m, RNode x)) (λ m x, Some (m, RNode x))); [done| |intros; apply xm_ret].
  intros. by apply x_ret.
Qed.
Lemma mnd_mo m y : xmo m y → xmo m (mnd y).
Proof using. intros H. apply (xm_bind m y (λ m x, Some (m, RNode x)) H). intros. apply xm_ret. Qed.

(** ** Whole logs *)
Notation xgrow := (grow xlen (λ m, mhd (mm_b m))).
Lemma xof_le m m1 : xle m m1 → xgrow m m1.
Proof using. intros [[? ?] [? ?]]. unfold grow, xlen. lia. Qed.
Lemma valid_Pn m x : mm_valid m x → Pn m x.
Proof using. by destruct x; intros [? _]. Qed.
Definition xbuild (c : mm_call) : bool := match c with XHeader _ _ _ | XGc _ | XClear => false | _ => true end.
Lemma xans_two I m c : xbuild c → xfit m → mm_legal m c → mhd (mm_b m) ≤ cap w →
  xtwo w (λ _ _, True) m (mm_answer I m c) (nmm_answer w I m c).
Proof using.
  intros Hb Hm Hl HW. destruct c as [l s e|z|h xs|f|o f g|o f g|c f g|f g h|f g|roots|]; try done; cbn [mm_answer nmm_answer mm_legal] in *; apply mnd_two.
  - by apply value_two.
  - by apply xnode_two.
  - apply not_two; try done. by apply valid_Pn.
  - destruct Hl. apply gate_two; try done; by apply valid_Pn.
  - destruct Hl. apply arith_two; try done; by apply valid_Pn.
  - destruct Hl. apply cmpop_two; try done; by apply valid_Pn.
  - destruct Hl as (? & ? & ? & _). apply ite_two; try done; by apply valid_Pn.
  - destruct Hl as [[? _] [? _]]. apply asv_two. by apply vif_two.
Qed.
Lemma nans_grow I m c m1 r : nmm_answer w I m c = Some (m1, r) → xgrow m m1.
Proof using.
  intros H. destruct c as [l s e|z|h xs|f|o f g|o f g|c f g|f g h|f g|roots|]; cbn [nmm_answer] in H;
    try (apply xof_le; revert m1 r H;
      match goal with |- ∀ m1 r, ?y = Some (m1, r) → xle ?m m1 => change (xmo m y) end; apply mnd_mo).
  - unfold mm_create_header in H. cbn in H. destruct (_ =? _); [|done]. cbn in H. injection H as <- _.
    unfold grow, xlen, mlen, tlen, mhd. cbn. rewrite app_length. cbn. lia.
  - apply value_mo.
  - apply xnode_mo.
  - apply not_mo.
  - apply gate_mo.
  - apply arith_mo.
  - apply cmpop_mo.
  - apply ite_mo.
  - apply asv_mo, vif_mo.
  - unfold nmm_gc in H. destruct (nt_gc w (mm_v m) _) as [[v nv]|] eqn:Ev; [|done]. cbn [mbind option_bind] in H.
    destruct (nm_gc w (mm_b m) _) as [[b nb]|] eqn:Eb; [|done]. cbn in H. injection H as <- _.
    apply tgc_grow in Ev as [E1 E2]. apply (nm_exec_grow w (mm_b m) (DGc _)) in Eb as [E3 E4].
    unfold grow, xlen. cbn. lia.
  - injection H as <- _. done.
Qed.
End w.
Local Notation xgrow := (grow xlen (λ m, mhd (mm_b m))).

Lemma ans_exec I m c m1 r : mm_answer I m c = Some (m1, r) → mm_exec I m c = Some m1.
Proof.
  destruct c as [l s e|z|h xs|f|o f g|o f g|c f g|f g h|f g|roots|]; cbn [mm_answer mm_exec]; unfold mnd, mnum.
  - destruct (mm_create_header m l s e) as [[? ?]|]; cbn; [|done]. by intros [= -> _].
  - destruct (mm_value m z) as [? ?]. cbn. by intros [= -> _].
  - destruct (mm_create_node m h xs) as [[? ?]|]; cbn; [|done]. by intros [= -> _].
  - destruct (mm_not m f) as [[? ?]|]; cbn; [|done]. by intros [= -> _].
  - destruct (mm_gate o m f g) as [[? ?]|]; cbn; [|done]. by intros [= -> _].
  - destruct (mm_arith I o m f g) as [[? ?]|]; cbn; [|done]. by intros [= -> _].
  - destruct (mm_cmp c m f g) as [[? ?]|]; cbn; [|done]. by intros [= -> _].
  - destruct (mm_ite m f g h) as [[? ?]|]; cbn; [|done]. by intros [= -> _].
  - destruct (mm_vif m f g) as [[? ?]|]; cbn; [|done]. by intros [= -> _].
  - destruct (mm_gc m roots) as [[? [? ?]]|]; cbn; [|done]. by intros [= -> _].
  - by intros [= -> _].
Qed.

Section inv.
Context (I : vint).
Definition xinv (m : mm) : Prop := mmwf I m ∧ xfit m.
Lemma xfit_of m : mmwf I m → mslots_fit (mm_b m) → tslots_fit (mm_v m) → xfit m.
Proof using.
  intros [Hb Hv Hh [Wb Cb] [Wv Cv] [Wi Ci]] Sb Sv. unfold xfit. sp.
  - by apply mfit_of.
  - by apply (tfit_of I).
  - unfold thd, mhd. by rewrite Hh.
  - split; [done|]. intros k v E. destruct (Cb _ _ E) as (? & ? & ? & ? & _ & _ & _ & Hr & _). by apply repr_live in Hr as [? _].
  - split; [done|]. intros k v E. destruct (Cv _ _ E) as (? & ? & ? & _ & _ & Hr & _). by apply repr_live in Hr as [? _].
  - split; [done|]. intros k v E. destruct (Ci _ _ E) as (? & ? & ? & ? & _ & _ & _ & Hr & _). by apply repr_live in Hr as [? _].
Qed.
Lemma mslots_grow m m1 : mslots_fit m → mhd m ≤ mhd m1 → ar_nodes (d_ar m1) = ar_nodes (d_ar m) → mslots_fit m1.
Proof using.
  intros Hs G En id h cs Hid. unfold mlen. rewrite En in *. destruct (Hs _ _ _ Hid) as [Hh Hc]. split; [|done]. lia.
Qed.
Lemma xans_inv m c m1 r : xinv m → mm_legal m c → mm_answer I m c = Some (m1, r) → xinv m1 ∧ xgrow m m1.
Proof using.
  intros [Hw Hm] Hl He. destruct (mm_exec_ok I m c m1 Hw Hl (ans_exec _ _ _ _ _ He)) as [Hw' _].
  set (w := N.of_nat (mhd (mm_b m))).
  assert (mhd (mm_b m) ≤ cap w) as HW. { unfold cap, w. rewrite Nat2N.id. pose proof (Nat.pow_gt_lin_r 2 (mhd (mm_b m))). lia. }
  destruct (xbuild c) eqn:Hb.
  { pose proof (xans_two w I m c) as [Tf _]; try done; [by rewrite Hb|]. destruct (Tf _ _ He) as (F & L & _). split; [done|]. by apply xof_le. }
  pose proof (mfit_slots _ (proj1 Hm)) as Sb. pose proof (tfit_slots _ (proj1 (proj2 Hm))) as Sv.
  assert (mhd (mm_b m) ≤ mhd (mm_b m1) → tgrow (mm_v m) (mm_v m1) → ar_nodes (d_ar (mm_b m1)) = ar_nodes (d_ar (mm_b m)) →
    ar_nodes (t_ar (mm_v m1)) = ar_nodes (t_ar (mm_v m)) → xinv m1 ∧ xgrow m m1) as Hgen.
  { intros G1 G2 N1 N2. split; [split; [done|]|].
    - apply xfit_of; [done|by eapply mslots_grow|by eapply tslots_grow].
    - destruct G2 as [G2 _]. unfold grow, xlen, mlen, tlen in *. rewrite N1, N2 in *. lia. }
  destruct c as [l s e| | | | | | | | |roots|]; try done; cbn [mm_answer] in He; clear Hb.
  - unfold mm_create_header in He. cbn in He. destruct (_ =? _); [|done]. cbn in He. injection He as <- _.
    apply Hgen; unfold grow, mhd, tlen, thd; cbn; try done; rewrite app_length; cbn; lia.
  - unfold mm_gc in He. destruct (mt_gc (mm_v m) _) as [[v nv]|] eqn:Ev; [|done]. cbn [mbind option_bind] in He.
    destruct (mdd_gc (mm_b m) _) as [[b nb]|] eqn:Eb; [|done]. cbn in He. injection He as <- _.
    apply tgc_shape in Ev as [E1 E2]. apply mgc_shape in Eb as [E3 E4].
    apply Hgen; unfold grow, mhd, tlen, thd; cbn; try done; by rewrite ?E1, ?E2, ?E3, ?E4.
  - injection He as <- _. by apply Hgen.
Qed.
Lemma xans_iff w m c p : xinv m → mm_legal m c → mhd (mm_b m) ≤ cap w → xlen p.1 ≤ cap w →
  mm_answer I m c = Some p ↔ nmm_answer w I m c = Some p.
Proof using.
  intros [Hw Hm] Hl HW HL. destruct (xbuild c) eqn:Hb; [apply (xans_two w I m c); try done; by rewrite Hb|].
  destruct c as [l s e| | | | | | | | |roots|]; try done; cbn [mm_answer nmm_answer]. clear Hb.
  destruct (mm_gc_l I m roots Hw Hl) as (m1 & nv & nb & Hc & Hw1 & _). unfold mm_gc, nmm_gc in *.
  destruct (mt_gc (mm_v m) (vroots roots)) as [[v a]|] eqn:Ev; [|done]. cbn [mbind option_bind] in Hc.
  destruct (mdd_gc (mm_b m) (broots roots)) as [[b a']|] eqn:Eb; [|done]. cbn [mbind option_bind] in Hc. injection Hc as <- -> ->.
  assert (mlen b = mlen (mm_b m) ∧ tlen v = tlen (mm_v m)) as [Lb Lv].
  { apply tgc_shape in Ev as [E1 _]. apply mgc_shape in Eb as [E3 _]. unfold mlen, tlen. by rewrite E1, E3. }
  assert (tlen v ≤ cap w → nt_gc w (mm_v m) (vroots roots) = Some (v, nv)) as Nv.
  { intros Hlv. apply tgc_iff; [|done|done]. intros v1 k Ek. rewrite Ev in Ek. injection Ek as <- <-.
    exact (aw_free_lt _ _ (tg_wf _ _ (tw_good _ _ (mmw_v _ _ Hw1)))). }
  assert (mlen b ≤ cap w → nm_gc w (mm_b m) (broots roots) = Some (b, nb)) as Nb.
  { intros Hlb. apply mgc_iff; [split; [apply Hw|apply Hm]| |done|done]. cbn [mdd_legal]. cbn [mm_legal] in Hl.
    clear -Hl. induction Hl as [|[x|x] l Hx Hl IH]; [constructor|exact IH|]. cbn. constructor; [exact Hx|exact IH]. }
  split; intros H.
  - cbn [mbind option_bind] in H. injection H as <-. unfold xlen in HL. cbn in HL. rewrite Nv, Nb by lia. done.
  - assert (tlen v ≤ cap w ∧ mlen b ≤ cap w) as [Hlv Hlb].
    { destruct (nt_gc w (mm_v m) _) as [[v1 k1]|] eqn:E1; [|done]. cbn [mbind option_bind] in H.
      destruct (nm_gc w (mm_b m) _) as [[b1 k2]|] eqn:E2; [|done]. cbn in H. injection H as <-. unfold xlen in HL. cbn in HL.
      apply tgc_grow in E1 as [G1 _]. apply (nm_exec_grow w (mm_b m) (DGc _)) in E2 as [G2 _]. lia. }
    rewrite (Nv Hlv), (Nb Hlb) in H. exact H.
Qed.
Lemma xwithin_same w cs rs m : within w (d_ar (mm_b m)) → within w (t_ar (mm_v m)) →
  log32 mm_legal (nmm_answer w I) mm_new cs = Some (rs, m) ↔ log32 mm_legal (mm_answer I) mm_new cs = Some (rs, m).
Proof using.
  intros [H1%cap_N H2%cap_N] [H3%cap_N _].
  eapply (log32_same xlen (λ m, mhd (mm_b m)) mm_legal (mm_answer I) (nmm_answer w I) xinv w); try done.
  - apply xans_inv.
  - intros. by eapply nans_grow.
  - intros. by apply xans_iff.
  - split; [apply mm_new_ok|]. apply xfit_of; [apply mm_new_ok| |apply tnew_slots]. apply mfit_slots, mnew_fit.
  - unfold xlen, mlen, tlen. lia.
Qed.
End inv.
