(** The narrowed BDD manager does what the unbounded one does as long as slots and headers fit. *)
From Verif Require Import Prelude ComputeCache ComputeCacheProofs Arena ArenaProofs Bdd SpecBdd BddProofs Bdd32.

Lemma narrow_id w x : x < 2 ^ N.to_nat w → narrow w x = x.
Proof.
  intros H. unfold narrow. rewrite N.mod_small; [lia|].
  replace (2 ^ w)%N with (N.of_nat (2 ^ N.to_nat w)) by (rewrite Nat2N.inj_pow, N2Nat.id; done). lia.
Qed.
Lemma narrow_map w l : Forall (λ x, x < 2 ^ N.to_nat w) l → narrow w <$> l = l.
Proof. induction 1 as [|x l Hx _ IH]; [done|]. cbn [fmap list_fmap]. by rewrite narrow_id, IH. Qed.

(** how many ids fit *)
Definition cap (w : N) : nat := 2 ^ N.to_nat w.

(** ** Two runs of one operation, ideal [x] and narrowed [y], from a common state *)
Section two.
Context {S : Type} (len : S → nat) (hdrs : S → nat) (fit : S → Prop) (W : nat).
Definition le (m m' : S) : Prop := len m ≤ len m' ∧ hdrs m' = hdrs m.
(** the narrowed run never shrinks the store *)
Definition mo (m : S) (y : option (S * nat)) : Prop := ∀ m' r, y = Some (m', r) → le m m'.
Record two (m : S) (x y : option (S * nat)) : Prop := {
  t_fit : ∀ m' r, x = Some (m', r) → fit m' ∧ le m m' ∧ r < len m';
  t_same : ∀ p, x = Some p → len p.1 ≤ W → y = Some p;
  t_big : ∀ p, x = Some p → W < len p.1 → ∀ q, y = Some q → W < len q.1;
}.
Lemma le_refl m : le m m.
Proof. split; done. Qed.
Lemma le_trans a b c : le a b → le b c → le a c.
Proof. unfold le. intros [] []. split; [lia|congruence]. Qed.

Lemma mo_ret m m' r : le m m' → mo m (Some (m', r)).
Proof. intros H ? ? [= <- <-]. done. Qed.
Lemma mo_none m : mo m None.
Proof. done. Qed.
Lemma mo_bind m (y : option (S * nat)) k : mo m y → (∀ m1 r1, mo m1 (k m1 r1)) → mo m ('(m, r) ← y; k m r).
Proof.
  intros Hy Hk m' r H. destruct y as [[m1 r1]|]; [|done]. cbn in H.
  eapply le_trans; [by eapply Hy|by eapply Hk].
Qed.
Lemma mo_obind {A} m (e : option A) (k : A → option (S * nat)) : (∀ a, mo m (k a)) → mo m (e ≫= k).
Proof. intros Hk m' r H. destruct e; [|done]. by eapply Hk. Qed.

Lemma two_none m y : two m None y.
Proof. split; done. Qed.
Lemma two_ret m r : fit m → r < len m → two m (Some (m, r)) (Some (m, r)).
Proof.
  intros Hf Hr. split.
  - intros ? ? [= <- <-]. done.
  - done.
  - intros ? [= <-] ? ? [= <-]. done.
Qed.
Lemma two_bind m (x y : option (S * nat)) k k' :
  two m x y →
  (∀ m1 r1, fit m1 → le m m1 → r1 < len m1 → two m1 (k m1 r1) (k' m1 r1)) →
  (∀ m1 r1, mo m1 (k' m1 r1)) →
  two m ('(m, r) ← x; k m r) ('(m, r) ← y; k' m r).
Proof.
  intros [Hf Hs Hb] Hk Hm. destruct x as [[m1 r1]|]; [|apply two_none]. cbn [mbind option_bind].
  destruct (Hf _ _ eq_refl) as (F1 & L1 & R1). destruct (Hk _ _ F1 L1 R1) as [Kf Ks Kb]. split.
  - intros m' r H. destruct (Kf _ _ H) as (? & ? & ?). sp; try done. by eapply le_trans.
  - intros [m' r] H HW. destruct (Kf _ _ H) as (_ & [Hl _] & _). cbn in HW.
    rewrite (Hs (m1, r1) eq_refl) by (cbn; lia). cbn. by apply Ks.
  - intros [m' r] H HW [m2 r2] Hq. destruct (decide (len m1 ≤ W)) as [Hl|Hl].
    + rewrite (Hs (m1, r1) eq_refl Hl) in Hq. cbn in Hq. by eapply Kb in Hq.
    + destruct y as [[m3 r3]|]; [|done]. cbn in Hq.
      pose proof (Hb _ eq_refl ltac:(cbn; lia) _ eq_refl) as H3. cbn in H3.
      destruct (Hm _ _ _ _ Hq) as [? _]. cbn. lia.
Qed.
Lemma two_obind {A} m (e : option A) (k k' : A → option (S * nat)) :
  (∀ a, e = Some a → two m (k a) (k' a)) → two m (e ≫= k) (e ≫= k').
Proof. intros H. destruct e; [by apply H|apply two_none]. Qed.
(** a look that agrees while the store is small *)
Lemma two_look {A} m (e e' : option A) (k k' : A → option (S * nat)) :
  (len m ≤ W → e' = e) → (∀ a, e = Some a → two m (k a) (k' a)) → (∀ a, mo m (k' a)) → two m (e ≫= k) (e' ≫= k').
Proof.
  intros He H Hm. destruct e as [a|]; [|apply two_none]. cbn [mbind option_bind].
  destruct (H a eq_refl) as [Kf Ks Kb]. split; [done| |].
  - intros [m' r] Hx HW. destruct (Kf _ _ Hx) as (_ & [Hl _] & _). cbn in HW. rewrite He by lia. cbn. by apply Ks.
  - intros [m' r] Hx HW [m2 r2] Hq. destruct (decide (len m ≤ W)) as [Hl|Hl].
    + rewrite He in Hq by done. cbn in Hq. by eapply Kb in Hq.
    + destruct e' as [a'|]; [|done]. cbn in Hq. destruct (Hm _ _ _ Hq) as [? _]. cbn. lia.
Qed.
(** a write of the result [r] into a table *)
Lemma two_write m (e e' : option S) r :
  r < len m → (∀ m1, e = Some m1 → fit m1 ∧ len m1 = len m ∧ hdrs m1 = hdrs m) →
  (len m ≤ W → e' = e) → (∀ m1, e' = Some m1 → len m1 = len m) →
  two m (m ← e; Some (m, r)) (m ← e'; Some (m, r)).
Proof.
  intros Hr He Hs Hm. destruct e as [m1|]; [|apply two_none]. cbn [mbind option_bind].
  destruct (He _ eq_refl) as (F & L & H). split.
  - intros ? ? [= <- <-]. split; [done|]. split; [split; [lia|done]|lia].
  - intros ? [= <-] HW. cbn in HW. rewrite Hs by lia. done.
  - intros ? [= <-] HW q Hq. cbn in HW. destruct e' as [m2|]; [|done]. cbn in Hq. injection Hq as <-.
    cbn. rewrite (Hm _ eq_refl). lia.
Qed.
End two.

(** ** The store *)
Definition afit {T} (a : arena T) : Prop :=
  (∀ id h cs, ar_nodes a !! id = Some (NT h cs) →
     h < length (ar_headers a) ∧ Forall (λ c, c < length (ar_nodes a)) cs) ∧
  (∀ k id, ar_utable a !! k = Some id → id < length (ar_nodes a)) ∧
  (∀ id, id ∈ ar_free a → id < length (ar_nodes a)).

Lemma n_hashcons_grow {T} w (a : arena T) h cs :
  length (ar_nodes a) ≤ length (ar_nodes (n_hashcons w a h cs).1) ∧ ar_headers (n_hashcons w a h cs).1 = ar_headers a.
Proof.
  unfold n_hashcons, ar_alloc. destruct (ar_utable a !! _); [done|].
  destruct (ar_free a); cbn; [rewrite app_length; cbn; split; [lia|done]|by rewrite insert_length].
Qed.
Lemma afit_alloc {T} (a : arena T) n a1 r : afit a →
  match n with Term _ => True | NT h cs => h < length (ar_headers a) ∧ Forall (λ c, c < length (ar_nodes a)) cs end →
  ar_alloc a n = (a1, r) →
  afit a1 ∧ ar_headers a1 = ar_headers a ∧ ar_utable a1 = ar_utable a ∧ length (ar_nodes a) ≤ length (ar_nodes a1) ∧
  r < length (ar_nodes a1).
Proof.
  intros (Hn & Hu & Hf) Hk. unfold ar_alloc. destruct (ar_free a) as [|s fr] eqn:Hfr; intros [= <- <-]; cbn.
  - rewrite app_length. cbn. sp; try done; try lia. unfold afit. cbn. rewrite app_length. cbn. sp.
    + intros id h cs [H|[_ H]]%lookup_app_Some.
      * destruct (Hn _ _ _ H) as [? Hc]. split; [done|]. eapply Forall_impl; [exact Hc|]. cbn. lia.
      * apply list_lookup_singleton_Some in H as [_ ->]. destruct Hk as [? Hc]. split; [done|].
        eapply Forall_impl; [exact Hc|]. cbn. lia.
    + intros k id H. specialize (Hu _ _ H). lia.
    + intros id H. set_solver.
  - assert (s < length (ar_nodes a)) by (apply Hf; set_solver).
    rewrite insert_length. sp; try done. unfold afit. cbn. rewrite insert_length. sp; try done.
    + intros id h cs H'. apply list_lookup_insert_Some in H' as [(_ & -> & _)|[_ H']]; [done|by eapply Hn].
    + intros id Hid. apply Hf. set_solver.
Qed.
Lemma afit_hashcons {T} (a : arena T) h cs a1 r :
  afit a → h < length (ar_headers a) → Forall (λ c, c < length (ar_nodes a)) cs → ar_hashcons a h cs = (a1, r) →
  afit a1 ∧ ar_headers a1 = ar_headers a ∧ length (ar_nodes a) ≤ length (ar_nodes a1) ∧ r < length (ar_nodes a1).
Proof.
  intros Ha Hh Hc. unfold ar_hashcons. destruct (ar_utable a !! (h, cs)) as [id|] eqn:Hu.
  - intros [= <- <-]. sp; try done. exact (proj1 (proj2 Ha) _ _ Hu).
  - destruct (ar_alloc a (NT h cs)) as [a' id] eqn:He. intros [= <- <-].
    destruct (afit_alloc a (NT h cs) a' id Ha (conj Hh Hc) He) as ((H1 & H2 & H3) & Hd & Ht & Hl & Hr). cbn. sp; try done.
    unfold afit. cbn. sp; try done. intros k i. destruct (decide (k = (h, cs))) as [->|Hne].
    + rewrite lookup_insert. by intros [= <-].
    + rewrite lookup_insert_ne by done. apply H2.
Qed.
(** while the store is small the keys agree; the stored id agrees unless the push went past the limit *)
Lemma n_hashcons_same {T} w (a : arena T) h cs :
  h < length (ar_headers a) → Forall (λ c, c < length (ar_nodes a)) cs →
  length (ar_headers a) ≤ cap w → length (ar_nodes a) ≤ cap w → afit a →
  length (ar_nodes (n_hashcons w a h cs).1) = length (ar_nodes (ar_hashcons a h cs).1) ∧
  (length (ar_nodes (ar_hashcons a h cs).1) ≤ cap w → n_hashcons w a h cs = ar_hashcons a h cs).
Proof.
  intros Hh Hc HhW HlW Ha. unfold n_hashcons.
  rewrite (narrow_id w h) by (unfold cap in *; lia). rewrite (narrow_map w cs).
  2: { eapply Forall_impl; [exact Hc|]. cbn. unfold cap in *. lia. }
  destruct (ar_hashcons a h cs) as [a1 r] eqn:He1.
  destruct (afit_hashcons _ _ _ _ _ Ha Hh Hc He1) as (_ & _ & _ & Hr1). revert He1. unfold ar_hashcons.
  destruct (ar_utable a !! (h, cs)) as [id|]; [by intros [= <- <-]|].
  destruct (ar_alloc a (NT h cs)) as [a' id] eqn:He. intros [= <- <-]. cbn. split; [done|]. intros HW. cbn in Hr1.
  rewrite narrow_id by (unfold cap in *; lia). done.
Qed.

(** ** The computed tables *)
Definition cfit (c : ccache) (L : nat) : Prop := cwf c ∧ ∀ k v, cfind c k = Some v → N.to_nat v < L.
Lemma cfit_mono c L L' : L ≤ L' → cfit c L → cfit c L'.
Proof. intros H [? Hc]. split; [done|]. intros k v Hv. specialize (Hc _ _ Hv). lia. Qed.
Lemma cfit_get c L k0 k1 k2 v : cfit c L → cc_get c k0 k1 k2 = Some (Some v) → N.to_nat v < L.
Proof.
  intros [Hw Hc] H. pose proof (cc_get_total c (k0, k1, k2) (cwf_shape _ Hw)) as E. cbn in E. rewrite H in E.
  injection E as E. by eapply Hc.
Qed.
Lemma cfit_put c L k0 k1 k2 v c' : cfit c L → N.to_nat v < L → cc_put c k0 k1 k2 v = Some c' → cfit c' L.
Proof.
  intros [Hw Hc] Hv H. destruct (put_spec c (k0, k1, k2) v Hw) as (c1 & E & Hw1 & _ & Hfd). cbn in E.
  rewrite H in E. injection E as <-. split; [done|]. intros k u Hu.
  destruct (Hfd _ _ Hu) as [[_ ->]|[_ Ho]]; [done|by eapply Hc].
Qed.

(** ** The manager *)
Definition blen (m : bdd) : nat := length (ar_nodes (b_ar m)).
Definition bhd (m : bdd) : nat := length (ar_headers (b_ar m)).
Definition bfit (m : bdd) : Prop := afit (b_ar m) ∧ cfit (b_cache m) (blen m) ∧ cfit (b_ite m) (blen m) ∧ 2 < blen m.
Notation btwo w := (two blen bhd bfit (cap w)).
Notation bmo := (mo blen bhd).

Lemma create_fit m h lo hi m1 r : bfit m → h < bhd m → lo < blen m → hi < blen m →
  bdd_create_node m h lo hi = (m1, r) → bfit m1 ∧ le blen bhd m m1 ∧ r < blen m1.
Proof.
  intros (Ha & Hc & Hi & H2) Hh Hlo Hhi. unfold bdd_create_node. destruct (lo =? hi).
  { intros [= <- <-]. sp; try done. }
  destruct (ar_hashcons (b_ar m) h [lo; hi]) as [a id] eqn:He. intros [= <- <-].
  destruct (afit_hashcons _ _ [lo; hi] _ _ Ha Hh ltac:(repeat constructor; done) He) as (Ha1 & Hd & Hl & Hr).
  unfold bfit, le, blen, bhd in *. cbn. rewrite Hd. sp; try done; try lia; (eapply cfit_mono; [|done]; done).
Qed.
Lemma create_mo w m h lo hi : bmo m (Some (n_create_node w m h lo hi)).
Proof.
  intros m' r [= H]. revert H. unfold n_create_node. destruct (lo =? hi); [intros [= <- <-]; apply le_refl|].
  pose proof (n_hashcons_grow w (b_ar m) h [lo; hi]) as [G1 G2].
  destruct (n_hashcons w _ _ _) as [a id]. intros [= <- <-]. unfold le, blen, bhd. cbn in *. by rewrite G2.
Qed.
Lemma create_two w m h lo hi : bfit m → h < bhd m → lo < blen m → hi < blen m → bhd m ≤ cap w →
  btwo w m (Some (bdd_create_node m h lo hi)) (Some (n_create_node w m h lo hi)).
Proof.
  intros Hf Hh Hlo Hhi HW. pose proof (create_fit m h lo hi) as CF. split.
  - intros m' r [= H]. by eapply CF.
  - intros [m' r] [= H] HL. cbn in HL. f_equal. rewrite <- H. destruct (CF _ _ Hf Hh Hlo Hhi H) as (_ & [Hl _] & _).
    revert H. unfold bdd_create_node, n_create_node. destruct (lo =? hi); [done|].
    destruct (n_hashcons_same w (b_ar m) h [lo; hi]) as [_ E]; try done; [repeat constructor; done|unfold blen in *; lia|apply Hf|].
    destruct (ar_hashcons _ _ _) as [a id]. intros [= <- <-]. cbn in E. by rewrite E by done.
  - intros [m' r] [= H] HL [m2 r2] [= Hq]. cbn in *. destruct (decide (blen m ≤ cap w)) as [Hs|Hs].
    + revert H Hq. unfold bdd_create_node, n_create_node. destruct (lo =? hi); [intros [= <- <-]; unfold blen in *; lia|].
      destruct (n_hashcons_same w (b_ar m) h [lo; hi]) as [E _]; try done; [repeat constructor; done|apply Hf|].
      destruct (ar_hashcons _ _ _) as [a id]. destruct (n_hashcons _ _ _ _) as [a2 id2]. intros [= <- <-] [= <- <-].
      unfold blen in *. cbn in *. lia.
    + destruct (create_mo w m h lo hi m2 r2 ltac:(by rewrite Hq)) as [? _]. lia.
Qed.

Lemma nn w x L : x < L → L ≤ cap w → narrow w x = x.
Proof. intros. apply narrow_id. unfold cap in *. lia. Qed.
Lemma get_val m o f g x : bfit m → bdd_cache_get m o f g = Some (Some x) → x < blen m.
Proof.
  intros (_ & Hc & _) H. unfold bdd_cache_get in H. destruct (cc_get _ _ _ _) as [[v|]|] eqn:E; cbn in H; try done.
  injection H as <-. by eapply cfit_get.
Qed.
Lemma iget_val m f g h x : bfit m → bdd_ite_get m f g h = Some (Some x) → x < blen m.
Proof.
  intros (_ & _ & Hc & _) H. unfold bdd_ite_get in H. destruct (cc_get _ _ _ _) as [[v|]|] eqn:E; cbn in H; try done.
  injection H as <-. by eapply cfit_get.
Qed.
Lemma put_two w m o f g r : bfit m → f < blen m → g < blen m → r < blen m →
  btwo w m (m ← bdd_cache_put m o f g r; Some (m, r)) (m ← n_cache_put w m o f g r; Some (m, r)).
Proof.
  intros (Ha & Hc & Hi & H2) Hf Hg Hr. apply two_write; [done| | |].
  - unfold bdd_cache_put. intros m1 H. destruct (cc_put _ _ _ _ _) as [c|] eqn:E; [|done]. injection H as <-.
    unfold bfit. cbn. sp; try done. eapply cfit_put; [exact Hc| |exact E]. unfold blen. cbn. rewrite Nat2N.id. done.
  - intros HW. unfold n_cache_put. by rewrite !(nn w _ (blen m)).
  - unfold n_cache_put, bdd_cache_put. intros m1 H. destruct (cc_put _ _ _ _ _) as [c|]; [|done]. by injection H as <-.
Qed.
Lemma iput_two w m f g h r : bfit m → f < blen m → g < blen m → h < blen m → r < blen m →
  btwo w m (m ← bdd_ite_put m f g h r; Some (m, r)) (m ← n_ite_put w m f g h r; Some (m, r)).
Proof.
  intros (Ha & Hc & Hi & H2) Hf Hg Hh Hr. apply two_write; [done| | |].
  - unfold bdd_ite_put. intros m1 H. destruct (cc_put _ _ _ _ _) as [c|] eqn:E; [|done]. injection H as <-.
    unfold bfit. cbn. sp; try done. eapply cfit_put; [exact Hi| |exact E]. unfold blen. cbn. rewrite Nat2N.id. done.
  - intros HW. unfold n_ite_put. by rewrite !(nn w _ (blen m)).
  - unfold n_ite_put, bdd_ite_put. intros m1 H. destruct (cc_put _ _ _ _ _) as [c|]; [|done]. by injection H as <-.
Qed.
Lemma put_mo w m o f g r : bmo m (m ← n_cache_put w m o f g r; Some (m, r)).
Proof.
  intros m' r' H. unfold n_cache_put, bdd_cache_put in H. destruct (cc_put _ _ _ _ _); [|done]. cbn in H.
  injection H as <- <-. by split.
Qed.
Lemma iput_mo w m f g h r : bmo m (m ← n_ite_put w m f g h r; Some (m, r)).
Proof.
  intros m' r' H. unfold n_ite_put, bdd_ite_put in H. destruct (cc_put _ _ _ _ _); [|done]. cbn in H.
  injection H as <- <-. by split.
Qed.

(** ** Monotonicity of the narrowed operations *)
Ltac momo IH :=
  repeat lazymatch goal with
    | |- mo _ _ ?m None => apply mo_none
    | |- mo _ _ ?m (Some (?m, _)) => apply mo_ret, le_refl
    | |- mo _ _ ?m (Some (n_create_node _ _ _ _ _)) => apply create_mo
    | |- mo _ _ ?m (mbind _ (n_cache_put _ _ _ _ _ _)) => apply put_mo
    | |- mo _ _ ?m (mbind _ (n_ite_put _ _ _ _ _ _)) => apply iput_mo
    | |- mo _ _ ?m (mbind _ ?y) =>
        lazymatch type of y with
        | option (bdd * nat) => apply (mo_bind blen bhd m y); [|intros ? ?]
        | _ => apply mo_obind; intros ?
        end
    | |- mo _ _ ?m (match n_create_node ?w ?m ?h ?lo ?hi with _ => _ end) =>
        refine (mo_bind blen bhd m (Some (n_create_node w m h lo hi)) _ _ _); [|intros ? ?]
    | |- mo _ _ ?m (match ?x with _ => _ end) => destruct x
    | |- _ => first [apply IH]
    end.
Lemma not_mo w n : ∀ m f, bmo m (n_not_f w n m f).
Proof. induction n as [|n IH]; intros m f; [done|]. cbn [n_not_f]. momo IH. Qed.
Lemma and_mo w n : ∀ m f g, bmo m (n_and_f w n m f g).
Proof. induction n as [|n IH]; intros m f g; [done|]. cbn [n_and_f]. momo IH. Qed.
Lemma or_mo w n : ∀ m f g, bmo m (n_or_f w n m f g).
Proof. induction n as [|n IH]; intros m f g; [done|]. cbn [n_or_f]. momo IH. Qed.
Lemma xor_mo w n : ∀ m f g, bmo m (n_xor_f w n m f g).
Proof.
  induction n as [|n IH]; intros m f g; [done|]. pose proof (not_mo w (S n)) as IN. cbn [n_xor_f].
  momo IH; apply IN.
Qed.
Lemma ite_mo w n : ∀ m f g h, bmo m (n_ite_f w n m f g h).
Proof. induction n as [|n IH]; intros m f g h; [done|]. cbn [n_ite_f]. momo IH. Qed.

(** ** The operations side by side *)
Lemma fit_nt m f h cs : bfit m → ar_nodes (b_ar m) !! f = Some (NT h cs) → h < bhd m ∧ Forall (λ c, c < blen m) cs.
Proof. intros (Ha & _) H. by eapply Ha. Qed.
Lemma fit_edges m f h cs lo hi : bfit m → ar_nodes (b_ar m) !! f = Some (NT h cs) → edges2 cs = Some (lo, hi) →
  h < bhd m ∧ lo < blen m ∧ hi < blen m.
Proof.
  intros Hm H E. destruct (fit_nt _ _ _ _ Hm H) as [? Hc]. destruct cs as [|a [|b [|]]]; try done. injection E as <- <-.
  inversion_clear Hc. inversion_clear H2. done.
Qed.
Lemma get_look w m o f g k k' : bfit m → f < blen m → g < blen m →
  (∀ x, x < blen m → btwo w m (k (Some x)) (k' (Some x))) → btwo w m (k None) (k' None) → (∀ a, bmo m (k' a)) →
  btwo w m (bdd_cache_get m o f g ≫= k) (n_cache_get w m o f g ≫= k').
Proof.
  intros Hm Hf Hg Hs Hn Ho. apply two_look; [|intros [x|] E; [apply Hs; by eapply get_val|done]|done].
  intros HW. unfold n_cache_get. by rewrite !(nn w _ (blen m)).
Qed.
Lemma iget_look w m f g h k k' : bfit m → f < blen m → g < blen m → h < blen m →
  (∀ x, x < blen m → btwo w m (k (Some x)) (k' (Some x))) → btwo w m (k None) (k' None) → (∀ a, bmo m (k' a)) →
  btwo w m (bdd_ite_get m f g h ≫= k) (n_ite_get w m f g h ≫= k').
Proof.
  intros Hm Hf Hg Hh Hs Hn Ho. apply two_look; [|intros [x|] E; [apply Hs; by eapply iget_val|done]|done].
  intros HW. unfold n_ite_get. by rewrite !(nn w _ (blen m)).
Qed.
(** two recursive calls, then create_node *)
Lemma rec_two w m h (x0 y0 : option (bdd * nat)) (x1 y1 : bdd → option (bdd * nat)) :
  bhd m ≤ cap w → h < bhd m → btwo w m x0 y0 →
  (∀ m1, bfit m1 → le blen bhd m m1 → btwo w m1 (x1 m1) (y1 m1)) → (∀ m1, bmo m1 (y1 m1)) →
  btwo w m ('(m, low) ← x0; '(m, high) ← x1 m; Some (bdd_create_node m h low high))
           ('(m, low) ← y0; '(m, high) ← y1 m; Some (n_create_node w m h low high)).
Proof.
  intros HW Hh H0 H1 Hm. apply (two_bind blen bhd bfit (cap w) m x0 y0); [done| |].
  - intros m1 lo F1 L1 R1. apply (two_bind blen bhd bfit (cap w) m1 (x1 m1) (y1 m1)); [by apply H1| |].
    + intros m2 hi F2 L2 R2. unfold le in *. apply create_two; try done; try lia.
    + intros. apply create_mo.
  - intros m1 lo. apply (mo_bind blen bhd m1 (y1 m1)); [done|]. intros. apply create_mo.
Qed.
Lemma le_len m m1 x : le blen bhd m m1 → x < blen m → x < blen m1.
Proof. intros [] ?. lia. Qed.
Lemma le_hd m m1 w : le blen bhd m m1 → bhd m ≤ cap w → bhd m1 ≤ cap w.
Proof. intros [] ?. lia. Qed.

(** the rest of an apply: compute, then store *)
Lemma store_two w m o f g (x y : option (bdd * nat)) : f < blen m → g < blen m → btwo w m x y →
  btwo w m ('(m, result) ← x; m ← bdd_cache_put m o f g result; Some (m, result))
           ('(m, result) ← y; m ← n_cache_put w m o f g result; Some (m, result)).
Proof.
  intros Hf Hg H. apply (two_bind blen bhd bfit (cap w) m x y); [done| |].
  - intros m1 r F L R. apply put_two; try done; by eapply le_len.
  - intros. apply put_mo.
Qed.
Lemma fit_term m t : bfit m → t ≤ 2 → t < blen m.
Proof. intros (_ & _ & _ & ?) ?. lia. Qed.

Lemma not_two w n : ∀ m f, bfit m → f < blen m → bhd m ≤ cap w → btwo w m (bdd_not_f n m f) (n_not_f w n m f).
Proof.
  induction n as [|n IH]; intros m f Hm Hf HW; [apply two_none|]. cbn [bdd_not_f n_not_f].
  pose proof (not_mo w n) as MN.
  apply get_look; [done|done|by apply fit_term; [|lia]| | |].
  { intros x Hx. by apply two_ret. }
  2: { intros []; momo MN. }
  apply two_obind. intros fn Hfn. apply store_two; [done|by apply fit_term; [|lia]|].
  destruct fn as [[]|hf fc]; try (apply two_ret; [done|by apply fit_term; [|unfold bdd_one, bdd_zero, bdd_undet; lia]]).
  apply two_obind. intros [f0 f1] He. destruct (fit_edges _ _ _ _ _ _ Hm Hfn He) as (? & ? & ?).
  apply (rec_two w m hf _ _ (λ m, bdd_not_f n m f1) (λ m, n_not_f w n m f1)); try done.
  - by apply IH.
  - intros m1 F1 L1. apply IH; [done|by eapply le_len|by eapply le_hd].
Qed.

Ltac solvet IH := first [done | apply IH; first [done | by eapply le_len | by eapply le_hd]].
Ltac appt w n m IH Hm Hfn Hgn :=
  let f0 := fresh "f0" in let f1 := fresh "f1" in let g0 := fresh "g0" in let g1 := fresh "g1" in
  let Ef := fresh "Ef" in let Eg := fresh "Eg" in
  apply two_obind; intros ? _; apply two_obind; intros ? _;
  apply two_obind; intros [f0 f1] Ef; apply two_obind; intros [g0 g1] Eg;
  destruct (fit_edges _ _ _ _ _ _ Hm Hfn Ef) as (? & ? & ?); destruct (fit_edges _ _ _ _ _ _ Hm Hgn Eg) as (? & ? & ?);
  repeat case_match.
Lemma and_two w n : ∀ m f g, bfit m → f < blen m → g < blen m → bhd m ≤ cap w →
  btwo w m (bdd_and_f n m f g) (n_and_f w n m f g).
Proof.
  induction n as [|n IH]; intros m f g Hm Hf Hg HW; [apply two_none|]. cbn [bdd_and_f n_and_f].
  pose proof (and_mo w n) as MN. destruct (f =? g); [by apply two_ret|].
  assert (∃ f' g', (if g <? f then (g, f) else (f, g)) = (f', g') ∧ f' < blen m ∧ g' < blen m) as (f' & g' & -> & Hf' & Hg').
  { destruct (g <? f); eauto. }
  apply get_look; try done.
  { intros x Hx. by apply two_ret. }
  2: { intros []; momo MN. }
  apply two_obind. intros fn Hfn. apply two_obind. intros gn Hgn. apply store_two; try done.
  destruct fn as [[]|hf fc], gn as [[]|hg gc];
    try (apply two_ret; [done|first [done|apply fit_term; [done|unfold bdd_one, bdd_zero, bdd_undet; lia]]]).
  appt w n m IH Hm Hfn Hgn.
  - apply (rec_two w m hf _ _ (λ m, bdd_and_f n m f1 g') (λ m, n_and_f w n m f1 g')); intros; solvet IH.
  - apply (rec_two w m hg _ _ (λ m, bdd_and_f n m f' g1) (λ m, n_and_f w n m f' g1)); intros; solvet IH.
  - apply (rec_two w m hf _ _ (λ m, bdd_and_f n m f1 g1) (λ m, n_and_f w n m f1 g1)); intros; solvet IH.
Qed.
Lemma or_two w n : ∀ m f g, bfit m → f < blen m → g < blen m → bhd m ≤ cap w →
  btwo w m (bdd_or_f n m f g) (n_or_f w n m f g).
Proof.
  induction n as [|n IH]; intros m f g Hm Hf Hg HW; [apply two_none|]. cbn [bdd_or_f n_or_f].
  pose proof (or_mo w n) as MN. destruct (f =? g); [by apply two_ret|].
  assert (∃ f' g', (if g <? f then (g, f) else (f, g)) = (f', g') ∧ f' < blen m ∧ g' < blen m) as (f' & g' & -> & Hf' & Hg').
  { destruct (g <? f); eauto. }
  apply get_look; try done.
  { intros x Hx. by apply two_ret. }
  2: { intros []; momo MN. }
  apply two_obind. intros fn Hfn. apply two_obind. intros gn Hgn. apply store_two; try done.
  destruct fn as [[]|hf fc], gn as [[]|hg gc];
    try (apply two_ret; [done|first [done|apply fit_term; [done|unfold bdd_one, bdd_zero, bdd_undet; lia]]]).
  appt w n m IH Hm Hfn Hgn.
  - apply (rec_two w m hf _ _ (λ m, bdd_or_f n m f1 g') (λ m, n_or_f w n m f1 g')); intros; solvet IH.
  - apply (rec_two w m hg _ _ (λ m, bdd_or_f n m f' g1) (λ m, n_or_f w n m f' g1)); intros; solvet IH.
  - apply (rec_two w m hf _ _ (λ m, bdd_or_f n m f1 g1) (λ m, n_or_f w n m f1 g1)); intros; solvet IH.
Qed.
Lemma xor_two w n : ∀ m f g, bfit m → f < blen m → g < blen m → bhd m ≤ cap w →
  btwo w m (bdd_xor_f n m f g) (n_xor_f w n m f g).
Proof.
  induction n as [|n IH]; intros m f g Hm Hf Hg HW; [apply two_none|].
  pose proof (not_two w (S n)) as IN. pose proof (not_mo w (S n)) as MO. cbn [bdd_xor_f n_xor_f].
  pose proof (xor_mo w n) as MN. destruct (f =? g).
  { apply two_ret; [done|]. destruct (f =? bdd_undet); apply fit_term; try done; unfold bdd_undet, bdd_zero; lia. }
  assert (∃ f' g', (if g <? f then (g, f) else (f, g)) = (f', g') ∧ f' < blen m ∧ g' < blen m) as (f' & g' & -> & Hf' & Hg').
  { destruct (g <? f); eauto. }
  apply get_look; try done.
  { intros x Hx. by apply two_ret. }
  2: { intros []; momo MN; apply MO. }
  apply two_obind. intros fn Hfn. apply two_obind. intros gn Hgn. apply store_two; try done.
  destruct fn as [[]|hf fc], gn as [[]|hg gc]; try (by apply IN);
    try (apply two_ret; [done|first [done|apply fit_term; [done|unfold bdd_one, bdd_zero, bdd_undet; lia]]]).
  appt w n m IH Hm Hfn Hgn.
  - apply (rec_two w m hf _ _ (λ m, bdd_xor_f n m f1 g') (λ m, n_xor_f w n m f1 g')); intros; solvet IH.
  - apply (rec_two w m hg _ _ (λ m, bdd_xor_f n m f' g1) (λ m, n_xor_f w n m f' g1)); intros; solvet IH.
  - apply (rec_two w m hf _ _ (λ m, bdd_xor_f n m f1 g1) (λ m, n_xor_f w n m f1 g1)); intros; solvet IH.
Qed.
Lemma cof_fit m f top a b : bfit m → f < blen m → bdd_cofactor m f top = Some (a, b) → a < blen m ∧ b < blen m.
Proof.
  intros Hm Hf. unfold bdd_cofactor. destruct (ar_node_level _ _) as [lv|]; [|done]. cbn [mbind option_bind].
  case_decide; [|by intros [= <- <-]]. destruct (ar_nodes (b_ar m) !! f) as [[t|h cs]|] eqn:E; cbn; [by intros [= <- <-]| |done].
  intros H1. by destruct (fit_edges _ _ _ _ _ _ Hm E H1) as (_ & ? & ?).
Qed.
Lemma top_fit m xs top h : bfit m → bdd_top_header m xs top = Some h → h < bhd m.
Proof.
  intros Hm. induction xs as [|x xs IH]; [done|]. cbn [bdd_top_header]. destruct (ar_node_level _ _); [|done]. cbn [mbind option_bind].
  case_decide; [|done]. destruct (ar_nodes (b_ar m) !! x) as [[t|h' cs]|] eqn:E; cbn; [done| |done].
  intros [= <-]. by destruct (fit_nt _ _ _ _ Hm E).
Qed.
Lemma ite_two w n : ∀ m f g h, bfit m → f < blen m → g < blen m → h < blen m → bhd m ≤ cap w →
  btwo w m (bdd_ite_f n m f g h) (n_ite_f w n m f g h).
Proof.
  induction n as [|n IH]; intros m f g h Hm Hf Hg Hh HW; [apply two_none|]. cbn [bdd_ite_f n_ite_f].
  pose proof (ite_mo w n) as MN. apply two_obind. intros fn Hfn.
  destruct fn as [[]|hf fc];
    try (apply two_ret; [done|first [done|apply fit_term; [done|unfold bdd_one, bdd_zero, bdd_undet; lia]]]).
  destruct (g =? h); [by apply two_ret|].
  apply iget_look; try done.
  { intros x Hx. by apply two_ret. }
  2: { intros []; momo MN. }
  apply two_obind. intros top0 _. apply two_obind. intros top1 _. apply two_obind. intros top _.
  apply two_obind. intros [f0 f1] Ef. apply two_obind. intros [g0 g1] Eg. apply two_obind. intros [h0 h1] Eh.
  apply cof_fit in Ef as []; [|done|done]. apply cof_fit in Eg as []; [|done|done]. apply cof_fit in Eh as []; [|done|done].
  apply two_obind. intros hid Eid. apply top_fit in Eid; [|done].
  apply (two_bind blen bhd bfit (cap w) m (bdd_ite_f n m f0 g0 h0) (n_ite_f w n m f0 g0 h0)); [by apply IH| |].
  2: { intros. momo MN. }
  intros m1 lo F1 L1 R1. cbn beta.
  apply (two_bind blen bhd bfit (cap w) m1 (bdd_ite_f n m1 f1 g1 h1) (n_ite_f w n m1 f1 g1 h1)).
  { apply IH; first [done|by eapply le_len|by eapply le_hd]. }
  2: { intros. momo MN. }
  intros m2 hi F2 L2 R2. cbn beta. unfold le in *.
  refine (two_bind blen bhd bfit (cap w) m2 (Some (bdd_create_node m2 hid lo hi)) (Some (n_create_node w m2 hid lo hi))
    (λ m r, m ← bdd_ite_put m f g h r; Some (m, r)) (λ m r, m ← n_ite_put w m f g h r; Some (m, r)) _ _ _).
  - apply create_two; try done; lia.
  - intros m3 r F3 L3 R3. unfold le in *. apply iput_two; try done; lia.
  - intros. apply iput_mo.
Qed.
