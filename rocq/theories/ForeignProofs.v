(** An operation given the number of any node that is in use in the forest. *)
From stdpp Require Import strings.
From Verif Require Import Prelude ComputeCache ComputeCacheProofs Arena Trees ArenaProofs Keeps Bdd BddProofs BddMain BssAlg BssMgr SpecBdd SpecBss SpecBssMgr SpecForeign BssMgrProofs BssMgrMain.

Lemma later_wok {B} w H w' H' : @wok B w H → bss_later w H w' H' → @wok B w' H'.
Proof. intros Hk. induction 1 as [|w1 H1 w2 H2 _ IH Hs]; [done|]. by eapply step_wok. Qed.

Definition pinned (a : arena tv) (r : nat) : base := Base [] [(a, r)].
Lemma wok_pinned w H r : @wok base0 w H → bdd_valid (w_bdd w) r → @wok (pinned (b_ar (w_bdd w)) r) (w_pin w r) H.
Proof.
  intros [Hw Hl Hs Hv Hla Hnd [l [Hr Hp]] Hh Hb] Hd. constructor; cbn [w_pin w_bdd w_vars w_roots]; try done.
  - exists (r :: l). split; [by rewrite Hr|]. rewrite Hp. cbn. rewrite app_nil_r, app_assoc. apply Permutation_cons_append.
  - split; [by apply prefix_nil|]. intros a0 f Heq%elem_of_list_singleton. injection Heq as -> ->.
    eapply keeps_refl; [apply Hw|]. by intros ? ->%elem_of_list_singleton.
Qed.
Lemma wok_unpinned a w H r : @wok (pinned a r) w H → @wok base0 (w_drop w r) H.
Proof.
  intros [Hw Hl Hs Hv Hla Hnd [l [Hr Hp]] Hh Hb]. constructor; cbn [w_drop w_bdd w_vars w_roots]; try done.
  - exists (H.*1 ++ (map_to_list (w_vars w)).*2 ++ []). split; [|done]. rewrite Hr, (roots_perm l (r :: H.*1 ++ (map_to_list (w_vars w)).*2 ++ [])).
    + apply unpin_pin.
    + rewrite Hp. cbn. rewrite app_nil_r, app_assoc. symmetry. apply Permutation_cons_append.
  - split; [by apply prefix_nil|]. intros a0 f Hin. by apply elem_of_nil in Hin.
Qed.

Lemma bin_live o w H f F g : bss_held w H → (f, F) ∈ H → bdd_valid (w_bdd w) g →
  ∃ w' r a, w_bin o w f g = Some (w', r) ∧ @wok (pinned a r) w' H.
Proof.
  intros Hk%held_wok Hf Vg. pose proof (wk_held _ _ Hk _ _ Hf) as [Vf _].
  assert (Hgo : ∀ c, w_bin o w f g = w_op w (bdd_conn c (w_bdd w) f g) →
    ∃ w' r a, w_bin o w f g = Some (w', r) ∧ @wok (pinned a r) w' H).
  { intros c ->. destruct (conn_v (w_bdd w) c f g (wk_wf _ _ Hk) Vf Vg) as (b & r & -> & Hst & Vr & _).
    pose proof (wok_step _ _ _ Hk Hst) as Hk1. pose proof (wok_pinned (with_bdd w b) H r Hk1 Vr) as Hk2.
    unfold w_op, w_wrap. cbn [mbind option_bind]. destruct (wok_maybe_gc _ _ Hk2) as (w' & -> & Hk3).
    cbn [mbind option_bind]. eauto. }
  destruct o; [apply (Hgo And)|apply (Hgo Or)|apply (Hgo Xor)]; done.
Qed.
Definition right (w : bmgr) (H : list (nat * nfun)) : Prop :=
  ∀ h K, (h, K) ∈ H → bdd_valid (w_bdd w) h ∧ ∀ e, bss_value (w_bdd w) e h (tvb (K e)).
Lemma bin_harmless o w H f F g : bss_held w H → (f, F) ∈ H → bdd_valid (w_bdd w) g →
  ∃ w' r, w_bin o w f g = Some (w', r) ∧
    ∀ w1 H1, bss_later w' H w1 H1 → right w1 H1 ∧ ∀ w2 H2, bss_later (w_drop w1 r) H1 w2 H2 → right w2 H2.
Proof.
  intros Hw Hf Vg. destruct (bin_live o w H f F g Hw Hf Vg) as (w' & r & a & Heq & Hk). exists w', r. split; [done|].
  intros w1 H1 Hl. pose proof (later_wok _ _ _ _ Hk Hl) as Hk1. split.
  - intros h K Hh. by apply Hk1.
  - intros w2 H2 Hd h K Hh. pose proof (later_wok _ _ _ _ (wok_unpinned _ _ _ _ Hk1) Hd) as Hk2. by apply Hk2.
Qed.

(** a number outside the arena *)
Lemma beyond_miss m o f g : bwf m → length (ar_nodes (b_ar m)) ≤ g → bdd_cache_get m o f g = Some None.
Proof.
  intros Hw Hg. rewrite (cache_get_eq _ _ _ _ Hw). destruct (cfind _ _) as [v|] eqn:Hc; [|done].
  apply (bw_cok _ Hw) in Hc as (_ & dg & _ & _ & Hr & _). cbn in Hr. rewrite Nat2N.id in Hr. apply repr_live in Hr as [Hl _]. lia.
Qed.
Lemma bin_beyond o w H f F g : bss_held w H → (f, F) ∈ H → length (ar_nodes (b_ar (w_bdd w))) ≤ g → w_bin o w f g = None.
Proof.
  intros Hk%held_wok Hf Hg. pose proof (wk_held _ _ Hk _ _ Hf) as [[Vf _] _]. pose proof (wk_wf _ _ Hk) as Hw.
  assert ((f =? g) = false) as E1 by (apply Nat.eqb_neq; lia). assert ((g <? f) = false) as E2 by (apply Nat.ltb_ge; lia).
  assert (ar_nodes (b_ar (w_bdd w)) !! g = None) as E3 by (by apply lookup_ge_None_2).
  destruct o; cbn [w_bin]; unfold w_and, w_or, w_xor, bdd_and, bdd_or, bdd_xor, ar_fuel;
    cbn [bdd_and_f bdd_or_f bdd_xor_f]; rewrite E1, E2; cbv beta iota;
    rewrite (beyond_miss _ _ f g Hw Hg); cbn [mbind option_bind]; rewrite E3;
    destruct (ar_nodes (b_ar (w_bdd w)) !! f); done.
Qed.
