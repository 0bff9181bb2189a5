(** Handles of one BddMgr used with another: lemmas for C89. *)
From stdpp Require Import strings.
From Verif Require Import Prelude ComputeCache Arena Trees ArenaProofs Bdd BddProofs BssAlg BssMgr SpecBdd SpecBss SpecBssMgr BssLook SpecBssLook BddMain BssMgrProofs BssMgrMain BssLookProofs BssLookMain.

Global Set Default Goal Selector "!".

Definition cid (b : bool) : nat := if b then bdd_one else bdd_zero.

Lemma wrap_id w f w' r : w_wrap w f = Some (w', r) → r = f.
Proof. unfold w_wrap. destruct (maybe_gc _); [|done]. by intros [= _ <-]. Qed.

(** a constant function has the same handle in every manager *)
Lemma mixed_const w H g G b : bss_held w H → (g, G) ∈ H → (∀ e, G e = b) → g = cid b.
Proof.
  intros Hh Hg Hc. pose proof (held_wok w H Hh) as Hk.
  assert (∃ w', bss_held w' ((cid b, λ _, b) :: H)) as [w' Hh'].
  { destruct b.
    - destruct (w_one_ok w H Hk) as (w' & r & E & _). pose proof (wrap_id _ _ _ _ E) as ->. exists w'. eapply sh_step; [done|by apply st_one].
    - destruct (w_zero_ok w H Hk) as (w' & r & E & _). pose proof (wrap_id _ _ _ _ E) as ->. exists w'. eapply sh_step; [done|by apply st_zero]. }
  apply (held_eq w' _ g G (cid b) (λ _, b) Hh'); [by apply elem_of_list_further|apply elem_of_list_here|done].
Qed.

Lemma mixed_l w H f F w2 H2 g (G : nfun) b o : bss_held w H → (f, F) ∈ H → bss_held w2 H2 → (g, G) ∈ H2 → (∀ e, G e = b) →
  (w_eq f g = true ↔ ∀ e, F e = G e) ∧
  ∃ w' r, w_bin o w f g = Some (w', r) ∧ bdd_valid (w_bdd w') r ∧ (∀ e, bss_value (w_bdd w') e r (tvb (bop2_fun o (F e) (G e)))) ∧
    ∀ k K, (k, K) ∈ H → bdd_valid (w_bdd w') k ∧ ∀ e, bss_value (w_bdd w') e k (tvb (K e)).
Proof.
  intros Hh Hf Hh2 Hg Hc. rewrite (mixed_const w2 H2 g G b Hh2 Hg Hc). pose proof (held_wok w H Hh) as Hk. split.
  - unfold w_eq. rewrite Nat.eqb_eq. split.
    + intros -> e. rewrite Hc. pose proof (wk_held _ _ Hk _ _ Hf) as [_ Hv].
      assert (denotes (w_bdd w) (cid b) (λ _, b)) as [_ Hb] by (destruct b; apply (terminal_d w H Hk)).
      pose proof (sv_fun _ _ _ _ _ (Hv e) (Hb e)) as Ht. by destruct (F e), b.
    + intros He. apply (mixed_const w H f F b Hh Hf). intros e. by rewrite He.
  - assert (Hd : denotes (w_bdd w) (cid b) (λ _, b)) by (destruct b; apply (terminal_d w H Hk)).
    pose proof (wk_held _ _ Hk _ _ Hf) as Hdf.
    assert (Hgo : ∀ c, (∀ x y, conn_bool c x y = bop2_fun o x y) → w_bin o w f (cid b) = w_op w (bdd_conn c (w_bdd w) f (cid b)) →
      ∃ w' r, w_bin o w f (cid b) = Some (w', r) ∧ @wok base0 w' ((r, λ e, bop2_fun o (F e) b) :: H)).
    { intros c Hcb ->. destruct (inner_bin w H Hk c f F (cid b) (λ _, b) Hdf Hd) as (m & r & Heq & Hst & Hr).
      destruct (wok_op w H _ m r (λ e, bop2_fun o (F e) b) Hk Heq Hst) as (w' & ? & ?); [|by exists w', r].
      split; [apply Hr|]. intros e. rewrite <- Hcb. apply Hr. }
    assert (∃ w' r, w_bin o w f (cid b) = Some (w', r) ∧ @wok base0 w' ((r, λ e, bop2_fun o (F e) b) :: H)) as (w' & r & E & Hk').
    { destruct o; [apply (Hgo And)|apply (Hgo Or)|apply (Hgo Xor)]; done. }
    exists w', r. split; [done|]. destruct (wk_held _ _ Hk' r _ (elem_of_list_here _ _)) as [Vr Hr]. split; [done|]. split.
    + intros e. rewrite Hc. apply Hr.
    + intros k K Hin. apply (wk_held _ _ Hk'). by apply elem_of_list_further.
Qed.
