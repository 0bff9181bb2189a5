(** The if-then-else of each manager against the formula it replaced (internal lemmas for C76). *)
From Verif Require Import Prelude ComputeCache Arena Trees ArenaProofs Bdd Mdd MtMdd MtMdd2 ArenaMore.
From Verif Require Import SpecBdd BddProofs BddMain SpecIte.

Lemma bdd_levels_headers m m' : ar_headers (b_ar m') = ar_headers (b_ar m) → bdd_levels_distinct m → bdd_levels_distinct m'.
Proof. unfold bdd_levels_distinct. by intros ->. Qed.

Lemma bdd_ite_formula m f g h : bwf m → bdd_levels_distinct m → bdd_valid m f → bdd_valid m g → bdd_valid m h →
  (∀ rho id, id ∈ [f; g; h] → ¬ bdd_value m rho id TUndet) →
  ∃ m1 r m2, bdd_ite m f g h = Some (m1, r) ∧ bdd_if_formula m1 f g h = Some (m2, r).
Proof.
  intros Hw Hd Vf Vg Vh Hdet.
  destruct (valid_repr _ _ Hw Vf) as [df Hf]. destruct (valid_repr _ _ Hw Vg) as [dg Hg]. destruct (valid_repr _ _ Hw Vh) as [dh Hh].
  assert (Hdf : ∀ rho, ev (asg rho) df ≠ TUndet).
  { intros rho He. apply (Hdet rho f); [set_solver|]. eapply ev_val; [apply Hw|done|done]. }
  assert (Hdg : ∀ rho, ev (asg rho) dg ≠ TUndet).
  { intros rho He. apply (Hdet rho g); [set_solver|]. eapply ev_val; [apply Hw|done|done]. }
  assert (Hdh : ∀ rho, ev (asg rho) dh ≠ TUndet).
  { intros rho He. apply (Hdet rho h); [set_solver|]. eapply ev_val; [apply Hw|done|done]. }
  destruct (bdd_ite_ok m f g h df dg dh Hw Hf Hg Hh) as (m1 & r & dr & -> & (Hw1 & He1 & Hh1) & Hr & _ & Pr).
  exists m1, r. unfold bdd_if_formula.
  destruct (bdd_and_ok m1 f g df dg Hw1) as (m2 & a & da & -> & (Hw2 & He2 & Hh2) & Ha & _ & Pa); try by eapply repr_mono.
  cbn [mbind option_bind].
  assert (He12 : ext (b_ar m) (b_ar m2)) by by eapply ext_trans.
  destruct (bdd_not_ok m2 f df Hw2) as (m3 & n & dn & -> & (Hw3 & He3 & Hh3) & Hn & _ & Pn); [by eapply repr_mono|].
  cbn [mbind option_bind].
  assert (He13 : ext (b_ar m) (b_ar m3)) by by eapply ext_trans.
  destruct (bdd_and_ok m3 n h dn dh Hw3) as (m4 & b & db & -> & (Hw4 & He4 & Hh4) & Hb & _ & Pb); [done|by eapply repr_mono|].
  cbn [mbind option_bind].
  destruct (bdd_or_ok m4 a b da db Hw4) as (m5 & s & ds & -> & (Hw5 & He5 & Hh5) & Hs & _ & Ps); [|done|].
  { eapply repr_mono; [|exact Ha]. by eapply ext_trans. }
  exists m5. split; [done|]. do 2 f_equal.
  eapply (canonical_wf m5); [done| |by eapply repr_live| |].
  { eapply bdd_levels_headers; [|exact Hd]. congruence. }
  { eapply repr_live, repr_mono; [|exact Hr]. eapply ext_trans; [exact He2|]. eapply ext_trans; [exact He3|]. by eapply ext_trans. }
  intros rho t Ht. eapply val_ev in Ht; [|apply Hw5|done].
  eapply ev_val; [apply Hw5| |].
  { eapply repr_mono; [|exact Hr]. eapply ext_trans; [exact He2|]. eapply ext_trans; [exact He3|]. by eapply ext_trans. }
  specialize (Pr _ (asg_ok rho)). specialize (Pa _ (asg_ok rho)). specialize (Pn _ (asg_ok rho)). specialize (Pb _ (asg_ok rho)).
  specialize (Ps _ (asg_ok rho)). specialize (Hdf rho). specialize (Hdg rho). specialize (Hdh rho).
  unfold Rnot in Pn.
  assert (Ea : ev (asg rho) da = kand (ev (asg rho) df) (ev (asg rho) dg)) by (destruct Pa as [?|[_ [?|?]]]; done).
  assert (Hnu : ev (asg rho) dn ≠ TUndet) by (rewrite Pn; by destruct (ev (asg rho) df)).
  assert (Eb : ev (asg rho) db = kand (ev (asg rho) dn) (ev (asg rho) dh)) by (destruct Pb as [?|[_ [?|?]]]; done).
  rewrite Pn in Eb. unfold Ror in Ps. rewrite Ea, Eb in Ps. rewrite <- Ht. clear - Pr Ps Hdf Hdg Hdh.
  destruct (ev (asg rho) df); cbn in *; [| |done]; subst.
  - destruct (ev (asg rho) dg), (ev (asg rho) dh); cbn in *; destruct Ps as [->|[-> [?|?]]]; done.
  - destruct (ev (asg rho) dg), (ev (asg rho) dh); cbn in *; destruct Ps as [->|[-> [?|?]]]; done.
Qed.
