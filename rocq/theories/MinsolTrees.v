(** Minimal solutions on trees: the satisfying sets of a boolean diagram, its minimal ones, and
    families read off BDD nodes. *)
From Verif Require Import Prelude ComputeCache Arena Trees ArenaProofs Bdd BddProofs SpecBdd BddMain Zdd ZddTrees.

(** no undetermined leaf *)
Fixpoint noU (d : dd tv) : Prop :=
  match d with
  | Leaf t => t ≠ TUndet
  | Br _ cs => (fix all l := match l with [] => True | c :: l => noU c ∧ all l end) cs
  end.
Lemma noU_br2 hd d0 d1 : noU (Br hd [d0; d1]) ↔ noU d0 ∧ noU d1.
Proof. cbn. naive_solver. Qed.

Definition chi (S : gset nat) : nat → bool := λ l, bool_decide (l ∈ S).
Definition sat (S : gset nat) (d : dd tv) : Prop := ev (asg (chi S)) d = TOne.
Global Instance sat_dec S d : Decision (sat S d).
Proof. unfold sat. destruct (ev _ _); [right|left|right]; done. Defined.

Lemma noU_zdet d : okdd E2 d → noU d → zdet d.
Proof.
  induction d as [t|hd ds IH] using dd_ind'; intros Ho Hn S.
  - cbn in *. by destruct (decide _).
  - destruct (ok2 _ _ Ho) as (lo & hi & -> & _ & _ & O0 & O1). apply noU_br2 in Hn as [N0 N1].
    rewrite !Forall_cons in IH. destruct IH as (IH0 & IH1 & _). cbn [zev].
    destruct (decide _); [by apply IH1|by apply IH0].
Qed.

Lemma noU_ev ρ d : okdd E2 d → vok E2 ρ → noU d → ev ρ d = TZero ∨ ev ρ d = TOne.
Proof.
  intros Ho Hv. induction d as [t|hd ds IH] using dd_ind'; intros Hn.
  - rewrite ev_leaf. cbn in Hn. destruct t; [by left|by right|done].
  - destruct (ok2 _ _ Ho) as (lo & hi & -> & _ & _ & O0 & O1). apply noU_br2 in Hn as [N0 N1].
    rewrite !Forall_cons in IH. destruct IH as (IH0 & IH1 & _). rewrite ev_br2 by done.
    destruct (_ =? _); auto.
Qed.

(** determined at every assignment = no undetermined leaf *)
Lemma det_noU d : okdd E2 d → (∀ rho, ev (asg rho) d ≠ TUndet) → noU d.
Proof.
  intros Ho. induction d as [t|hd ds IH] using dd_ind'; intros Hd.
  - specialize (Hd (λ _, false)). by rewrite ev_leaf in Hd.
  - destruct (ok2 _ _ Ho) as (lo & hi & -> & R0 & R1 & O0 & O1). rewrite !Forall_cons in IH.
    destruct IH as (IH0 & IH1 & _). apply noU_br2.
    assert (Hb : ∀ (b : bool) rho, ev (asg rho) (if b then hi else lo) ≠ TUndet).
    { intros b rho Hu. apply (Hd (λ l, if decide (l = h_level hd) then b else rho l)).
      rewrite ev_br2 by apply asg_ok. unfold asg at 2. rewrite decide_True by done.
      rewrite <- Hu. unfold ev. f_equal. destruct b; cbn.
      - apply (eval_agree E2); [done|]. intros l Hl. unfold asg. rewrite decide_False by lia. done.
      - apply (eval_agree E2); [done|]. intros l Hl. unfold asg. rewrite decide_False by lia. done. }
    split; [apply IH0; [done|apply (Hb false)]|apply IH1; [done|apply (Hb true)]].
Qed.

Lemma sat_br S hd d0 d1 : sat S (Br hd [d0; d1]) ↔ if decide (h_level hd ∈ S) then sat S d1 else sat S d0.
Proof.
  unfold sat. rewrite ev_br2 by apply asg_ok.
  assert (asg (chi S) (h_level hd) = if decide (h_level hd ∈ S) then 1 else 0) as ->.
  { unfold asg, chi. destruct (decide (h_level hd ∈ S)); [by rewrite bool_decide_true|by rewrite bool_decide_false]. }
  by destruct (decide _).
Qed.

Lemma sat_agree S S' d : okdd E2 d → (∀ l, l < rank d → l ∈ S ↔ l ∈ S') → sat S d ↔ sat S' d.
Proof.
  intros Ho Ha. unfold sat, ev. rewrite (eval_agree E2 (asg (chi S)) (asg (chi S')) d); [done|done|].
  intros l Hl. unfold asg, chi. by rewrite (bool_decide_ext _ _ (Ha l Hl)).
Qed.
Lemma sat_add S l d : okdd E2 d → rank d ≤ l → sat ({[l]} ∪ S) d ↔ sat S d.
Proof. intros Ho Hr. apply sat_agree; [done|]. intros l' Hl. set_solver by lia. Qed.
Lemma sat_del S l d : okdd E2 d → rank d ≤ l → sat (S ∖ {[l]}) d ↔ sat S d.
Proof. intros Ho Hr. apply sat_agree; [done|]. intros l' Hl. set_solver by lia. Qed.

(** a member of the family read off a diagram satisfies the function read off the same diagram *)
Lemma zmem_sat S d : okdd E2 d → zmem S d → sat S d.
Proof.
  revert S. induction d as [t|hd ds IH] using dd_ind'; intros S Ho Hz.
  - unfold zmem in Hz. cbn in Hz. unfold sat. rewrite ev_leaf. by destruct (decide _).
  - destruct (ok2 _ _ Ho) as (lo & hi & -> & R0 & R1 & O0 & O1). rewrite !Forall_cons in IH.
    destruct IH as (IH0 & IH1 & _). apply sat_br. unfold zmem in Hz. cbn [zev] in Hz.
    destruct (decide _); [|by apply IH0].
    apply (sat_del _ (h_level hd)); [done|done|]. by apply IH1.
Qed.

Lemma ev_set ρ d n : okdd E2 d → vok E2 ρ → rank d ≤ n →
  ev ρ d = ev (asg (chi (list_to_set (filter (λ l, ρ l = 1) (seq 0 n))))) d.
Proof.
  intros Ho Hv Hr. unfold ev. f_equal. apply (eval_agree E2); [done|]. intros l Hl.
  unfold asg, chi. destruct (vok_2 ρ l Hv) as [E|E]; rewrite E.
  - rewrite bool_decide_false; [done|]. rewrite elem_of_list_to_set, elem_of_list_filter. lia.
  - rewrite bool_decide_true; [done|]. rewrite elem_of_list_to_set, elem_of_list_filter, elem_of_seq. lia.
Qed.

(** ** Monotone functions and minimal sets *)
Definition mono (d : dd tv) : Prop := ∀ S S', S ⊆ S' → sat S d → sat S' d.
Definition minset (d : dd tv) (S : gset nat) : Prop := sat S d ∧ ∀ S', S' ⊂ S → ¬ sat S' d.
Definition anti (d : dd tv) : Prop := ∀ A B, zmem A d → zmem B d → A ⊆ B → A = B.

Lemma mono_br hd d0 d1 : okdd E2 (Br hd [d0; d1]) →
  mono (Br hd [d0; d1]) ↔ mono d0 ∧ mono d1 ∧ ∀ S, sat S d0 → sat S d1.
Proof.
  intros Ho. destruct (ok2 _ _ Ho) as (? & ? & [= <- <-] & R0 & R1 & O0 & O1).
  set (l := h_level hd) in *. split.
  - intros Hm. sp.
    + intros S S' Hs Hsat. apply (sat_del _ l) in Hsat; [|done|done]. apply (sat_del _ l); [done|done|].
      specialize (Hm (S ∖ {[l]}) (S' ∖ {[l]})). rewrite !sat_br in Hm. fold l in Hm.
      rewrite !decide_False in Hm by set_solver. apply Hm; [set_solver|done].
    + intros S S' Hs Hsat. apply (sat_add _ l) in Hsat; [|done|done]. apply (sat_add _ l); [done|done|].
      specialize (Hm ({[l]} ∪ S) ({[l]} ∪ S')). rewrite !sat_br in Hm. fold l in Hm.
      rewrite !decide_True in Hm by set_solver. apply Hm; [set_solver|done].
    + intros S Hsat. apply (sat_del _ l) in Hsat; [|done|done]. apply (sat_add _ l); [done|done|].
      specialize (Hm (S ∖ {[l]}) ({[l]} ∪ S)). rewrite !sat_br in Hm. fold l in Hm.
      rewrite decide_False in Hm by set_solver. rewrite decide_True in Hm by set_solver.
      apply Hm; [set_solver|done].
  - intros (M0 & M1 & H01) S S' Hs. rewrite !sat_br. fold l.
    destruct (decide (l ∈ S)); destruct (decide (l ∈ S')).
    + by apply M1.
    + set_solver.
    + intros H. apply H01. by eapply M0.
    + by apply M0.
Qed.

Lemma minset_br0 hd d0 d1 S : okdd E2 (Br hd [d0; d1]) → h_level hd ∉ S →
  minset (Br hd [d0; d1]) S ↔ minset d0 S.
Proof.
  intros Ho Hl. unfold minset. rewrite sat_br, decide_False by done.
  split; intros [Hs Hm]; (split; [done|]); intros S' HS'; specialize (Hm S' HS');
    rewrite sat_br, decide_False in *; try done; set_solver.
Qed.
Lemma minset_br1 hd d0 d1 S : okdd E2 (Br hd [d0; d1]) → mono (Br hd [d0; d1]) → h_level hd ∉ S →
  minset (Br hd [d0; d1]) ({[h_level hd]} ∪ S) ↔ minset d1 S ∧ ¬ sat S d0.
Proof.
  intros Ho Hmo Hl. destruct (ok2 _ _ Ho) as (? & ? & [= <- <-] & R0 & R1 & O0 & O1).
  apply mono_br in Hmo as (M0 & M1 & H01); [|done].
  unfold minset. rewrite sat_br, decide_True by set_solver. rewrite sat_add by done. split.
  - intros [Hs Hm]. sp; [done| |].
    + intros S' HS' Hsat. apply (Hm ({[h_level hd]} ∪ S')); [set_solver|].
      rewrite sat_br, decide_True by set_solver. by apply sat_add.
    + intros Hsat. apply (Hm S); [set_solver|]. by rewrite sat_br, decide_False by done.
  - intros [[Hs Hm] Hn]. split; [done|]. intros S' HS'. rewrite sat_br.
    destruct (decide (h_level hd ∈ S')) as [Hi|Hi].
    + intros Hsat. apply (sat_del _ (h_level hd)) in Hsat; [|done|done].
      eapply Hm; [|exact Hsat]. set_solver.
    + intros Hsat. apply Hn. eapply M0; [|exact Hsat]. set_solver.
Qed.

(** the minimal sets are pairwise incomparable *)
Lemma minset_anti df dr : (∀ S, zmem S dr ↔ minset df S) → anti dr.
Proof.
  intros H A B HA%H HB%H HAB. destruct HA as [HA _]. destruct HB as [_ HB].
  destruct (decide (A = B)) as [|Hne]; [done|]. exfalso. apply (HB A); [|done].
  split; [done|]. intros HBA. apply Hne. set_solver.
Qed.

Lemma anti_br hd d0 d1 : okdd E2 (Br hd [d0; d1]) → anti (Br hd [d0; d1]) →
  anti d0 ∧ anti d1 ∧ ∀ S, zmem S d0 → zmem S d1 → False.
Proof.
  intros Ho Ha. pose proof (zsplit_br _ _ _ Ho) as Hs. set (l := h_level hd) in *.
  assert (F0 : ∀ S, zmem S d0 → l ∉ S) by (intros S Hz Hl; unfold zmem in Hz; by rewrite (zsplit_z0 _ _ _ _ _ Hs) in Hz).
  assert (F1 : ∀ S, zmem S d1 → l ∉ S) by (intros S Hz Hl; unfold zmem in Hz; by rewrite (zsplit_z1 _ _ _ _ _ Hs) in Hz).
  assert (I0 : ∀ S, zmem S d0 → zmem S (Br hd [d0; d1])).
  { intros S Hz. unfold zmem. by rewrite (zsplit_0 _ _ _ _ _ Hs) by auto. }
  assert (I1 : ∀ S, zmem S d1 → zmem ({[l]} ∪ S) (Br hd [d0; d1])).
  { intros S Hz. unfold zmem. by rewrite (zsplit_1 _ _ _ _ _ Hs) by auto. }
  sp.
  - intros A B HA HB. apply Ha; auto.
  - intros A B HA HB HAB. assert ({[l]} ∪ A = {[l]} ∪ B) as He by (apply Ha; auto; set_solver).
    pose proof (F1 _ HA). pose proof (F1 _ HB). set_solver.
  - intros S H0 H1. assert (S = {[l]} ∪ S) as He by (apply Ha; auto; set_solver).
    apply (F0 _ H0). rewrite He. set_solver.
Qed.

(** ** Reduced BDDs without members are the zero leaf *)
Lemma empty_zero d : okdd E2 d → redd d → noU d → (∀ S, ¬ zmem S d) → d = Leaf TZero.
Proof.
  induction d as [t|hd ds IH] using dd_ind'; intros Ho Hr Hn He.
  - destruct t; [done| |done]. destruct (He ∅). done.
  - exfalso. pose proof Ho as Ho'. destruct (ok2 _ _ Ho) as (lo & hi & -> & R0 & R1 & O0 & O1).
    rewrite !Forall_cons in IH. destruct IH as (IH0 & IH1 & _).
    apply noU_br2 in Hn as [N0 N1]. apply redd_br in Hr as [Hne Hr].
    rewrite !Forall_cons in Hr. destruct Hr as (Q0 & Q1 & _).
    pose proof (zsplit_br _ _ _ Ho') as Hs.
    apply Hne. exists (Leaf TZero). repeat constructor; symmetry.
    + apply IH0; try done. intros S Hz. destruct (decide (h_level hd ∈ S)) as [Hl|Hl].
      * unfold zmem in Hz. by rewrite (zsplit_z0 _ _ _ _ _ Hs) in Hz.
      * apply (He S). unfold zmem. by rewrite (zsplit_0 _ _ _ _ _ Hs).
    + apply IH1; try done. intros S Hz. destruct (decide (h_level hd ∈ S)) as [Hl|Hl].
      * unfold zmem in Hz. by rewrite (zsplit_z1 _ _ _ _ _ Hs) in Hz.
      * apply (He ({[h_level hd]} ∪ S)). unfold zmem. by rewrite (zsplit_1 _ _ _ _ _ Hs).
Qed.
