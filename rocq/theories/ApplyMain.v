(** The bounds on the number of evaluated calls, from the lists of keys. *)
From Verif Require Import Prelude ComputeCache ComputeCacheProofs CacheSpec Arena Trees ArenaProofs Bdd BssAlg BddProofs SpecBdd SpecBss SpecSize BddMain BssGates SizeBound
  Apply ApplyCache ApplyProofs.

Global Set Default Goal Selector "!".

Global Instance bop_eq_dec : EqDecision bop.
Proof. solve_decision. Defined.

(** ** Counting *)
Lemma length_le {A} `{EqDecision A} (l k : list A) : NoDup l → (∀ x, x ∈ l → x ∈ k) → length l ≤ length k.
Proof. intros Nd Hin. apply submseteq_length, NoDup_submseteq; done. Qed.

Lemma prod_length {A B} (F : list A) (G : list B) : length (x ← F; (λ y, (x, y)) <$> G) = length F * length G.
Proof. induction F as [|x F IH]; [done|]. cbn [mbind list_bind length]. rewrite app_length, fmap_length, IH. lia. Qed.
Lemma prod_elem {A B} (F : list A) (G : list B) x y : x ∈ F → y ∈ G → (x, y) ∈ (x ← F; (λ y, (x, y)) <$> G).
Proof. intros Hx Hy. apply elem_of_list_bind. exists x. split; [|done]. apply elem_of_list_fmap. by exists y. Qed.

(** [l] lists pairs that, one way round or the other, come from [F] and [G], each pair the same way round *)
Lemma pairs_le (l : list (nat * nat)) F G : NoDup l → (∀ k, k ∈ l → k.1 < k.2) →
  (∀ k, k ∈ l → (k.1 ∈ F ∧ k.2 ∈ G) ∨ (k.1 ∈ G ∧ k.2 ∈ F)) → length l ≤ length F * length G.
Proof.
  intros Nd Hlt Hin. set (t := λ k : nat * nat, if decide (k.1 ∈ F ∧ k.2 ∈ G) then k else (k.2, k.1)).
  rewrite <- (fmap_length t), <- prod_length. apply length_le.
  - apply NoDup_fmap_2_strong; [|done]. intros [a b] [c d] Hx Hy. apply Hlt in Hx, Hy. cbn [fst snd] in *. unfold t. cbn [fst snd].
    destruct (decide _), (decide _); intros [= -> ->]; try done; lia.
  - intros x (k & -> & Hk)%elem_of_list_fmap. unfold t. destruct (decide _) as [[D1 D2]|D].
    + destruct k. by apply prod_elem.
    + destruct (Hin k Hk) as [?|[? ?]]; [done|]. by apply prod_elem.
Qed.

(** ** and, or, xor *)
Definition ap_op (o : bop) : bdd → nat → nat → option (bdd * nat) :=
  match o with OpAnd => bdd_and | OpOr => bdd_or | OpXOr => bdd_xor | OpNot => λ m f _, bdd_not m f end.

Lemma ap_run o m f g : o ≠ OpNot → bwf m → bdd_valid m f → bdd_valid m g →
  ∃ m' r tr R, ap_op o m f g = Some (m', r) ∧ bdd_ap_t o m f g = Some (m', r, tr) ∧
    fresh (b_cache m) (kn <$> tr) (b_cache m') ∧ ∀ k, k ∈ tr → ap_key o (b_ar m) f g R k.
Proof.
  intros Ho Hw Hf Hg. destruct (valid_repr _ _ Hw Hf) as [df Hdf]. destruct (valid_repr _ _ Hw Hg) as [dg Hdg].
  pose proof (fuel_enough _ _ _ (bw_good _ Hw) Hdf) as Rf. pose proof (fuel_enough _ _ _ (bw_good _ Hw) Hdg) as Rg.
  destruct (ap_spec o (ar_fuel (b_ar m)) m f g df dg) as (m' & r & E & _); [done..|lia|].
  assert (ap_op o m f g = Some (m', r)) as E' by (by destruct o).
  rewrite <- ap_erase in E by done. unfold bdd_ap_t. destruct (bdd_ap_tf o (ar_fuel (b_ar m)) m f g) as [[[m1 r1] tr]|] eqn:Et; [|done].
  injection E as -> ->. exists m', r, tr, (rank df `max` rank dg). split; [done|]. split; [done|].
  apply (ap_fresh o _ Ho m m f g df dg) in Et as (_ & Fr & K); [done|done|by apply step_refl|done|done|lia].
Qed.

Lemma fresh_nodup {A} (q : A → key) `{!Inj (=) (=) q} c (tr : list A) c' : fresh c (q <$> tr) c' → occupied c' = occupied c + length tr → NoDup tr.
Proof. intros [_ H] He. destruct H as [Nd _]; [by rewrite fmap_length|]. by eapply NoDup_fmap_1. Qed.

Lemma ap_pairs o m f g R (tr : list (bop * nat * nat)) sf sg : o ≠ OpNot → bwf m → bdd_valid m f → bdd_valid m g →
  bdd_node_size m f = Some sf → bdd_node_size m g = Some sg →
  (∀ k, k ∈ tr → ap_key o (b_ar m) f g R k) → NoDup tr →
  (N.of_nat (length tr) ≤ vertices sf * vertices sg + if decide (o = OpXOr) then vertices sf + vertices sg else 0)%N.
Proof.
  intros Ho Hw Hf Hg Sf Sg K Nd.
  destruct (size_nodes m f Hw Hf) as (F & sf' & Sf' & Vf & NF & HF). rewrite Sf in Sf'. injection Sf' as <-.
  destruct (size_nodes m g Hw Hg) as (G & sg' & Sg' & Vg & NG & HG). rewrite Sg in Sg'. injection Sg' as <-.
  rewrite Vf, Vg. clear Vf Vg Sf Sg.
  assert (P : length (filter (λ k, k.1.1 = o) tr) ≤ length F * length G).
  { rewrite <- (fmap_length (λ k : bop * nat * nat, (k.1.2, k.2))).
    assert (∀ k, k ∈ filter (λ k : bop * nat * nat, k.1.1 = o) tr → k.1.1 = o ∧ k.1.2 < k.2 ∧ ((k.1.2 ∈ F ∧ k.2 ∈ G) ∨ (k.1.2 ∈ G ∧ k.2 ∈ F))) as K'.
    { intros k [Hk Hin]%elem_of_list_filter. rewrite !HF, !HG. destruct (K k Hin) as [(_ & Hlt & Hre & _)|(-> & Hno & _)]; [|congruence]. done. }
    apply pairs_le.
    - apply NoDup_fmap_2_strong; [|by apply NoDup_filter]. intros [[o1 a] b] [[o2 c] d] H1 H2 [= -> ->].
      destruct (K' _ H1) as [Q1 _]. destruct (K' _ H2) as [Q2 _]. cbn [fst] in *. by subst.
    - intros x (k & -> & Hk)%elem_of_list_fmap. cbn [fst snd]. by apply K'.
    - intros x (k & -> & Hk)%elem_of_list_fmap. cbn [fst snd]. by apply K'. }
  assert (Hsum : length tr = length (filter (λ k, k.1.1 = o) tr) + length (filter (λ k, k.1.1 ≠ o) tr)).
  { clear. induction tr as [|k tr IH]; [done|]. rewrite !filter_cons. destruct (decide (k.1.1 = o)); (destruct (decide (k.1.1 ≠ o)); [|try done]); try done; cbn [length]; lia. }
  assert (Q : length (filter (λ k, k.1.1 ≠ o) tr) ≤ if decide (o = OpXOr) then length F + length G else 0).
  { assert (∀ k, k ∈ filter (λ k : bop * nat * nat, k.1.1 ≠ o) tr → o = OpXOr ∧ k.1.1 = OpNot ∧ k.2 = 0 ∧ (k.1.2 ∈ F ∨ k.1.2 ∈ G)) as K'.
    { intros k [Hk Hin]%elem_of_list_filter. rewrite !HF, !HG. destruct (K k Hin) as [(? & _)|?]; done. }
    destruct (decide (o = OpXOr)) as [Hx|Hx].
    - rewrite <- app_length, <- (fmap_length (λ k : bop * nat * nat, k.1.2)). apply length_le.
      + apply NoDup_fmap_2_strong; [|by apply NoDup_filter]. intros [[o1 a] b] [[o2 c] d] H1 H2 Heq. cbn [fst snd] in Heq. subst c.
        destruct (K' _ H1) as (_ & Q1 & Q1' & _). destruct (K' _ H2) as (_ & Q2 & Q2' & _). cbn [fst snd] in *. by subst.
      + intros x (k & -> & Hk)%elem_of_list_fmap. apply elem_of_app. by apply K'.
    - destruct (filter (λ k : bop * nat * nat, k.1.1 ≠ o) tr) as [|k l]; [apply Nat.le_0_l|]. destruct (K' k) as [? _]; [apply elem_of_list_here|done]. }
  destruct (decide (o = OpXOr)); lia.
Qed.

(** Same for every list of distinct evaluated calls, whatever was lost. *)
Lemma ap_l o m f g sf sg : o ≠ OpNot → bwf m → bdd_valid m f → bdd_valid m g →
  bdd_node_size m f = Some sf → bdd_node_size m g = Some sg →
  let bound := (vertices sf * vertices sg + if decide (o = OpXOr) then vertices sf + vertices sg else 0)%N in
  ∃ m' r tr, ap_op o m f g = Some (m', r) ∧ bdd_ap_t o m f g = Some (m', r, tr) ∧
    (N.of_nat (length (remove_dups tr)) ≤ bound)%N ∧
    (occupied (b_cache m') = occupied (b_cache m) + length tr → NoDup tr ∧ (N.of_nat (length tr) ≤ bound)%N).
Proof.
  intros Ho Hw Hf Hg Sf Sg bound. destruct (ap_run o m f g Ho Hw Hf Hg) as (m' & r & tr & R & E & Et & Fr & K).
  exists m', r, tr. split; [done|]. split; [done|]. split.
  - apply (ap_pairs o m f g R); try done; [|apply NoDup_remove_dups]. intros k Hk. apply K. by apply elem_of_remove_dups.
  - intros Hocc. pose proof (fresh_nodup kn _ _ _ Fr Hocc) as Nd. split; [done|]. by apply (ap_pairs o m f g R).
Qed.

(** ** not *)
Lemma not_l m f sf : bwf m → bdd_valid m f → bdd_node_size m f = Some sf →
  ∃ m' r tr, bdd_not m f = Some (m', r) ∧ bdd_not_t m f = Some (m', r, tr) ∧
    (N.of_nat (length (remove_dups tr)) ≤ vertices sf)%N ∧
    (occupied (b_cache m') = occupied (b_cache m) + length tr → NoDup tr ∧ (N.of_nat (length tr) ≤ vertices sf)%N).
Proof.
  intros Hw Hf Sf. destruct (valid_repr _ _ Hw Hf) as [df Hdf]. pose proof (fuel_enough _ _ _ (bw_good _ Hw) Hdf) as Rf.
  destruct (not_spec (ar_fuel (b_ar m)) m f df) as (m' & r & dr & E & _); [done..|].
  assert (bdd_not m f = Some (m', r)) as E' by done.
  rewrite <- not_erase in E. unfold bdd_not_t. destruct (bdd_not_tf (ar_fuel (b_ar m)) m f) as [[[m1 r1] tr]|] eqn:Et; [|done].
  injection E as -> ->. exists m', r, tr. split; [done|]. split; [done|].
  apply (not_fresh _ m m f df) in Et as (_ & Fr & K); [|done|by apply step_refl|done|done].
  destruct (size_nodes m f Hw Hf) as (F & sf' & Sf' & Vf & NF & HF). rewrite Sf in Sf'. injection Sf' as <-.
  assert (∀ l : list (bop * nat * nat), NoDup l → (∀ k, k ∈ l → k ∈ tr) → (N.of_nat (length l) ≤ vertices sf)%N) as B.
  { intros l Nl Hl. rewrite Vf, <- (fmap_length (λ k : bop * nat * nat, k.1.2)). enough (length ((λ k : bop * nat * nat, k.1.2) <$> l) ≤ length F) by lia. apply length_le.
    - apply NoDup_fmap_2_strong; [|done]. intros [[o1 a] b] [[o2 c] d] H1%Hl H2%Hl Heq. cbn [fst snd] in Heq. subst c.
      destruct (K _ H1) as (Q1 & Q1' & _). destruct (K _ H2) as (Q2 & Q2' & _). cbn [fst snd] in *. by subst.
    - intros x (k & -> & Hk%Hl)%elem_of_list_fmap. apply HF. by apply K. }
  split; [apply B; [apply NoDup_remove_dups|intros k Hk; by apply elem_of_remove_dups]|].
  intros Hocc. pose proof (fresh_nodup kn _ _ _ Fr Hocc) as Nd. split; [done|]. by apply B.
Qed.

(** ** if-then-else *)
Lemma ite_l m f g h sf sg sh : bwf m → bdd_valid m f → bdd_valid m g → bdd_valid m h →
  bdd_node_size m f = Some sf → bdd_node_size m g = Some sg → bdd_node_size m h = Some sh →
  ∃ m' r tr, bdd_ite m f g h = Some (m', r) ∧ bdd_ite_t m f g h = Some (m', r, tr) ∧
    (N.of_nat (length (remove_dups tr)) ≤ vertices sf * vertices sg * vertices sh)%N ∧
    (occupied (b_ite m') = occupied (b_ite m) + length tr → NoDup tr ∧ (N.of_nat (length tr) ≤ vertices sf * vertices sg * vertices sh)%N).
Proof.
  intros Hw Hf Hg Hh Sf Sg Sh. destruct (valid_repr _ _ Hw Hf) as [df Hdf]. destruct (valid_repr _ _ Hw Hg) as [dg Hdg]. destruct (valid_repr _ _ Hw Hh) as [dh Hdh].
  pose proof (fuel_enough _ _ _ (bw_good _ Hw) Hdf) as Rf. pose proof (fuel_enough _ _ _ (bw_good _ Hw) Hdg) as Rg. pose proof (fuel_enough _ _ _ (bw_good _ Hw) Hdh) as Rh.
  destruct (ite_spec (ar_fuel (b_ar m)) m f g h df dg dh) as (m' & r & dr & E & _); [done|done|done|done|lia|].
  assert (bdd_ite m f g h = Some (m', r)) as E' by done.
  rewrite <- ite_erase in E. unfold bdd_ite_t. destruct (bdd_ite_tf (ar_fuel (b_ar m)) m f g h) as [[[m1 r1] tr]|] eqn:Et; [|done].
  injection E as -> ->. exists m', r, tr. split; [done|]. split; [done|].
  apply (ite_fresh _ m m f g h df dg dh) in Et as (_ & Fr & K); [|done|by apply step_refl|done|done|done|lia].
  destruct (size_nodes m f Hw Hf) as (F & sf' & Sf' & Vf & NF & HF). rewrite Sf in Sf'. injection Sf' as <-.
  destruct (size_nodes m g Hw Hg) as (G & sg' & Sg' & Vg & NG & HG). rewrite Sg in Sg'. injection Sg' as <-.
  destruct (size_nodes m h Hw Hh) as (H & sh' & Sh' & Vh & NH & HH). rewrite Sh in Sh'. injection Sh' as <-.
  assert (∀ l : list (nat * nat * nat), NoDup l → (∀ k, k ∈ l → k ∈ tr) → (N.of_nat (length l) ≤ vertices sf * vertices sg * vertices sh)%N) as B.
  { intros l Nl Hl. rewrite Vf, Vg, Vh. enough (length l ≤ length F * length G * length H) by lia.
    rewrite <- !prod_length. apply length_le; [done|]. intros [[a b] c] Hk%Hl. destruct (K _ Hk) as (K1 & K2 & K3 & _). cbn [fst snd] in *.
    apply prod_elem; [apply prod_elem; [by apply HF|by apply HG]|by apply HH]. }
  split; [apply B; [apply NoDup_remove_dups|intros k Hk; by apply elem_of_remove_dups]|].
  intros Hocc. pose proof (fresh_nodup kn3 _ _ _ Fr Hocc) as Nd. split; [done|]. by apply B.
Qed.
