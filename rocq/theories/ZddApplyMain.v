(** The bound on the number of evaluated pairs of the ZDD operations. *)
From Verif Require Import Prelude Arena Trees ArenaProofs ArenaMore Bdd BddProofs BssAlg SpecBdd SpecBss Zdd ZddTrees ZddProofs ZddAlg SpecZdd SpecSize ZddMain BssSize ApplyProofs ApplyMain ZddApply ZddApplyProofs.

Global Set Default Goal Selector "!".

Lemma znodes m f : zwf m → zdd_valid m f → ∃ l s, zdd_node_size m f = Some s ∧ vertices s = N.of_nat (length l) ∧
  NoDup l ∧ ∀ x, x ∈ l ↔ reach (z_ar m) [f] x.
Proof.
  intros Hw Vf. pose proof (zw_good _ Hw) as Hgd. pose proof (zg_wf _ Hgd) as Hg. pose proof (zg_edges _ Hgd) as He.
  destruct (repr_exists _ _ _ Hg Vf) as [d Hd]. unfold zdd_node_size.
  destruct (node_count_spec Rz (ar_fuel (z_ar m)) (z_ar m) Hg He d f ∅ Hd) as (c' & l & Heq & Nd & Hl & Hc & Hid & Hcl);
    [by eapply a_fuel_enough|by intros ? ? ? ? ?%elem_of_empty|].
  rewrite Heq. cbn [mbind option_bind]. eexists l, _. split; [done|].
  assert (Hlr : ∀ x, x ∈ l ↔ reach (z_ar m) [f] x).
  { intros x. split; [intros Hx; apply (Hl x Hx)|]. intros Hx.
    assert (x ∈ c') as Hxc; [|apply Hc in Hxc as [?%elem_of_empty|?]; done].
    induction Hx as [r Hr|id h cs c _ IH Hnd Hin]; [by apply elem_of_list_singleton in Hr as ->|by eapply Hcl]. }
  split; [|done]. unfold vertices. cbn [fst snd].
  assert (Hall : ∀ x, x ∈ l → is_Some (ar_nodes (z_ar m) !! x)).
  { intros x Hx%Hlr. apply lookup_lt_is_Some. assert (live (z_ar m) x) as [? _]; [|done].
    eapply (reach_live Rz); [done| |exact Hx]. by intros ? ->%elem_of_list_singleton. }
  clear -Hall. induction l as [|x l IH]; [done|]. unfold nnt, ntm in *. rewrite !filter_cons.
  specialize (IH (λ y Hy, Hall y (elem_of_list_further _ _ _ Hy))). destruct (Hall x) as [nd Hx]; [by left|].
  unfold is_nt, is_term in *. destruct nd; (destruct (decide _) as [D|D]; destruct (decide _) as [D'|D']); rewrite Hx in *; try done; cbn [length] in *; lia.
Qed.

Lemma zap_l o m f g sf sg : zwf m → zdd_valid m f → zdd_valid m g → zdd_node_size m f = Some sf → zdd_node_size m g = Some sg →
  ∃ m' r tr, zdd_op o m f g = Some (m', r) ∧ zdd_ap_t o m f g = Some (m', r, tr) ∧ NoDup tr ∧ (N.of_nat (length tr) ≤ vertices sf * vertices sg)%N.
Proof.
  intros Hw Hf Hg Sf Sg. destruct (zvalid_repr _ _ Hw Hf) as [df Hdf]. destruct (zvalid_repr _ _ Hw Hg) as [dg Hdg].
  pose proof (a_fuel_enough _ _ _ Hdf) as Rf. pose proof (a_fuel_enough _ _ _ Hdg) as Rg.
  destruct (zap_spec o (ar_fuel (z_ar m)) m f g df dg) as (m' & r & dr & E & _); [done..|lia|].
  assert (zdd_op o m f g = Some (m', r)) as E' by (by destruct o).
  rewrite <- zap_erase in E. unfold zdd_ap_t. destruct (zdd_ap_tf o (ar_fuel (z_ar m)) m f g) as [[[m1 r1] tr]|] eqn:Et; [|done].
  injection E as -> ->. exists m', r, tr. split; [done|]. split; [done|].
  apply (zap_fresh o _ m m f g df dg) in Et as (_ & _ & (Nd & _) & K); [|done|by apply zstep_refl|done|done|lia]. split; [done|].
  destruct (znodes m f Hw Hf) as (F & sf' & Sf' & Vf & NF & HF). rewrite Sf in Sf'. injection Sf' as <-.
  destruct (znodes m g Hw Hg) as (G & sg' & Sg' & Vg & NG & HG). rewrite Sg in Sg'. injection Sg' as <-.
  rewrite Vf, Vg. cut (length tr ≤ length F * length G); [lia|]. rewrite <- prod_length. apply length_le; [done|].
  intros [x y] Hk. destruct (K _ Hk) as (Hx & Hy & _). apply prod_elem; [by apply HF|by apply HG].
Qed.
