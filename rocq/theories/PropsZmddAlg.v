(** C40, C49: counting, enumeration and labels of ZMDD families. *)
From Coq Require Import String.
From stdpp Require Import strings sorting.
From Verif Require Import Prelude ComputeCache Arena Bdd Mdd MtMdd Zmdd ZmddAlg.
From Verif Require Import SpecMdd SpecZmdd SpecZmddAlg ZmddAlgProofs PropsZmdd.

(** ** C40 *)
(** Draining the iterator terminates; it reports each member with a label in [ss] exactly once, dense over the
    variables, and nothing else; count is the number of reports. *)
Theorem c40_extract m (ss : list Z) f (rev : bool) vars :
  zm_reachable m → node_valid (t_ar m) f → vars_ok vars → vars_cover (t_ar m) vars f →
  ∃ Ls k0, NoDup (map (report rev vars) Ls) ∧
    (∀ y, y ∈ Ls ↔ length y = length vars ∧ ∃ z, z ∈ ss ∧ zmember (t_ar m) f (vec y) z) ∧
    (∀ fuel, k0 ≤ fuel → zm_extract fuel m ss (ZMNode f rev vars) = Some (map (report rev vars) Ls)) ∧
    zm_count m ss f = Some (N.of_nat (length (map (report rev vars) Ls))).
Proof.
  intros Hm Hf Hv Hc. destruct (zm_extract_l m ss f rev vars Hm Hf Hv Hc) as (Ls & k0 & _ & ? & _ & ? & ? & Hn).
  exists Ls, k0. rewrite map_length. done.
Qed.
Print Assumptions c40_extract.

(** reports are dense: every listed variable, and only those, has a state in its range *)
Theorem c40_dense (rev : bool) vars y : vars_ok vars → Forall2 (λ v i, i < v.2) vars y →
  (∀ s, s ∉ vars.*1 → report rev vars y !! s = None) ∧
  ∀ l s e, vars !! l = Some (s, e) → ∃ i, report rev vars y !! s = Some i ∧ i < e ∧
    i = if rev then e - 1 - vec y l else vec y l.
Proof.
  intros [Hnd _] Hf. split.
  - intros s. apply report_dom. symmetry. by eapply Forall2_length.
  - intros l s e Hl. destruct (Forall2_lookup_l _ _ _ _ _ Hf Hl) as (i & Hi & Hie). cbn in Hie.
    exists (if rev then e - 1 - i else i). sp.
    + by eapply report_lookup.
    + destruct rev; lia.
    + unfold vec. by rewrite Hi.
Qed.
Print Assumptions c40_dense.

(** ** C49 *)
Theorem c49_labels m f : zm_reachable m → node_valid (t_ar m) f →
  ∃ L, zm_labels m f = Some L ∧ StronglySorted Z.lt L ∧ ∀ z, z ∈ L ↔ ∃ x, zmember (t_ar m) f x z.
Proof. exact (zm_labels_l m f). Qed.
Print Assumptions c49_labels.

Example c40_ex : (m ← zm_run zm_new ex_zm; n ← zm_count m [5; 7]%Z 5; n7 ← zm_count m [7]%Z 5;
    l ← zm_extract 100 m [7]%Z (ZMNode 5 false [("x", 3); ("y", 2); ("w", 4)]);
    l' ← zm_extract 100 m [7]%Z (ZMNode 5 true [("x", 3); ("y", 2); ("w", 4)]);
    Some (n, n7, map (λ M : gmap string nat, map (M !!.) ["x"; "y"; "w"]) l, map (λ M : gmap string nat, map (M !!.) ["x"; "y"; "w"]) l')) =
  Some (4%N, 2%N, [[Some 2; Some 0; Some 0]; [Some 2; Some 1; Some 0]],
                  [[Some 0; Some 1; Some 3]; [Some 0; Some 0; Some 3]]).
Proof. vm_compute. done. Qed.
Example c40_ex_hyps : (m ← zm_run zm_new ex_zm; 
    Some (bool_decide (node_valid (t_ar m) 5), map (λ h, (h_level h, (h_label h, h_edges h))) (ar_headers (t_ar m)))) =
  Some (true, [(0, ("x", 3)); (1, ("y", 2))]) ∧ vars_ok [("x", 3); ("y", 2); ("w", 4)].
Proof. split; [by vm_compute|]. split; [|repeat constructor]. by apply (bool_decide_unpack _). Qed.
Example c49_ex : (m ← zm_run zm_new (ex_zm ++ [ZValue 2; ZNode 1 [4; 6]]); zm_labels m 7) = Some [2; 5; 7]%Z.
Proof. vm_compute. done. Qed.
