(** C96 for the ZDD, MDD, multi-terminal MDD and ZMDD managers. *)
From stdpp Require Import strings.
From Verif Require Import Prelude ComputeCache Arena Bdd Zdd Mdd MtMdd Zmdd SpecBdd SpecZdd SpecMdd SpecZmdd SpecLog32
  Bdd32 Zdd32 Mdd32 Mt32 Two32 Zdd32Proofs Mdd32Proofs Mt32Proofs.

(** A history of legal calls that ends with at most [2 ^ w] slots and at most [2 ^ w] headers: the manager that
    narrows every stored id to [w] bits and the one that does not give the same answers and end alike. *)
Theorem c96_zdd_exact w cs rs m : within w (z_ar m) →
  log32 zdd_legal (nz_exec w) zdd_new cs = Some (rs, m) ↔ log32 zdd_legal zdd_exec zdd_new cs = Some (rs, m).
Proof. exact (zwithin_same w cs rs m). Qed.
Print Assumptions c96_zdd_exact.

Theorem c96_mdd_exact w cs rs m : within w (d_ar m) →
  log32 mdd_legal (nm_exec w) mdd_new cs = Some (rs, m) ↔ log32 mdd_legal mdd_exec mdd_new cs = Some (rs, m).
Proof. exact (mwithin_same w cs rs m). Qed.
Print Assumptions c96_mdd_exact.

(** Here a call may panic (overflow, division): both panic together, or neither. *)
Theorem c96_mtmdd_exact I w cs rs m : within w (t_ar m) →
  log32 mt_legal (nt_exec w I) mt_new cs = Some (rs, m) ↔ log32 mt_legal (mt_exec I) mt_new cs = Some (rs, m).
Proof. exact (twithin_same I w cs rs m). Qed.
Print Assumptions c96_mtmdd_exact.

Theorem c96_zmdd_exact w cs rs m : within w (t_ar m) →
  log32 zm_legal (nzm_exec w) zm_new cs = Some (rs, m) ↔ log32 zm_legal zm_exec zm_new cs = Some (rs, m).
Proof. exact (zmwithin_same w cs rs m). Qed.
Print Assumptions c96_zmdd_exact.

(** Hence what is proved of reachable managers holds of the 32-bit ones within those limits. *)
Theorem c96_other_reachable :
  (∀ cs rs m, within 32 (z_ar m) → log32 zdd_legal (nz_exec 32) zdd_new cs = Some (rs, m) → zdd_reachable m) ∧
  (∀ cs rs m, within 32 (d_ar m) → log32 mdd_legal (nm_exec 32) mdd_new cs = Some (rs, m) → mdd_reachable m) ∧
  (∀ I cs rs m, within 32 (t_ar m) → log32 mt_legal (nt_exec 32 I) mt_new cs = Some (rs, m) → mt_reachable I m) ∧
  (∀ cs rs m, within 32 (t_ar m) → log32 zm_legal (nzm_exec 32) zm_new cs = Some (rs, m) → zm_reachable m).
Proof.
  split; [|split; [|split]].
  - intros cs rs m Hw H%c96_zdd_exact; [|done]. exists cs. revert H. generalize zdd_new as m0. revert rs.
    induction cs as [|c cs IH]; intros rs m0; cbn [log32 zdd_run]; [by intros [= _ ->]|]. case_decide; [|done].
    destruct (zdd_exec m0 c) as [[m1 r]|]; [|done]. cbn. destruct (log32 _ _ m1 cs) as [[rs' m']|] eqn:E; [|done].
    cbn. intros [= _ ->]. by eapply IH.
  - intros cs rs m Hw H%c96_mdd_exact; [|done]. exists cs. revert H. generalize mdd_new as m0. revert rs.
    induction cs as [|c cs IH]; intros rs m0; cbn [log32 mdd_run]; [by intros [= _ ->]|]. case_decide; [|done].
    destruct (mdd_exec m0 c) as [[m1 r]|]; [|done]. cbn. destruct (log32 _ _ m1 cs) as [[rs' m']|] eqn:E; [|done].
    cbn. intros [= _ ->]. by eapply IH.
  - intros I cs rs m Hw H%c96_mtmdd_exact; [|done]. exists cs. revert H. generalize mt_new as m0. revert rs.
    induction cs as [|c cs IH]; intros rs m0; cbn [log32 mt_run]; [by intros [= _ ->]|]. case_decide; [|done].
    destruct (mt_exec I m0 c) as [[m1 r]|]; [|done]. cbn. destruct (log32 _ _ m1 cs) as [[rs' m']|] eqn:E; [|done].
    cbn. intros [= _ ->]. by eapply IH.
  - intros cs rs m Hw H%c96_zmdd_exact; [|done]. exists cs. revert H. generalize zm_new as m0. revert rs.
    induction cs as [|c cs IH]; intros rs m0; cbn [log32 zm_run]; [by intros [= _ ->]|]. case_decide; [|done].
    destruct (zm_exec m0 c) as [[m1 r]|]; [|done]. cbn. destruct (log32 _ _ m1 cs) as [[rs' m']|] eqn:E; [|done].
    cbn. intros [= _ ->]. by eapply IH.
Qed.
Print Assumptions c96_other_reachable.

(** Each example fills its manager to the limit of a small width, then repeats a last construction one slot past it. *)
Definition sh {S} (o : option (list nat * S)) : option (list nat) := fst <$> o.
Definition ex96z : list zdd_call :=
  [SpecZdd.ZHeader 0 "x"; SpecZdd.ZHeader 1 "y"; SpecZdd.ZNode 0 0 1; SpecZdd.ZNode 1 0 1; ZOp ZUnion 3 4; ZOp ZUnion 5 1].
Example c96_zdd_ex : let past := [SpecZdd.ZNode 1 3 3; SpecZdd.ZNode 1 3 3] in
  (sh (log32 zdd_legal (nz_exec 3) zdd_new ex96z), sh (log32 zdd_legal zdd_exec zdd_new ex96z),
   drop 6 <$> sh (log32 zdd_legal (nz_exec 3) zdd_new (ex96z ++ past)), drop 6 <$> sh (log32 zdd_legal zdd_exec zdd_new (ex96z ++ past))) =
  (Some [0; 1; 3; 4; 5; 7], Some [0; 1; 3; 4; 5; 7], Some [8; 0], Some [8; 8]).
Proof. vm_compute. reflexivity. Qed.
Definition ex96m : list mdd_call :=
  [DHeader 0 "x" 3; DHeader 1 "y" 2; DNode 0 [0; 1; 1]; DNode 1 [0; 1]; DConn And 3 4; DConn Or 3 4].
Example c96_mdd_ex : let past := [DNot 3; DNot 4; DNode 1 [1; 0]] in
  (sh (log32 mdd_legal (nm_exec 3) mdd_new ex96m), sh (log32 mdd_legal mdd_exec mdd_new ex96m),
   drop 6 <$> sh (log32 mdd_legal (nm_exec 3) mdd_new (ex96m ++ past)), drop 6 <$> sh (log32 mdd_legal mdd_exec mdd_new (ex96m ++ past))) =
  (Some [0; 1; 3; 4; 5; 6], Some [0; 1; 3; 4; 5; 6], Some [7; 8; 0], Some [7; 8; 8]).
Proof. vm_compute. reflexivity. Qed.
Definition ex96t : list mt_call :=
  [THeader 0 "x" 2; TValue 5; TValue 7; TNode 0 [1; 2]; TBin VAdd 3 3].
Example c96_mtmdd_ex : let past := [TValue 1; TValue 2; TValue 2] in
  (sh (log32 mt_legal (nt_exec 3 i32_checked) mt_new ex96t), sh (log32 mt_legal (mt_exec i32_checked) mt_new ex96t),
   drop 5 <$> sh (log32 mt_legal (nt_exec 3 i32_checked) mt_new (ex96t ++ past)),
   drop 5 <$> sh (log32 mt_legal (mt_exec i32_checked) mt_new (ex96t ++ past))) =
  (Some [0; 1; 2; 3; 6], Some [0; 1; 2; 3; 6], Some [7; 8; 0], Some [7; 8; 8]).
Proof. vm_compute. reflexivity. Qed.
Definition ex96y : list zm_call :=
  [ZHeader 0 "x" 2; ZHeader 1 "y" 2; ZValue 5; ZValue 7; ZNode 0 [1; 2]; ZNode 1 [3; 2]; ZSetdiff 4 3; ZIntersect 4 3].
Example c96_zmdd_ex : let past := [ZValue 1; ZValue 2; ZValue 2; ZValue 3; ZValue 3] in
  (sh (log32 zm_legal (nzm_exec 3) zm_new ex96y), sh (log32 zm_legal zm_exec zm_new ex96y),
   drop 8 <$> sh (log32 zm_legal (nzm_exec 3) zm_new (ex96y ++ past)), drop 8 <$> sh (log32 zm_legal zm_exec zm_new (ex96y ++ past))) =
  (Some [0; 1; 1; 2; 3; 4; 5; 3], Some [0; 1; 1; 2; 3; 4; 5; 3], Some [6; 7; 7; 8; 0], Some [6; 7; 7; 8; 8]).
Proof. vm_compute. reflexivity. Qed.
