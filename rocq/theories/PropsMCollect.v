(** Property C67: what the collectors of MddMgr and ZmddMgr keep. *)
From Coq Require Import ZArith.
From stdpp Require Import strings.
From Verif Require Import Prelude ComputeCache Arena Bdd Mdd MtMdd MtMdd2 Zmdd ZmddAlg BssMgr MssMgr SpecBdd SpecMdd
  SpecZmdd SpecZmddAlg SpecBssMgr SpecMss MssMgrProofs MssRpn MssFam SpecMCollect MCollect PropsMss PropsMssSol.

Lemma use_gok I w H : mdd_in_use I w H → @gok I mbase0 w H.
Proof. intros [Hh|(s & Q & Hh & ->)]; [by apply held_gok|by apply mss_held_ok in Hh as [? _]]. Qed.

(** An explicit [gc] keeps the constants and everything reachable from a held handle or a variable, and nothing
    else, in both forests; [live_node_count] is the number of slots in use. *)
Theorem c67_gc I w H keep : mdd_in_use I w H → Forall (λ f, f ∈ H.*1) keep →
  ∃ w' nv nb, g_gc w keep = Some (w', (nv, nb)) ∧ m_no_garbage w' H.*1 ∧ m_counts_live w' ∧
    nv + nb + mm_live_node_count (g_mm w') = length (ar_nodes (t_ar (mm_v (g_mm w)))) + length (ar_nodes (d_ar (mm_b (g_mm w)))).
Proof. exact (λ Hh, m_explicit_gc I w H keep (use_gok I w H Hh)). Qed.
Print Assumptions c67_gc.

(** After a call that makes a handle, fewer slots are in use than the threshold; and if the call collected, the slots in
    use are exactly those needed for what is held now. *)
Theorem c67_auto I w H c w' r : mdd_in_use I w H → Forall (λ f, f ∈ H.*1) (gcall_args c) →
  gcall_run I c w = Some (w', r) → m_bounded w w' (r :: H.*1).
Proof. exact (λ Hh, m_call_bounded I w H c w' r (use_gok I w H Hh)). Qed.
Print Assumptions c67_auto.
Theorem c67_count I w H : mdd_in_use I w H → m_counts_live w.
Proof. exact (λ Hh, m_live_count I (g_mm w) (gk_wf _ _ _ (use_gok I w H Hh))). Qed.
Print Assumptions c67_count.

(** the same for the families of minimal path and cut vectors *)
Theorem c67_families I s H Q c s' r : mss_held I s H Q → qcall_ok c H Q →
  qcall_run I c s = Some (s', Some r) → q_bounded (s_z s) (s_z s') (r :: Q.*1).
Proof. intros Hh. destruct (mss_held_ok I s H Q Hh) as [Hk Hq]. exact (q_call_bounded I s H Q c s' r Hk Hq). Qed.
Print Assumptions c67_families.
Theorem c67_families_count I s H Q : mss_held I s H Q → q_counts_live (s_z s).
Proof. intros Hh. destruct (mss_held_ok I s H Q Hh) as [Hk Hq]. exact (q_live_count (q_z (s_z s)) (qk_re _ _ _ Hq)). Qed.
Print Assumptions c67_families_count.

(** [ex_w] is held by [c42_ex_held] *)
Example c67_ex : (r ← ex_w; let '(w, f, r) := r in
    '(w1, n1) ← g_gc w [f]; '(w2, n2) ← g_gc (g_drop w1 r) []; '(w3, n3) ← g_gc (g_drop w2 f) [];
    '(w4, _) ← gcall_run i32_checked (GBin (OArith VAdd) r r) w2;
    Some (map (λ w, mm_live_node_count (g_mm w)) [w; w1; w2; w3], [n1; n2; n3], (mm_live_node_count (g_mm w4), g_thr w4))) =
  Some ([16; 11; 11; 9], [(3, 2); (3, 2); (3, 4)], (13, 24)).
Proof. vm_compute. done. Qed.
Example c67_ex_families : ('(s, a, f) ← ex_s;
    '(s, p) ← qcall_run i32_checked (QSol false a) s; p ← p; '(s1, d) ← qcall_run i32_checked (QSetdiff p p) s; d ← d;
    let s1 := Mss (s_m s1) (q_drop (s_z s1) p) in '(s2, _) ← qcall_run i32_checked (QIntersect d d) s1;
    Some (map (λ s, zm_live_node_count (q_z (s_z s))) [s; s1; s2])) = Some [8; 8; 8].
Proof. vm_compute. done. Qed.
