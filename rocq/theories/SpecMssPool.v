(** Histories of one MssMgr beside any number of MddMgrs whose nodes it is given. *)
From stdpp Require Import strings.
From Verif Require Import Prelude ComputeCache Arena Bdd Mdd MtMdd MtMdd2 Zmdd ZmddAlg BssMgr MddMinsol MssConv MssMgr MssPool
  SpecBdd SpecMdd SpecZmdd SpecZmddAlg SpecBssMgr SpecMss.

(** [mpool_held I P s H Q]: each manager of [P] is paired with the handles held on it; [s] is the MssMgr with its own handles [H]
    and the families [Q].  A family computed from a manager with the same variables as [s] stands for the extremal vectors of the
    function. *)
Inductive mpool_held (I : vint) : list (mmgr * handles) → mss → handles → families → Prop :=
  | mp_new : mpool_held I [] s_new [] []
  | mp_add P s H Q : mpool_held I P s H Q → mpool_held I (P ++ [(g_new, [])]) s H Q
  | mp_src P s H Q i w HW w' HW' : mpool_held I P s H Q → P !! i = Some (w, HW) → mdd_step I w HW w' HW' →
      mpool_held I (<[i := (w', HW')]> P) s H Q
  | mp_own P s H Q s' H' Q' : mpool_held I P s H Q → mss_step I s H Q s' H' Q' → mpool_held I P s' H' Q'
  | mp_none rev P s H Q i w HW x F s' m : mpool_held I P s H Q → P !! i = Some (w, HW) → (x, Some F) ∈ HW →
      s_sol_of I rev s (g_mm w) x = Some (s', m, None) → mpool_held I (<[i := (with_mm w m, HW)]> P) s' H Q
  | mp_sol rev P s H Q i w HW x F s' m r R : mpool_held I P s H Q → P !! i = Some (w, HW) → (x, Some F) ∈ HW →
      g_varorder w = g_varorder (s_m s) → s_sol_of I rev s (g_mm w) x = Some (s', m, Some r) →
      (∀ R', R = Some R' → ∃ vars phi, g_varorder w = Some vars ∧ is_phi vars F phi ∧ R' = extremal rev vars phi) →
      mpool_held I (<[i := (with_mm w m, HW)]> P) s' H ((r, R) :: Q).
