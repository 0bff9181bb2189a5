(** Histories that continue from a given state. *)
From stdpp Require Import strings.
From Verif Require Import Prelude Arena Bdd BssMgr SpecBdd SpecBssMgr.

(** further calls, on the handles listed *)
Inductive bss_later (w : bmgr) (H : list (nat * nfun)) : bmgr → list (nat * nfun) → Prop :=
  | bl_now : bss_later w H w H
  | bl_step w1 H1 w2 H2 : bss_later w H w1 H1 → bss_step w1 H1 w2 H2 → bss_later w H w2 H2.
