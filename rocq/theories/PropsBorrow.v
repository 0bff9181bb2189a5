(** C93: no wrapper call panics on a borrow, and none leaves a borrow behind. *)
From Coq Require Import ZArith Lia.
From stdpp Require Import strings list.
From Verif Require Import Prelude Borrow SpecBorrow BorrowProofs.
Local Open Scope Z_scope.
Local Open Scope prog_scope.

(** Whatever calls a client makes, on however many managers, along whatever branches, with whatever
    early returns and (caught) panics inside: no [borrow()] or [borrow_mut()] conflicts, and after
    the calls -- hence after each of them -- no cell is borrowed. *)
Theorem c93_no_borrow_panic ks t : session ks t → ∃ s, exec free t = Some s ∧ ∀ c, s c = 0.
Proof. exact (sessions_free ks t). Qed.
Print Assumptions c93_no_borrow_panic.

(** The calls that only look may even be made while the caller holds shared borrows of arenas
    itself, and leave exactly those. *)
Theorem c93_looking s ks t : caller_reads s → Forall (λ k, looks k = true) ks → session ks t →
  ∃ s', exec s t = Some s' ∧ ∀ c, s' c = s c.
Proof.
  intros [HA HR] HF Ht. destruct (session_exec _ ks t Ht s s (λ k, looks_safe s k HA HR) HF) as (s' & H & E); [done |].
  exists s'. split; [done |]. intros c. by rewrite <- E.
Qed.
Print Assumptions c93_looking.

(** And only those: every other call has a run that panics when the caller holds one shared borrow
    of the arena the call writes. *)
Theorem c93_writing k : looks k = false → ∃ m t, runs (body k) t true ∧ exec (put free (Arena m) 1) t = None.
Proof. intros H. destruct (others_conflict k H) as (m & t & _ & Hr & He). by exists m, t. Qed.
Print Assumptions c93_writing.

(** Non-vacuity. *)
Definition ex_calls : list call := [Bdd_defvar 0; Bdd_defvar 0; Bdd_rpn 0; Bdd_and 0; Bdd_get_children 0; Bdd_extract 0; Bdd_path_next 0; Bss_minpath 0 0; Zdd_union 0; Zdd_drop 0; Bdd_drop 0].
Definition ex_events : list ev := concat ((λ k, path (body k)) <$> ex_calls).
Example c93_ex_session : session ex_calls ex_events ∧ length ex_events = 64%nat.
Proof.
  split; [| vm_compute; reflexivity]. unfold ex_events, ex_calls.
  repeat (cbn [fmap list_fmap concat]; eapply S_cons; [apply path_runs |]). constructor.
Qed.
(** The discipline matters: pinning and collecting while the arena is still borrowed panics. *)
Example c93_ex_wrong : exec free (path (Excl (Arena (FBdd, 0%nat)) (wrap (FBdd, 0%nat)))) = None.
Proof. by vm_compute. Qed.
(** Counting: ZDD and MDD handles can be counted under a caller's [borrow()], BDD handles cannot. *)
Example c93_ex_count : looks (Zdd_count 0) = true ∧ looks (Mdd_count 0) = true ∧ looks (Bdd_count 0) = false ∧
  exec (put free (Arena (FBdd, 0%nat)) 1) (path (body (Bdd_count 0))) = None.
Proof. by vm_compute. Qed.
