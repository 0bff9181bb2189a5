(** What a lossy computed table promises, stated on histories of calls. *)
From Verif Require Import Prelude ComputeCache.

Inductive cop :=
  | Put (k0 k1 k2 v : N)
  | Clear
  | Retain (live : list bool)
  | Retain3 (live : list bool).

Definition cop_exec (c : ccache) (o : cop) : option ccache :=
  match o with
  | Put k0 k1 k2 v => cc_put c k0 k1 k2 v
  | Clear => Some (cc_clear c)
  | Retain live => cc_retain_live c live
  | Retain3 live => cc_retain_live3 c live
  end.
Fixpoint cop_run (c : ccache) (os : list cop) : option ccache :=
  match os with [] => Some c | o :: os => c ← cop_exec c o; cop_run c os end.

(** A put of the sentinel value is a caller error (documented at compute_cache.rs:72). *)
Definition cop_ok (o : cop) : Prop := match o with Put _ _ _ v => v ≠ EMPTY | _ => True end.

Definition marked_live (live : list bool) (is : list N) : Prop :=
  ∀ i, i ∈ is → live !! N.to_nat i = Some true.
Global Instance marked_live_dec live is : Decision (marked_live live is).
Proof.
  refine (cast_if (decide (Forall (λ i, live !! N.to_nat i = Some true) is)));
    rewrite Forall_forall in *; done.
Defined.

(** [recall past k]: the value an unbounded perfect memory would give for key [k]; [past] lists the
    calls, most recent first. *)
Fixpoint recall (past : list cop) (k0 k1 k2 : N) : option N :=
  match past with
  | [] => None
  | Put j0 j1 j2 v :: past =>
      if decide ((j0, j1, j2) = (k0, k1, k2)) then Some v else recall past k0 k1 k2
  | Clear :: _ => None
  | Retain live :: past =>
      v ← recall past k0 k1 k2; if decide (marked_live live [k1; k2; v]) then Some v else None
  | Retain3 live :: past =>
      v ← recall past k0 k1 k2; if decide (marked_live live [k0; k1; k2; v]) then Some v else None
  end.

(** Number of occupied slots. *)
Definition occupied (c : ccache) : nat := length (filter (λ s, s3 s ≠ EMPTY) (cc_slots c)).
