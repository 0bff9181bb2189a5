(** Soundness of a static check of the borrow structure, and the check of every method. *)
From Coq Require Import ZArith Lia.
From stdpp Require Import strings list.
From Verif Require Import Prelude Borrow SpecBorrow.
Local Open Scope Z_scope.
Local Open Scope prog_scope.

Definition feq (s s' : flags) : Prop := ∀ c, s c = s' c.
Fixpoint safe (s : flags) (p : prog) : Prop :=
  match p with
  | Step => True
  | Shared c p => 0 ≤ s c ∧ safe (put s c (s c + 1)) p
  | Excl c p => s c = 0 ∧ safe (put s c (-1)) p
  | p ;> q | Either p q | Cleanup p q => safe s p ∧ safe s q
  | Loop p | Call p => safe s p
  end.

Lemma put_feq s s' c z z' : feq s s' → z = z' → feq (put s c z) (put s' c z').
Proof. intros H -> c'. unfold put. case_decide; [done | apply H]. Qed.
Lemma feq_sym s s' : feq s s' → feq s' s.
Proof. intros H c. by rewrite H. Qed.
Lemma feq_trans s s' s'' : feq s s' → feq s' s'' → feq s s''.
Proof. intros H H' c. by rewrite H, H'. Qed.
Lemma exec_app s t u : exec s (t ++ u) = s' ← exec s t; exec s' u.
Proof. revert s. induction t as [| e t IH]; intros s; [done |]. cbn [exec app]. destruct (ev_step s e); [exact (IH _) | done]. Qed.

(** A safe body never conflicts and leaves all flags as they were. *)
Lemma safe_exec p t b : runs p t b → ∀ s s', safe s p → feq s s' → ∃ s'', exec s' t = Some s'' ∧ feq s s''.
Proof.
  induction 1 as [b | c p t b _ IH | c p t b _ IH | p q t u b _ IHp _ IHq | p q t _ IHp | p q t b _ IHp | p q t b _ IHq
    | p | p t u b _ IHp _ IHl | p t _ IHp | p t b _ IHp | p t _ IHp | p d t _ IHp | p d t u b _ IHp _ IHd];
    intros s s' Hs He; cbn [safe] in Hs.
  - exists s'. done.
  - destruct Hs as [Hc Hs]. cbn [exec ev_step]. rewrite <- (He c), bool_decide_true by done. cbn.
    destruct (IH _ (put s' c (s c + 1)) Hs) as (s1 & H1 & E1).
    { by apply put_feq. }
    rewrite exec_app, H1. cbn. eexists. split; [done |]. intros c'.
    pose proof (E1 c') as E'. pose proof (E1 c) as E. unfold put in E, E' |- *. rewrite decide_True in E by done.
    case_decide; [subst; lia | done].
  - destruct Hs as [Hc Hs]. cbn [exec ev_step]. rewrite bool_decide_true by (by rewrite <- (He c)). cbn.
    destruct (IH _ (put s' c (-1)) Hs) as (s1 & H1 & E1).
    { by apply put_feq. }
    rewrite exec_app, H1. cbn. eexists. split; [done |]. intros c'.
    pose proof (E1 c') as E'. pose proof (E1 c) as E. unfold put in E, E' |- *. rewrite decide_True in E by done.
    case_decide; [subst; lia | done].
  - destruct Hs as [Hp Hq]. destruct (IHp s s' Hp He) as (s1 & H1 & E1). destruct (IHq s s1 Hq E1) as (s2 & H2 & E2).
    exists s2. rewrite exec_app, H1. done.
  - destruct Hs. by apply (IHp s).
  - destruct Hs. by apply (IHp s).
  - destruct Hs. by apply (IHq s).
  - by exists s'.
  - destruct (IHp s s' Hs He) as (s1 & H1 & E1). destruct (IHl s s1 Hs E1) as (s2 & H2 & E2).
    exists s2. rewrite exec_app, H1. done.
  - by apply (IHp s).
  - by apply (IHp s).
  - by apply (IHp s).
  - destruct Hs. by apply (IHp s).
  - destruct Hs as [Hp Hq]. destruct (IHp s s' Hp He) as (s1 & H1 & E1). destruct (IHd s s1 Hq E1) as (s2 & H2 & E2).
    exists s2. rewrite exec_app, H1. done.
Qed.

(** A run to the end that takes every first branch and one round of every loop. *)
Fixpoint path (p : prog) : list ev :=
  match p with
  | Step => []
  | Shared c p => BorrowEv c :: path p ++ [EndEv c]
  | Excl c p => BorrowMutEv c :: path p ++ [EndMutEv c]
  | p ;> q => path p ++ path q
  | Either p _ => path p
  | Loop p => path p ++ []
  | Call p => path p
  | Cleanup p _ => path p
  end.
Lemma path_runs p : runs p (path p) true.
Proof. induction p; cbn; econstructor; try done. constructor. Qed.

Ltac flag := unfold put, free in *; repeat case_decide; try congruence; try lia.
Ltac safe_tac :=
  match goal with
  | |- _ ∧ _ => split; safe_tac
  | |- True => exact I
  | |- _ => flag
  end.

Lemma body_safe k : safe free (body k).
Proof. destruct k; cbn; safe_tac. Qed.

Lemma session_exec (P : call → Prop) ks t : session ks t → ∀ s s', (∀ k, P k → safe s (body k)) → Forall P ks → feq s s' →
  ∃ s'', exec s' t = Some s'' ∧ feq s s''.
Proof.
  induction 1 as [| k ks t u b Hk _ IH]; intros s s' HP HF He; [by exists s' |].
  inversion HF as [| ? ? Hk1 HF1]; subst. destruct (safe_exec _ _ _ Hk s s') as (s1 & H1 & E1); [by apply HP | done |].
  destruct (IH s s1) as (s2 & H2 & E2); [done | done | done |]. exists s2. rewrite exec_app, H1. done.
Qed.
Lemma sessions_free ks t : session ks t → ∃ s, exec free t = Some s ∧ ∀ c, s c = 0.
Proof.
  intros H. destruct (session_exec (λ _, True) ks t H free free) as (s & Hs & E);
    [intros; apply body_safe | by apply Forall_true | done |].
  exists s. split; [done |]. intros c. by rewrite <- E.
Qed.

(** Under shared borrows of arenas held by the caller. *)
Ltac look_tac HA HR :=
  match goal with
  | |- _ ∧ _ => split; look_tac HA HR
  | |- True => exact I
  | |- _ => unfold put; repeat case_decide; try congruence;
            repeat match goal with |- context [?s (Arena ?m)] => lazymatch goal with H : 0 ≤ s (Arena m) |- _ => fail | _ => pose proof (HA m) end end;
            rewrite ?HR; try lia
  end.
Lemma looks_safe s k : (∀ m, 0 ≤ s (Arena m)) → (∀ m, s (Roots m) = 0) → looks k = true → safe s (body k).
Proof. intros HA HR Hk. destruct k; try discriminate Hk; clear Hk; cbn; look_tac HA HR. Qed.

(** The run that takes every last branch. *)
Fixpoint rpath (p : prog) : list ev :=
  match p with
  | Step => []
  | Shared c p => BorrowEv c :: rpath p ++ [EndEv c]
  | Excl c p => BorrowMutEv c :: rpath p ++ [EndMutEv c]
  | p ;> q => rpath p ++ rpath q
  | Either _ q => rpath q
  | Loop p => rpath p ++ []
  | Call p => rpath p
  | Cleanup p _ => rpath p
  end.
Lemma rpath_runs p : runs p (rpath p) true.
Proof. induction p; cbn; first [constructor; done | apply R_either_r; done | eapply R_loop; [done | constructor]]. Qed.

(** The manager whose arena a method writes first. *)
Definition home (k : call) : option mref :=
  (fix go (p : prog) : option mref :=
     match p with
     | Step => None
     | Shared _ p | Loop p | Call p => go p
     | Excl (Arena m) _ => Some m
     | Excl (Roots _) p => go p
     | p ;> q | Either p q | Cleanup p q => match go p with Some m => Some m | None => go q end
     end) (body k).
Ltac conflict_tac :=
  cbn; repeat (first [rewrite bool_decide_true by flag; cbn | rewrite bool_decide_false by flag; cbn]); reflexivity.
Lemma others_conflict k : looks k = false →
  ∃ m t, home k = Some m ∧ runs (body k) t true ∧ exec (put free (Arena m) 1) t = None.
Proof.
  intros Hk. destruct k; try discriminate Hk; clear Hk; (eexists; eexists; split; [reflexivity |]);
    first [split; [apply path_runs | conflict_tac] | split; [apply rpath_runs | conflict_tac]].
Qed.
