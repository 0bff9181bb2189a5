(** Common imports. *)
From Coq Require Export Lia ZArith NArith.
From Coq Require Strings.String.
From stdpp Require Export base numbers option gmap.
From stdpp Require Export list.
Open Scope nat_scope.
Global Set Default Goal Selector "!".
Global Arguments N.add : simpl never.
Global Arguments N.mul : simpl never.
Global Arguments N.pow : simpl never.
Global Arguments N.to_nat : simpl never.
Global Arguments N.of_nat : simpl never.

Lemma Fimpl {A} (P Q : A → Prop) l : Forall P l → (∀ x, P x → Q x) → Forall Q l.
Proof. intros H HI. induction H; constructor; auto. Qed.

(** split syntactic conjunctions only *)
Ltac sp := repeat match goal with |- _ ∧ _ => split end.
Lemma rev_reverse {A} (l : list A) : rev l = reverse l.
Proof. unfold reverse. by rewrite <- List.rev_alt. Qed.
