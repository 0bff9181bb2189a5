(** Specification vocabulary for evaluation in interval arithmetic. *)
From Coq Require Import ZArith.
From stdpp Require Import strings.
From Verif Require Import Prelude.

(** Two tables have the same keys, and the entries under each key are related. *)
Definition table_rel `{Countable K} {X Y} (P : X → Y → Prop) (m : gmap K X) (m' : gmap K Y) : Prop :=
  ∀ k, option_Forall2 P (m !! k) (m' !! k).

Section preserved.
Context {A B : Type} (oA iA : A) (addA mulA subA : A → A → A) (oB iB : B) (addB mulB subB : B → B → B) (Q : A → B → Prop).
(** [Q] relates the two zeros and the two ones, and addition, multiplication and subtraction take related arguments to related
    results.  With [Q x b] read as "x lies in the interval b" this says that the second type is a sound interval arithmetic. *)
Definition preserved : Prop :=
  Q oA oB ∧ Q iA iB ∧
  (∀ x y x' y', Q x y → Q x' y' → Q (addA x x') (addB y y')) ∧
  (∀ x y x' y', Q x y → Q x' y' → Q (mulA x x') (mulB y y')) ∧
  (∀ x y x' y', Q x y → Q x' y' → Q (subA x x') (subB y y')).
End preserved.

(** ** A sound interval arithmetic, for the examples: pairs of bounds over the integers *)
Definition ivl : Type := Z * Z.
Definition ivl_in (x : Z) (b : ivl) : Prop := (b.1 <= x <= b.2)%Z.
Definition ivl_pt (x : Z) : ivl := (x, x).
Definition ivl_add (a b : ivl) : ivl := (a.1 + b.1, a.2 + b.2)%Z.
Definition ivl_sub (a b : ivl) : ivl := (a.1 - b.2, a.2 - b.1)%Z.
Definition ivl_mul (a b : ivl) : ivl :=
  let '(p, q, r, s) := (a.1 * b.1, a.1 * b.2, a.2 * b.1, a.2 * b.2)%Z in
  (Z.min (Z.min p q) (Z.min r s), Z.max (Z.max p q) (Z.max r s)).

(** the table with every number replaced by its degenerate interval *)
Definition pt_table {R B} (pt : R → B) (pv : gmap string R) : gmap string B := pt <$> pv.
Definition pt_rows {R B} (pt : R → B) (pv : gmap string (list R)) : gmap string (list B) := (λ ps : list R, pt <$> ps) <$> pv.
