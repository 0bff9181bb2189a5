(** Specification vocabulary for the binary-system layer (bss). *)
From stdpp Require Import strings.
From Verif Require Import Prelude ComputeCache Arena Bdd SpecBdd BssAlg.

(** Managers reachable by core calls and by the gate, dual and minimal-solution algorithms of the bss
    crate, in any order. *)
Inductive bss_reachable : bdd → Prop :=
  | br_new : bss_reachable bdd_new
  | br_core m c m' r : bss_reachable m → bdd_legal m c → bdd_exec m c = Some (m', r) → bss_reachable m'
  | br_kofn m k xs m' r : bss_reachable m → Forall (bdd_valid m) xs → kofn m k xs = Some (m', r) → bss_reachable m'
  | br_and m xs m' r : bss_reachable m → Forall (bdd_valid m) xs → kofn_and m xs = Some (m', r) → bss_reachable m'
  | br_or m xs m' r : bss_reachable m → Forall (bdd_valid m) xs → kofn_or m xs = Some (m', r) → bss_reachable m'
  | br_dual m f m' r : bss_reachable m → bdd_valid m f → bdd_dual m f = Some (m', r) → bss_reachable m'.

(** Every id valid in [m] is valid in [m'] and has the same value under every assignment. *)
Definition bdd_keeps (m m' : bdd) : Prop :=
  ∀ id, bdd_valid m id → bdd_valid m' id ∧ ∀ rho t, bdd_value m rho id t ↔ bdd_value m' rho id t.

(** assignment given by a vector: entry [l] is the value of level [l] *)
Definition vrho (v : list bool) : nat → bool := λ l, nth l v false.

(** the literals of a vector, lowest level first *)
Definition lit (labels : list string) (l : nat) (b : bool) : string :=
  let x := default EmptyString (labels !! l) in if b then x else String.append "~" x.
Definition render (labels : list string) (v : list bool) : list string := imap (lit labels) v.

(** the variable order as the user sees it: [names] lists every variable at its level *)
Definition bdd_order (m : bdd) (names : list string) : Prop :=
  length names = length (ar_headers (b_ar m)) ∧ bdd_levels_distinct m ∧
  ∀ h hd, ar_headers (b_ar m) !! h = Some hd → names !! h_level hd = Some (h_label hd).


(** how many of the listed truth values are true *)
Definition count_true (bs : list bool) : nat := length (filter (λ b : bool, b = true) bs).

(** Exact probabilities over an arbitrary ring: [weight v] is the product over all variables of the
    probability that the variable has the value [v] gives it ([pv] by variable name, zero if absent). *)
Section weight.
Context {R : Type} (rO rI : R) (radd rmul rsub : R → R → R).
Definition var_prob (pv : gmap string R) (names : list string) (l : nat) : R :=
  default rO (pv !! default EmptyString (names !! l)).
Definition weight (pv : gmap string R) (names : list string) (v : list bool) : R :=
  foldr rmul rI (imap (λ l (b : bool), if b then var_prob pv names l else rsub rI (var_prob pv names l)) v).
Definition ring_sum (l : list R) : R := foldr radd rO l.
End weight.

(** The variable named [x] occurs in the diagram of [f]. *)
Definition bdd_occurs (m : bdd) (f : nat) (x : string) : Prop :=
  ∃ id h cs hd, bdd_reaches m [f] id ∧ ar_nodes (b_ar m) !! id = Some (NT h cs) ∧
    ar_headers (b_ar m) !! h = Some hd ∧ h_label hd = x.
