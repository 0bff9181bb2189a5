(** Specification vocabulary for ZddMgr and BssMgr: families of sets of names, what the user holds. *)
From stdpp Require Import strings.
From Verif Require Import Prelude ComputeCache Arena Bdd BssAlg BssMgr SpecBdd SpecBssMgr Zdd ZddAlg SpecZdd ZddMgr.

(** a family of sets of element names *)
Definition fam := gset string → Prop.

(** [named_has m t id S]: some path from node [id] ends in terminal [t], and the labels of the nodes at
    which the path takes the high edge are exactly [S]. *)
Inductive named_has (m : zdd) (t : tv) : nat → gset string → Prop :=
  | nh_term id : ar_nodes (z_ar m) !! id = Some (Term t) → named_has m t id ∅
  | nh_low id h lo hi S :
      ar_nodes (z_ar m) !! id = Some (NT h [lo; hi]) → named_has m t lo S → named_has m t id S
  | nh_high id h lo hi hd S :
      ar_nodes (z_ar m) !! id = Some (NT h [lo; hi]) → ar_headers (z_ar m) !! h = Some hd →
      named_has m t hi S → named_has m t id ({[h_label hd]} ∪ S).
(** node [id] is usable and stands for the family [F] *)
Definition stands_for (m : zdd) (id : nat) (F : fam) : Prop :=
  zdd_valid m id ∧ (∀ S, ¬ named_has m TUndet id S) ∧ ∀ S, named_has m TOne id S ↔ F S.

(** no member of one is a proper subset of a member of the other *)
Definition apart (F G : fam) : Prop := ∀ A B, F A → G B → A ⊆ B ∨ B ⊆ A → A = B.

(** What a set operation on two families is to give.  [None]: nothing is claimed of the family (intersect
    and divide are wrong in general, C20 and C21). *)
Inductive zop_gives : zop → option fam → option fam → option fam → Prop :=
  | zg_union F G : zop_gives ZUnion (Some F) (Some G) (Some (λ S, F S ∨ G S))
  | zg_setdiff F G : zop_gives ZSetdiff (Some F) (Some G) (Some (λ S, F S ∧ ¬ G S))
  | zg_product F G : zop_gives ZProduct (Some F) (Some G) (Some (λ S, ∃ A B, S = A ∪ B ∧ F A ∧ G B))
  | zg_intersect F G : apart F G → zop_gives ZIntersect (Some F) (Some G) (Some (λ S, F S ∧ G S))
  | zg_divide F (G : fam) : (∀ S, G S ↔ S = ∅) → zop_gives ZDivision (Some F) (Some G) (Some F)
  | zg_any o F G : zop_gives o F G None.

(** the members that lack [x]; the members that have [x], with [x] removed *)
Definition without (x : string) (F : fam) : fam := λ S, x ∉ S ∧ F S.
Definition within (x : string) (F : fam) : fam := λ S, x ∉ S ∧ F ({[x]} ∪ S).

(** ** Histories
    [y_step w H w' H']: one call takes the manager from [w] to [w'] and what the user holds from [H] to
    [H'] (a handle held twice is listed twice), each handle with the family it was created to denote. *)
Definition zholds := list (nat * option fam).
Inductive y_step : zmgr → zholds → zmgr → zholds → Prop :=
  | ys_empty w H w' r : y_empty w = Some (w', r) → y_step w H w' ((r, Some (λ _, False)) :: H)
  | ys_base w H w' r : y_base w = Some (w', r) → y_step w H w' ((r, Some (λ S, S = ∅)) :: H)
  | ys_op o w H f F g G R w' r : (f, F) ∈ H → (g, G) ∈ H → zop_gives o F G R → y_op o w f g = Some (w', r) →
      y_step w H w' ((r, R) :: H)
  | ys_children w H f F x w' f0 f1 : (f, F) ∈ H → y_label w f = Some x →
      y_children w f = Some (w', Some (f0, f1)) →
      y_step w H w' ((f0, without x <$> F) :: (f1, within x <$> F) :: H)
  | ys_clone w H f F : (f, F) ∈ H → y_step w H (y_clone w f) ((f, F) :: H)
  | ys_drop w H f F H' : H ≡ₚ (f, F) :: H' → y_step w H (y_drop w f) H'
  | ys_threshold w H t : y_step w H (y_set_threshold w t) H
  | ys_clear w H : y_step w H (y_clear_cache w) H.

(** a ZddMgr on its own *)
Inductive zdd_held : zmgr → zholds → Prop :=
  | zm_new : zdd_held y_new []
  | zm_step w H w' H' : zdd_held w H → y_step w H w' H' → zdd_held w' H'
  | zm_singleton w H x w' r : zdd_held w H → y_singleton w x = Some (w', r) →
      zdd_held w' ((r, Some (λ S, S = {[x]})) :: H)
  | zm_from_sets w H sets w' r : zdd_held w H → y_from_sets w sets = Some (w', r) →
      zdd_held w' ((r, Some (λ S, ∃ s, s ∈ sets ∧ S = list_to_set s)) :: H).

(** ** Structure functions *)
Definition increasing (F : nfun) : Prop := ∀ e e' : env, (∀ x, e x = true → e' x = true) → F e = true → F e' = true.
(** exactly the components in [S] work / are down *)
Definition up (S : gset string) : env := λ x, bool_decide (x ∈ S).
Definition down (S : gset string) : env := λ x, bool_decide (x ∉ S).
Definition min_paths (F : nfun) : fam := λ S, F (up S) = true ∧ ∀ S', S' ⊂ S → F (up S') = false.
Definition min_cuts (F : nfun) : fam := λ S, F (down S) = false ∧ ∀ S', S' ⊂ S → F (down S') = true.

(** a BssMgr: calls on either inner manager, and the calls that span both *)
Inductive bssm_held : bssmgr → list (nat * nfun) → zholds → Prop :=
  | jm_new : bssm_held s_new [] []
  | jm_bdd s HB HZ w' HB' : bssm_held s HB HZ → bss_step (s_bdd s) HB w' HB' → bssm_held (BssM w' (s_zdd s)) HB' HZ
  | jm_zdd s HB HZ y' HZ' : bssm_held s HB HZ → y_step (s_zdd s) HZ y' HZ' → bssm_held (BssM (s_bdd s) y') HB HZ'
  | jm_minpath s HB HZ f F s' r : bssm_held s HB HZ → (f, F) ∈ HB → s_minpath s f = Some (s', r) →
      bssm_held s' HB (match r with Some z => (z, Some (min_paths F)) :: HZ | None => HZ end)
  | jm_mincut s HB HZ f F s' r : bssm_held s HB HZ → (f, F) ∈ HB → s_mincut s f = Some (s', r) →
      bssm_held s' HB (match r with Some z => (z, Some (min_cuts F)) :: HZ | None => HZ end)
  | jm_clear s HB HZ : bssm_held s HB HZ → bssm_held (s_clear_cache s) HB HZ.

(** a ZddMgr in use, on its own or inside a BssMgr *)
Definition zdd_in_use (w : zmgr) (H : zholds) : Prop :=
  zdd_held w H ∨ ∃ s HB, bssm_held s HB H ∧ w = s_zdd s.
