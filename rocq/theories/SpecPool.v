(** Several BDD managers and one BssMgr.  [minpath] and [mincut] of a BssMgr work in the manager of the node they are given
    ([node.get_mgr()], bss.rs:110; [node.dual()], bss.rs:135) and put the family into the BssMgr's own ZDD forest ([self.zdd],
    bss.rs:121, 126), whichever manager the node belongs to; the BssMgr's own [bdd] is not touched.  So the call on a node of
    manager [w] by the BssMgr whose forest is [y] is [s_minpath (BssM w y)] (ZddMgr.v). *)
From stdpp Require Import strings.
From Verif Require Import Prelude ComputeCache Arena Bdd BssAlg BssMgr SpecBssMgr Zdd ZddAlg ZddMgr SpecZddMgr.

(** A family held is listed with the number of the manager it belongs to; [None]: nothing is claimed of the handle. *)
Definition tholds := list (nat * option (nat * fam)).

(** Calls on the families ([n] managers).  The empty and the unit family can be had for any of them.  A set operation on two families of
    one manager gives one of that manager; nothing is claimed of the result if they belong to different ones. *)
Inductive tidy (n : nat) : zmgr → tholds → zmgr → tholds → Prop :=
  | td_empty i w H w' r : i < n → y_empty w = Some (w', r) → tidy n w H w' ((r, Some (i, λ _, False)) :: H)
  | td_base i w H w' r : i < n → y_base w = Some (w', r) → tidy n w H w' ((r, Some (i, λ S, S = ∅)) :: H)
  | td_same o i w H f F g G R w' r : (f, Some (i, F)) ∈ H → (g, Some (i, G)) ∈ H → zop_gives o (Some F) (Some G) (Some R) →
      y_op o w f g = Some (w', r) → tidy n w H w' ((r, Some (i, R)) :: H)
  | td_mixed o w H f X g Y w' r : (f, X) ∈ H → (g, Y) ∈ H → y_op o w f g = Some (w', r) → tidy n w H w' ((r, None) :: H)
  | td_clone w H f X : (f, X) ∈ H → tidy n w H (y_clone w f) ((f, X) :: H)
  | td_drop w H f X H' : H ≡ₚ (f, X) :: H' → tidy n w H (y_drop w f) H'
  | td_threshold w H t : tidy n w H (y_set_threshold w t) H
  | td_clear w H : tidy n w H (y_clear_cache w) H.

(** [pool_held P y HZ]: what is held of each BDD manager of the pool [P], and of the forest [y] that receives the families *)
Definition pool := list (bmgr * list (nat * nfun)).
Inductive pool_held : pool → zmgr → tholds → Prop :=
  | ph_new n : pool_held (replicate n (w_new, [])) y_new []
  | ph_bdd P i w HB w' HB' y HZ : pool_held P y HZ → P !! i = Some (w, HB) → bss_step w HB w' HB' →
      pool_held (<[i := (w', HB')]> P) y HZ
  | ph_tidy P y HZ y' HZ' : pool_held P y HZ → tidy (length P) y HZ y' HZ' → pool_held P y' HZ'
  | ph_minpath P i w HB y HZ f F s r : pool_held P y HZ → P !! i = Some (w, HB) → (f, F) ∈ HB →
      s_minpath (BssM w y) f = Some (s, r) →
      pool_held (<[i := (s_bdd s, HB)]> P) (s_zdd s) (match r with Some z => (z, Some (i, min_paths F)) :: HZ | None => HZ end)
  | ph_mincut P i w HB y HZ f F s r : pool_held P y HZ → P !! i = Some (w, HB) → (f, F) ∈ HB →
      s_mincut (BssM w y) f = Some (s, r) →
      pool_held (<[i := (s_bdd s, HB)]> P) (s_zdd s) (match r with Some z => (z, Some (i, min_cuts F)) :: HZ | None => HZ end).
