(** Specification vocabulary for iterators in progress. *)
From stdpp Require Import strings.
From Verif Require Import Prelude ComputeCache Arena Bdd BssAlg BssMgr SpecBdd SpecBss SpecBssMgr ZddMgr SpecZddMgr Iter.

(** An iterator with the function of the handle it was made from and what it has yielded so far. *)
Record brun := BRun { br_it : biter; br_fun : nfun; br_out : list (list string) }.
Definition yield {X} (out : list X) (o : option X) : list X := match o with Some x => out ++ [x] | None => out end.

(** [bss_iter w H its]: the wrapper state [w] can be reached with the user holding [H] while the iterators
    [its] are in progress: any wrapper call, any start, any [next] of any iterator and any end of one may
    come next. *)
Inductive bss_iter : bmgr → list (nat * nfun) → list brun → Prop :=
  | bi_new : bss_iter w_new [] []
  | bi_call w H its w' H' : bss_iter w H its → bss_step w H w' H' → bss_iter w' H' its
  | bi_start w H its f F ss w' it : bss_iter w H its → (f, F) ∈ H → biter_start w f ss = Some (w', it) →
      bss_iter w' H (BRun it F [] :: its)
  | bi_next w H its i r k it' o : bss_iter w H its → its !! i = Some r → biter_next k w (br_it r) = Some (it', o) →
      bss_iter w H (<[i := BRun it' (br_fun r) (yield (br_out r) o)]> its)
  | bi_stop w H its1 r its2 : bss_iter w H (its1 ++ r :: its2) → bss_iter (biter_drop w (br_it r)) H (its1 ++ its2).

(** the variables, lowest first *)
Definition w_names (w : bmgr) : list string := h_label <$> ar_headers (b_ar (w_bdd w)).
(** [e] gives the first variables the values [v] *)
Definition agrees (names : list string) (v : list bool) (e : env) : Prop :=
  ∀ i b, v !! i = Some b → ∃ x, names !! i = Some x ∧ e x = b.

(** ** Families of sets *)
(** An iterator over the members of a family ([ss = [true]] is the default). *)
Record zrun := ZRun { zr_it : ziter; zr_fam : option fam; zr_out : list (list string) }.

(** a ZddMgr on its own, with iterators in progress *)
Inductive zdd_iter : zmgr → zholds → list zrun → Prop :=
  | zi_new : zdd_iter y_new [] []
  | zi_call w H its w' H' : zdd_iter w H its → y_step w H w' H' → zdd_iter w' H' its
  | zi_singleton w H its x w' r : zdd_iter w H its → y_singleton w x = Some (w', r) →
      zdd_iter w' ((r, Some (λ S, S = {[x]})) :: H) its
  | zi_from_sets w H its sets w' r : zdd_iter w H its → y_from_sets w sets = Some (w', r) →
      zdd_iter w' ((r, Some (λ S, ∃ s, s ∈ sets ∧ S = list_to_set s)) :: H) its
  | zi_start w H its f F ss w' it : zdd_iter w H its → (f, F) ∈ H → ziter_start w f ss = (w', it) →
      zdd_iter w' H (ZRun it F [] :: its)
  | zi_next w H its i r k it' o : zdd_iter w H its → its !! i = Some r → ziter_next k w (zr_it r) = Some (it', o) →
      zdd_iter w H (<[i := ZRun it' (zr_fam r) (yield (zr_out r) o)]> its)
  | zi_stop w H its1 r its2 : zdd_iter w H (its1 ++ r :: its2) → zdd_iter (ziter_drop w (zr_it r)) H (its1 ++ its2).

(** a BssMgr, with iterators of both kinds in progress *)
Inductive bssm_iter : bssmgr → list (nat * nfun) → zholds → list brun → list zrun → Prop :=
  | ji_new : bssm_iter s_new [] [] [] []
  | ji_bdd s HB HZ IB IZ w' HB' : bssm_iter s HB HZ IB IZ → bss_step (s_bdd s) HB w' HB' →
      bssm_iter (BssM w' (s_zdd s)) HB' HZ IB IZ
  | ji_zdd s HB HZ IB IZ y' HZ' : bssm_iter s HB HZ IB IZ → y_step (s_zdd s) HZ y' HZ' →
      bssm_iter (BssM (s_bdd s) y') HB HZ' IB IZ
  | ji_minpath s HB HZ IB IZ f F s' r : bssm_iter s HB HZ IB IZ → (f, F) ∈ HB → s_minpath s f = Some (s', r) →
      bssm_iter s' HB (match r with Some z => (z, Some (min_paths F)) :: HZ | None => HZ end) IB IZ
  | ji_mincut s HB HZ IB IZ f F s' r : bssm_iter s HB HZ IB IZ → (f, F) ∈ HB → s_mincut s f = Some (s', r) →
      bssm_iter s' HB (match r with Some z => (z, Some (min_cuts F)) :: HZ | None => HZ end) IB IZ
  | ji_clear s HB HZ IB IZ : bssm_iter s HB HZ IB IZ → bssm_iter (s_clear_cache s) HB HZ IB IZ
  | ji_bstart s HB HZ IB IZ f F ss w' it : bssm_iter s HB HZ IB IZ → (f, F) ∈ HB → biter_start (s_bdd s) f ss = Some (w', it) →
      bssm_iter (BssM w' (s_zdd s)) HB HZ (BRun it F [] :: IB) IZ
  | ji_bnext s HB HZ IB IZ i r k it' o : bssm_iter s HB HZ IB IZ → IB !! i = Some r →
      biter_next k (s_bdd s) (br_it r) = Some (it', o) →
      bssm_iter s HB HZ (<[i := BRun it' (br_fun r) (yield (br_out r) o)]> IB) IZ
  | ji_bstop s HB HZ IB1 r IB2 IZ : bssm_iter s HB HZ (IB1 ++ r :: IB2) IZ →
      bssm_iter (BssM (biter_drop (s_bdd s) (br_it r)) (s_zdd s)) HB HZ (IB1 ++ IB2) IZ
  | ji_zstart s HB HZ IB IZ f F ss y' it : bssm_iter s HB HZ IB IZ → (f, F) ∈ HZ → ziter_start (s_zdd s) f ss = (y', it) →
      bssm_iter (BssM (s_bdd s) y') HB HZ IB (ZRun it F [] :: IZ)
  | ji_znext s HB HZ IB IZ i r k it' o : bssm_iter s HB HZ IB IZ → IZ !! i = Some r →
      ziter_next k (s_zdd s) (zr_it r) = Some (it', o) →
      bssm_iter s HB HZ IB (<[i := ZRun it' (zr_fam r) (yield (zr_out r) o)]> IZ)
  | ji_zstop s HB HZ IB IZ1 r IZ2 : bssm_iter s HB HZ IB (IZ1 ++ r :: IZ2) →
      bssm_iter (BssM (s_bdd s) (ziter_drop (s_zdd s) (zr_it r))) HB HZ IB (IZ1 ++ IZ2).
