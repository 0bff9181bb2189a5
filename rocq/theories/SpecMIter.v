(** Specification vocabulary for multi-state iterators in progress. *)
From stdpp Require Import strings.
From Verif Require Import Prelude ComputeCache Arena Bdd Mdd MtMdd MtMdd2 Zmdd ZmddAlg BssMgr MssMgr MssAlg
  SpecMdd SpecBss SpecMss SpecMssAlg SpecIter MIter.

(** An iterator with the meaning of the handle it was made from (if one is promised) and what it has yielded. *)
Record grun := GRun { gr_it : giter; gr_fun : option mfn; gr_out : list (gmap string nat) }.
Record qrun := QRun { qr_it : qiter; qr_fam : option family; qr_out : list (gmap string nat) }.

(** An MddMgr on its own: any call, any start, any [next] and any end of an iterator may come next. *)
Inductive mdd_iter (I : vint) : mmgr → handles → list grun → Prop :=
  | gi_new : mdd_iter I g_new [] []
  | gi_call w H its w' H' : mdd_iter I w H its → mdd_step I w H w' H' → mdd_iter I w' H' its
  | gi_start w H its x F ss w' it : mdd_iter I w H its → (x, F) ∈ H → giter_start w x ss = Some (w', it) →
      mdd_iter I w' H (GRun it F [] :: its)
  | gi_next w H its i r k it' o : mdd_iter I w H its → its !! i = Some r → giter_next k w (gr_it r) = Some (it', o) →
      mdd_iter I w H (<[i := GRun it' (gr_fun r) (yield (gr_out r) o)]> its)
  | gi_stop w H its1 r its2 : mdd_iter I w H (its1 ++ r :: its2) → mdd_iter I (giter_drop w (gr_it r)) H (its1 ++ its2).

(** An MssMgr with iterators of both kinds in progress. *)
Inductive mss_iter (I : vint) : mss → handles → families → list grun → list qrun → Prop :=
  | mi_new : mss_iter I s_new [] [] [] []
  | mi_call s H Q IG IQ s' H' Q' : mss_iter I s H Q IG IQ → mss_step I s H Q s' H' Q' → mss_iter I s' H' Q' IG IQ
  | mi_gstart w q H Q IG IQ x F ss w' it : mss_iter I (Mss w q) H Q IG IQ → (x, F) ∈ H → giter_start w x ss = Some (w', it) →
      mss_iter I (Mss w' q) H Q (GRun it F [] :: IG) IQ
  | mi_gnext s H Q IG IQ i r k it' o : mss_iter I s H Q IG IQ → IG !! i = Some r → giter_next k (s_m s) (gr_it r) = Some (it', o) →
      mss_iter I s H Q (<[i := GRun it' (gr_fun r) (yield (gr_out r) o)]> IG) IQ
  | mi_gstop w q H Q IG1 r IG2 IQ : mss_iter I (Mss w q) H Q (IG1 ++ r :: IG2) IQ →
      mss_iter I (Mss (giter_drop w (gr_it r)) q) H Q (IG1 ++ IG2) IQ
  | mi_qstart w q H Q IG IQ x R ss q' it : mss_iter I (Mss w q) H Q IG IQ → (x, R) ∈ Q → qiter_start q x ss = Some (q', it) →
      mss_iter I (Mss w q') H Q IG (QRun it R [] :: IQ)
  | mi_qnext s H Q IG IQ i r k it' o : mss_iter I s H Q IG IQ → IQ !! i = Some r → qiter_next k (s_z s) (qr_it r) = Some (it', o) →
      mss_iter I s H Q IG (<[i := QRun it' (qr_fam r) (yield (qr_out r) o)]> IQ)
  | mi_qstop w q H Q IG IQ1 r IQ2 : mss_iter I (Mss w q) H Q IG (IQ1 ++ r :: IQ2) →
      mss_iter I (Mss w (qiter_drop q (qr_it r))) H Q IG (IQ1 ++ IQ2).
