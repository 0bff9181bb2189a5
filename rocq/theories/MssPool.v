(** minpath and mincut of an MssMgr on a node of another MddMgr. *)
From stdpp Require Import strings.
From Verif Require Import Prelude ComputeCache Arena Bdd Mdd MtMdd MtMdd2 Zmdd ZmddAlg BssMgr MddMinsol MssConv MssMgr.

(** minpath and mincut, mss.rs:170-180 and 200-210, for a node whose manager [node.get_mgr()] has the forest [src], not the one
    inside [s]: the solution and the base value are computed in [src], the family is stored in the ZMDD forest of [s], and the
    list of variables is that of [s] ([self.mdd.get_varorder()]).  [rev] selects mincut. *)
Definition s_sol_of (I : vint) (rev : bool) (s : mss) (src : mm) (x : mnode) : option (mss * mm * option zmnode) :=
  '(m, fake) ← (if rev then mdd_maxsol I else mdd_minsol I) src x;
  vars ← g_varorder (s_m s);
  baseline ← eval_extreme m x rev;
  match fake with
  | None => Some (s, m, None)
  | Some f => '(q, r) ← q_convert (s_z s) m f rev vars baseline; Some (Mss (s_m s) q, m, Some r)
  end.
