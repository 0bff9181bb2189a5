(** Model of the edge-valued (EV+) MDD manager.  Source: evmdd_core/src/evplus_mdd.rs.  The crate is not a
    member of the workspace (the root Cargo.toml does not list it), it is modelled because its source is part
    of the repository.  Simplification: the edge value type [V: EdgeValue] is the unbounded integers; a machine
    integer type would panic or wrap on overflow.  Node ids are unbounded naturals.  There is no garbage
    collection in this file (lines 794-823 are commented out). *)
From Verif Require Import Prelude Arena Mdd.

(** EvEdge, evplus_mdd.rs:13-17: value and node *)
Notation evedge := (Z * nat)%type.
(** Node, NonTerminalEvMDD, evplus_mdd.rs:38-43, 100-105 *)
Inductive evnode := ENt (h : nat) (es : list evedge) | EOmega | EInfinity.
(** Operation, evplus_mdd.rs:90-98 *)
Inductive evop := EAdd | ESub | EMin | EMax.
Global Instance evop_eq : EqDecision evop.
Proof. solve_decision. Defined.
Definition evop_code (o : evop) : nat := match o with EAdd => 0 | ESub => 1 | EMin => 2 | EMax => 3 end.

(** EvMddManager, evplus_mdd.rs:131-142.  The cache is keyed by (operation, f, g, fv - gv). *)
Record evm := Evm { e_headers : list header; e_nodes : list evnode;
  e_utable : gmap (nat * list evedge) nat; e_cache : gmap (nat * nat * nat * Z) evedge }.

(** omega and infinity: Node::id, evplus_mdd.rs:115-121, and 222-228 *)
Definition ev_omega : nat := 0.
Definition ev_infinity : nat := 1.
(** evplus_mdd.rs:148-175 *)
Definition ev_new : evm := Evm [] [EOmega; EInfinity] ∅ ∅.

(** evplus_mdd.rs:189-195 *)
Definition ev_create_header (m : evm) (level : nat) (label : String.string) (edges : nat) : evm * nat :=
  (Evm (e_headers m ++ [Header (length (e_headers m)) level label edges]) (e_nodes m) (e_utable m) (e_cache m), length (e_headers m)).

(** evplus_mdd.rs:197-215 ([new_nonterminal], 177-183, inlined).  [None]: the [min().unwrap()] of line 205
    panics on an empty slice. *)
Definition ev_create_node (m : evm) (h : nat) (es : list evedge) : option (evm * evedge) :=
  match es with
  | [] => None
  | first :: _ =>
      if forallb (λ x, bool_decide (first = x)) es then Some (m, first)
      else
        let mu := foldr Z.min first.1 (map fst es) in
        let es := map (λ x, ((x.1 - mu)%Z, x.2)) es in
        match e_utable m !! (h, es) with
        | Some x => Some (m, (mu, x))
        | None =>
            let id := length (e_nodes m) in
            Some (Evm (e_headers m) (e_nodes m ++ [ENt h es]) (<[(h, es) := id]> (e_utable m)) (e_cache m),
                  (mu, id))
        end
  end.

(** evplus_mdd.rs:238-243: panic (outer [None]) when the node does not exist; [None] for terminals *)
Definition ev_level (m : evm) (id : nat) : option (option nat) :=
  n ← e_nodes m !! id;
  Some (match n with ENt h _ => h_level <$> e_headers m !! h | _ => None end).
(** the order of Rust's [Option<Level>]: [None] is the least *)
Definition olt (a b : option nat) : bool :=
  match a, b with None, Some _ => true | Some x, Some y => x <? y | _, None => false end.

(** What an operation returns without visiting children: evplus_mdd.rs:264-267 (min), 346-348 (max),
    427-429 (add), 508-510 (sub) *)
Definition ev_leaf (o : evop) (fv : Z) (f : nat) (gv : Z) (g : nat) (fn gn : evnode) : option evedge :=
  match o with
  | EMin =>
      match fn, gn with
      | EInfinity, EInfinity => Some (0%Z, ev_infinity)
      | EInfinity, _ => Some (gv, g)
      | _, EInfinity => Some (fv, f)
      | EOmega, EOmega => Some (Z.min fv gv, ev_omega)
      | _, _ => None
      end
  | _ =>
      match fn, gn with
      | EInfinity, _ | _, EInfinity => Some (0%Z, ev_infinity)
      | EOmega, EOmega =>
          Some ((match o with EMax => Z.max fv gv | EAdd => fv + gv | _ => fv - gv end)%Z, ev_omega)
      | _, _ => None
      end
  end.
(** How the stored result, relative to [mu = min(fv, gv)], becomes the result: evplus_mdd.rs:261, 277 (min),
    343, 358 (max), 424, 439 (add: twice), 505, 520 (sub: not at all) *)
Definition ev_back (o : evop) (mu : Z) (e : evedge) : evedge :=
  match o with
  | EMin | EMax => ((mu + e.1)%Z, e.2)
  | EAdd => ((mu + mu + e.1)%Z, e.2)
  | ESub => e
  end.
(** The recursive arms, the same in the four operations: evplus_mdd.rs:268-335 (min), 349-417 (max),
    430-498 (add), 511-579 (sub).  Result: header and the operands of the recursive calls. *)
Definition ev_expand (m : evm) (fv : Z) (f : nat) (gv : Z) (g : nat) (fn gn : evnode)
  : option (nat * list (evedge * evedge)) :=
  let mu := Z.min fv gv in
  let lf h es := Some (h, map (λ e : evedge, ((fv - mu + e.1, e.2), (gv - mu, g))%Z) es) in
  let rg h es := Some (h, map (λ e : evedge, ((fv - mu, f), (gv - mu + e.1, e.2))%Z) es) in
  match fn, gn with
  | EOmega, ENt hg ge => rg hg ge
  | ENt hf fe, EOmega => lf hf fe
  | ENt hf fe, ENt hg ge =>
      l1 ← ev_level m f;
      l2 ← ev_level m g;
      if olt l2 l1 then lf hf fe
      else if olt l1 l2 then rg hg ge
      else Some (hf, map (λ p : evedge * evedge, ((fv - mu + p.1.1, p.1.2), (gv - mu + p.2.1, p.2.2))%Z) (zip fe ge))
  | _, _ => None
  end.

(** evplus_mdd.rs: min 257-337, max 339-418, add 420-499, sub 501-580.  [n] bounds the recursion depth. *)
Fixpoint ev_bin_f (o : evop) (n : nat) (m : evm) (fv : Z) (f : nat) (gv : Z) (g : nat) : option (evm * evedge) :=
  match n with
  | O => None
  | S n =>
      let mu := Z.min fv gv in
      let key := (evop_code o, f, g, (fv - gv)%Z) in
      match e_cache m !! key with
      | Some x => Some (m, ev_back o mu x)
      | None =>
          fn ← e_nodes m !! f;
          gn ← e_nodes m !! g;
          match ev_leaf o fv f gv g fn gn with
          | Some e => Some (m, e)
          | None =>
              '(h, ps) ← ev_expand m fv f gv g fn gn;
              '(m, es) ← mapst (λ m p, ev_bin_f o n m p.1.1 p.1.2 p.2.1 p.2.2) m ps;
              '(m, e) ← ev_create_node m h es;
              Some (Evm (e_headers m) (e_nodes m) (e_utable m) (<[key := e]> (e_cache m)), ev_back o mu e)
          end
      end
  end.
(** The recursion descends from [f] or [g] to a node created earlier, so this bound suffices (PropsEv.v). *)
Definition ev_bin (o : evop) (m : evm) (fv : Z) (f : nat) (gv : Z) (g : nat) : option (evm * evedge) :=
  ev_bin_f o (S (f + g)) m fv f gv g.
Definition ev_min := ev_bin EMin.
Definition ev_max := ev_bin EMax.
Definition ev_add := ev_bin EAdd.
Definition ev_sub := ev_bin ESub.
