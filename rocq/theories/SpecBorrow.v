(** What a client can do with the wrappers, for the borrow discipline of Borrow.v. *)
From Coq Require Import ZArith.
From stdpp Require Import strings list.
From Verif Require Import Prelude Borrow.
Local Open Scope Z_scope.

(** A client: any calls on any managers, in any order; a panic inside a call may have been caught
    ([catch_unwind]), after which the client goes on. *)
Inductive session : list call → list ev → Prop :=
  | S_nil : session [] []
  | S_cons k ks t u b : runs (body k) t b → session ks u → session (k :: ks) (t ++ u).

(** The calls that only look: they need no exclusive borrow of an arena. *)
Definition looks (k : call) : bool :=
  match k with
  | Bdd_new _ | Bdd_set_gc_threshold _ | Bdd_live_node_count _ | Bdd_size _ | Bdd_get_varorder _ | Bdd_clone _
  | Bdd_drop _ | Bdd_get_mgr _ | Bdd_get_id _ | Bdd_get_header _ | Bdd_get_level _ | Bdd_get_label _
  | Bdd_get_children _ | Bdd_is_zero _ | Bdd_is_one _ | Bdd_is_undet _ | Bdd_dot _ | Bdd_eq _
  | Bdd_extract _ | Bdd_node_size _ | Bdd_path_next _ | Bdd_path_drop _ | Zdd_new _ | Zdd_set_gc_threshold _
  | Zdd_live_node_count _ | Zdd_size _ | Zdd_clone _ | Zdd_drop _ | Zdd_get_mgr _ | Zdd_get_id _
  | Zdd_get_header _ | Zdd_get_level _ | Zdd_get_label _ | Zdd_get_children _ | Zdd_is_zero _ | Zdd_is_one _
  | Zdd_eq _ | Zdd_dot _ | Zdd_count _ | Zdd_extract _ | Zdd_node_size _ | Zdd_path_len _
  | Zdd_path_next _ | Zdd_path_drop _ | Bss_new _ _ | Bss_get_varorder _ | Bss_size _ | Mdd_new _
  | Mdd_size _ | Mdd_set_gc_threshold _ | Mdd_live_node_count _ | Mdd_get_varorder _ | Mdd_clone _ | Mdd_drop _
  | Mdd_get_mgr _ | Mdd_get_node _ | Mdd_get_id _ | Mdd_get_id2 _ | Mdd_get_header _ | Mdd_get_level _
  | Mdd_get_label _ | Mdd_get_children _ | Mdd_is_boolean _ | Mdd_is_value _ | Mdd_is_zero _ | Mdd_is_one _
  | Mdd_is_undet _ | Mdd_value _ | Mdd_dot _ | Mdd_count _ | Mdd_extract _ | Mdd_node_size _
  | Mdd_path_len _ | Mdd_path_next _ | Mdd_path_drop _ | Zmdd_new _ | Zmdd_size _ | Zmdd_clone _
  | Zmdd_drop _ | Zmdd_get_mgr _ | Zmdd_get_id _ | Zmdd_is_cut _ | Zmdd_vars _ | Zmdd_labels _
  | Zmdd_extract_level _ | Zmdd_count _ | Zmdd_dot _ | Zmdd_extract _ | Zmdd_path_next _ | Zmdd_path_drop _
  | Mss_new _ _ | Mss_get_varorder _ | Mss_size _ | Mss_set_gc_threshold _ | Mss_live_node_count _
    => true
  | _ => false
  end.

(** The flags when the caller itself holds shared borrows of arenas (it got the [RefCell] from
    [get_mgr()] and called [borrow()] any number of times) and nothing else is borrowed. *)
Definition caller_reads (s : flags) : Prop := (∀ m, 0 ≤ s (Arena m)) ∧ (∀ m, s (Roots m) = 0).
