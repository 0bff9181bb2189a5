(** The solution iterators as objects that live beside the manager: one call of [next] at a time, with the
    manager as it is at that moment.  The loop bodies are those of BssAlg, ZddAlg, MssAlg and ZmddAlg. *)
From stdpp Require Import strings.
From Verif Require Import Prelude ComputeCache Arena Bdd BssAlg BssMgr Zdd ZddAlg ZddMgr.

(** The while loop of [next], bdd_path.rs:53-123, zdd_path.rs:46-76, mdd_path.rs:91-134 and 139-187,
    zmdd.rs:417-458: pop and process stack entries until one of them returns an item or the stack is
    empty.  [step] is one iteration; [fuel] bounds the number of iterations, [None] = bound exceeded or
    panic. *)
Section machine.
Context {St X : Type} (halted : St → bool) (step : St → option (St * option X)).
Fixpoint iter_next (fuel : nat) (s : St) : option (St * option X) :=
  if halted s then Some (s, None)
  else match fuel with
       | O => None
       | S k =>
           '(s, out) ← step s;
           match out with Some x => Some (s, Some x) | None => iter_next k s end
       end.
End machine.

(** ** BddPath *)
(** bdd_path.rs:10-16 *)
Record biter := BIter { bi_p : bpath; bi_node : nat; bi_labels : list string; bi_ss : list bool }.
(** bdd_path.rs:19-41 as called by bdd.rs:524-526: the handle is cloned (pinned) and moved into the iterator *)
Definition biter_start (w : bmgr) (f : nat) (ss : list bool) : option (bmgr * biter) :=
  labels ← path_labels (b_ar (w_bdd w));
  p ← bpath_new (b_ar (w_bdd w)) f;
  Some (w_clone w f, BIter p f labels ss).
(** bdd_path.rs:51-125 *)
Definition biter_next (fuel : nat) (w : bmgr) (it : biter) : option (biter * option (list string)) :=
  '(p, out) ← iter_next (λ p, match p_stack p with [] => true | _ :: _ => false end)
    (bpath_step (b_ar (w_bdd w)) (bi_labels it) (bi_ss it)) fuel (bi_p it);
  Some (BIter p (bi_node it) (bi_labels it) (bi_ss it), out).
(** bdd_path.rs:43-45 *)
Definition biter_len (w : bmgr) (it : biter) : option N := bdd_count (w_bdd w) (bi_ss it) (bi_node it).
(** the iterator goes out of scope: its [node] is dropped *)
Definition biter_drop (w : bmgr) (it : biter) : bmgr := w_drop w (bi_node it).

(** ** ZddPath *)
(** zdd_path.rs:16-21 *)
Record ziter := ZIter { zi_p : zpath; zi_node : nat; zi_ss : list bool }.
(** zdd_path.rs:24-34 as called by zdd.rs:295-297 *)
Definition ziter_start (w : zmgr) (f : nat) (ss : list bool) : zmgr * ziter := (y_clone w f, ZIter (zpath_new f) f ss).
(** zdd_path.rs:44-78 *)
Definition ziter_next (fuel : nat) (w : zmgr) (it : ziter) : option (ziter * option (list string)) :=
  '(p, out) ← iter_next (λ p, match zp_stack p with [] => true | _ :: _ => false end)
    (zpath_step (z_ar (y_zdd w)) (zi_ss it)) fuel (zi_p it);
  Some (ZIter p (zi_node it) (zi_ss it), out).
(** zdd_path.rs:36-38 *)
Definition ziter_len (w : zmgr) (it : ziter) : option N := y_count w (zi_ss it) (zi_node it).
Definition ziter_drop (w : zmgr) (it : ziter) : zmgr := y_drop w (zi_node it).
