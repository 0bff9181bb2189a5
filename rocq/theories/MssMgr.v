(** Model of the multi-state wrappers MddMgr / MddNode (mss/src/mdd.rs), ZmddMgr / ZmddNode (mss/src/zmdd.rs) and
    MssMgr (mss/src/mss.rs).  A handle is its node (for families: node, direction and variable list); the weak
    back-pointers only matter once the manager itself has been dropped (LifeM.v). *)
From stdpp Require Import strings.
From Verif Require Import Prelude ComputeCache Arena Bdd Mdd MtMdd MtMdd2 Zmdd ZmddAlg BssMgr MddMinsol MssConv.

Global Instance mnode_countable : Countable mnode.
Proof.
  refine (inj_countable' (λ x, match x with NVal f => inl f | NBool f => inr f end)
    (λ s, match s with inl f => NVal f | inr f => NBool f end) _). by intros [].
Defined.

(** ** MddMgr *)
(** mdd.rs:20-27 (GcState) and 56-60 (MddMgr); counters are unbounded *)
Record mmgr := MMgr
  { g_mm : mm; g_roots : gmap mnode nat; g_thr : nat; g_floor : nat; g_vars : gmap string mnode }.
Definition with_mm (w : mmgr) (m : mm) : mmgr := MMgr m (g_roots w) (g_thr w) (g_floor w) (g_vars w).

(** mdd.rs:127-137; GC_FLOOR (mdd.rs:13) has the value of bdd.rs *)
Definition g_new : mmgr := MMgr mm_new ∅ GC_FLOOR GC_FLOOR ∅.

(** from_weak, mdd.rs:72-81, and Drop, mdd.rs:94-106, as in bdd.rs *)
Definition mpin (r : gmap mnode nat) (x : mnode) : gmap mnode nat := <[x := S (default 0 (r !! x))]> r.
Definition munpin (r : gmap mnode nat) (x : mnode) : gmap mnode nat :=
  match r !! x with
  | None => r
  | Some c => if Nat.pred c =? 0 then delete x r else <[x := Nat.pred c]> r
  end.
Definition g_pin (w : mmgr) (x : mnode) : mmgr := MMgr (g_mm w) (mpin (g_roots w) x) (g_thr w) (g_floor w) (g_vars w).
Definition g_clone := g_pin.
Definition g_drop (w : mmgr) (x : mnode) : mmgr :=
  MMgr (g_mm w) (munpin (g_roots w) x) (g_thr w) (g_floor w) (g_vars w).
Definition mroot_keys (r : gmap mnode nat) : list mnode := (map_to_list r).*1.

(** mdd.rs:29-46 *)
Definition g_maybe_gc (w : mmgr) : option mmgr :=
  if mm_live_node_count (g_mm w) <? g_thr w then Some w
  else
    '(m, _) ← mm_gc (g_mm w) (mroot_keys (g_roots w));
    Some (MMgr m (g_roots w) ((mm_live_node_count m * 2) `max` g_floor w) (g_floor w) (g_vars w)).
(** wrap, mdd.rs:158-162, and rewrap, mdd.rs:114-120 *)
Definition g_wrap (w : mmgr) (x : mnode) : option (mmgr * mnode) :=
  w ← g_maybe_gc (g_pin w x); Some (w, x).
Definition g_op (w : mmgr) (r : option (mm * mnode)) : option (mmgr * mnode) :=
  '(m, x) ← r; g_wrap (with_mm w m) x.

(** mdd.rs:180-211 *)
Definition g_boolean (w : mmgr) (b : bool) := g_wrap w (if b then mm_one else mm_zero).
Definition g_value (w : mmgr) (z : Z) := g_op w (Some (mm_value (g_mm w) z)).
Definition g_undet_boolean (w : mmgr) := g_wrap w mm_undet_boolean.
Definition g_undet_value (w : mmgr) := g_wrap w mm_undet_value.
Definition g_create_node (w : mmgr) (h : nat) (xs : list mnode) := g_op w (mm_create_node (g_mm w) h xs).
(** the operators of MddNode, mdd.rs:748-882: add, sub, mul, div, min, max ... *)
Definition g_arith (I : vint) (o : vop) (w : mmgr) (f g : mnode) := g_op w (mm_arith I o (g_mm w) f g).
(** ... eq, ne, lt, le, gt, ge, and, or, xor ([op] is the operation of the inner manager) ... *)
Definition g_bin (op : mm → mnode → mnode → option (mm * mnode)) (w : mmgr) (f g : mnode) := g_op w (op (g_mm w) f g).
(** ... not, ite *)
Definition g_not (w : mmgr) (f : mnode) := g_op w (mm_not (g_mm w) f).
Definition g_ite (w : mmgr) (f g h : mnode) := g_op w (mm_ite (g_mm w) f g h).

(** the n-ary and, or, min, max, mdd.rs:472-518; [nodes\[0\]] panics on an empty slice *)
Fixpoint mm_fold (op : mm → mnode → mnode → option (mm * mnode)) (m : mm) (acc : mnode) (xs : list mnode)
  : option (mm * mnode) :=
  match xs with
  | [] => Some (m, acc)
  | x :: xs => '(m, acc) ← op m acc x; mm_fold op m acc xs
  end.
Definition g_and_list (w : mmgr) (xs : list mnode) := g_op w (mm_fold mm_and (g_mm w) mm_one xs).
Definition g_or_list (w : mmgr) (xs : list mnode) := g_op w (mm_fold mm_or (g_mm w) mm_zero xs).
Definition g_fold1 (op : mm → mnode → mnode → option (mm * mnode)) (w : mmgr) (xs : list mnode) :=
  match xs with [] => None | x :: xs => g_op w (mm_fold op (g_mm w) x xs) end.
Definition g_min_list (I : vint) := g_fold1 (mm_arith I VMin).
Definition g_max_list (I : vint) := g_fold1 (mm_arith I VMax).

(** mdd.rs:520-523, 146-150, 172-178 *)
Definition g_clear_cache (w : mmgr) : mmgr := with_mm w (mm_clear_cache (g_mm w)).
Definition g_set_threshold (w : mmgr) (t : nat) : mmgr := MMgr (g_mm w) (g_roots w) t t (g_vars w).
Definition g_gc (w : mmgr) (keep : list mnode) : option (mmgr * (nat * nat)) :=
  '(m, n) ← mm_gc (g_mm w) (mroot_keys (g_roots w) ++ keep); Some (with_mm w m, n).

(** get_children, mdd.rs:611-656: the children are pinned, without a collection; inner [None] for a terminal *)
Definition g_children (w : mmgr) (x : mnode) : option (mmgr * option (list mnode)) :=
  let kids tag cs := let xs := map tag cs in Some (foldl g_pin w xs, Some xs) in
  match x with
  | NVal f => n ← ar_nodes (t_ar (mm_v (g_mm w))) !! f; match n with Term _ => Some (w, None) | NT _ cs => kids NVal cs end
  | NBool f => n ← ar_nodes (d_ar (mm_b (g_mm w))) !! f; match n with Term _ => Some (w, None) | NT _ cs => kids NBool cs end
  end.
(** get_header, mdd.rs:552-567 ([None] covers both the missing node and a terminal) *)
Definition g_header (w : mmgr) (x : mnode) : option nat :=
  match x with
  | NVal f => n ← ar_nodes (t_ar (mm_v (g_mm w))) !! f; match n with Term _ => None | NT h _ => Some h end
  | NBool f => n ← ar_nodes (d_ar (mm_b (g_mm w))) !! f; match n with Term _ => None | NT h _ => Some h end
  end.
(** get_label, mdd.rs:590-609 *)
Definition g_label (w : mmgr) (x : mnode) : option string :=
  h ← g_header w x;
  hd ← match x with NVal _ => ar_headers (t_ar (mm_v (g_mm w))) !! h | NBool _ => ar_headers (d_ar (mm_b (g_mm w))) !! h end;
  Some (h_label hd).

(** defvar, mdd.rs:213-228.  [x as i32] is exact for ranges up to 2^31. *)
Definition g_defvar (w : mmgr) (x : string) (range : nat) : option (mmgr * mnode) :=
  match g_vars w !! x with
  | Some n => Some (g_pin w n, n)
  | None =>
      let level := size (g_vars w) in
      '(m, ns) ← mapst (λ m i, Some (mm_value m (Z.of_nat i))) (g_mm w) (seq 0 range);
      '(m, h) ← mm_create_header m level x range;
      '(m, n) ← mm_create_node m h ns;
      (* result, and its clone stored in vars *)
      Some (MMgr m (mpin (mpin (g_roots w) n) n) (g_thr w) (g_floor w) (<[x := n]> (g_vars w)), n)
  end.

(** get_varorder, mdd.rs:230-240; the map is visited in some order *)
Fixpoint g_varorder_go (w : mmgr) (acc : list (string * nat)) (vs : list (string * mnode)) : option (list (string * nat)) :=
  match vs with
  | [] => Some acc
  | (k, v) :: vs =>
      h ← g_header w v;
      hd ← ar_headers (t_ar (mm_v (g_mm w))) !! h;
      if h_level hd <? length acc then g_varorder_go w (<[h_level hd := (k, h_edges hd)]> acc) vs else None
  end.
Definition g_varorder (w : mmgr) : option (list (string * nat)) :=
  g_varorder_go w (replicate (size (g_vars w)) ("?"%string, 0)) (map_to_list (g_vars w)).

(** ** rpn, mdd.rs:297-468 *)
(** [str::parse::<i32>]: an optional sign, then one or more decimal digits; an error if the number does not fit *)
Definition digit_of (c : Ascii.ascii) : option Z :=
  let n := Ascii.nat_of_ascii c in if (48 <=? n) && (n <=? 57) then Some (Z.of_nat (n - 48)) else None.
Definition i32_ok (z : Z) : bool := ((-2147483648 <=? z) && (z <=? 2147483647))%Z.
Fixpoint parse_digits (neg : bool) (s : string) (acc : Z) : option Z :=
  match s with
  | EmptyString => Some acc
  | String c s =>
      d ← digit_of c;
      let acc := (if neg then acc * 10 - d else acc * 10 + d)%Z in
      if i32_ok acc then parse_digits neg s acc else None
  end.
Definition parse_i32 (s : string) : option Z :=
  match s with
  | EmptyString => None
  | String c r =>
      if Ascii.nat_of_ascii c =? 45 then match r with EmptyString => None | _ => parse_digits true r 0 end
      else if Ascii.nat_of_ascii c =? 43 then match r with EmptyString => None | _ => parse_digits false r 0 end
      else parse_digits false s 0
  end.

Record mrpn := MRpn { mr_w : mmgr; mr_stack : list mnode; mr_saved : gmap string mnode }.
(** [stack.pop().unwrap()] twice, then push the result *)
Definition mrpn_bin (s : mrpn) (op : mm → mnode → mnode → option (mm * mnode)) : option mrpn :=
  match mr_stack s with
  | b :: a :: st =>
      '(m, r) ← op (g_mm (mr_w s)) a b;
      Some (MRpn (with_mm (mr_w s) m) (r :: st) (mr_saved s))
  | _ => None
  end.
(** the tokens that pop two operands *)
Definition mrpn_op (I : vint) (token : string) : option (mm → mnode → mnode → option (mm * mnode)) :=
  if String.eqb token "+" then Some (mm_arith I VAdd)
  else if String.eqb token "-" then Some (mm_arith I VSub)
  else if String.eqb token "*" then Some (mm_arith I VMul)
  else if String.eqb token "/" then Some (mm_arith I VDiv)
  else if String.eqb token "min" then Some (mm_arith I VMin)
  else if String.eqb token "max" then Some (mm_arith I VMax)
  else if String.eqb token "==" then Some mm_eq
  else if String.eqb token "!=" then Some mm_neq
  else if String.eqb token "<" then Some mm_lt
  else if String.eqb token "<=" then Some mm_lte
  else if String.eqb token ">" then Some mm_gt
  else if String.eqb token ">=" then Some mm_gte
  else if String.eqb token "&&" then Some mm_and
  else if String.eqb token "||" then Some mm_or
  else None.
(** one loop iteration; outer [None] = panic, [false] = [return Err(..)] *)
Definition mrpn_step (I : vint) (vars : gmap string nat) (s : mrpn) (token : string) : option (mrpn * bool) :=
  let push s x := MRpn (mr_w s) (x :: mr_stack s) (mr_saved s) in
  match mrpn_op I token with
  | Some op => s ← mrpn_bin s op; Some (s, true)
  | None =>
  if String.eqb token "!" then
    match mr_stack s with
    | a :: st => '(m, r) ← mm_not (g_mm (mr_w s)) a; Some (MRpn (with_mm (mr_w s) m) (r :: st) (mr_saved s), true)
    | _ => None
    end
  else if String.eqb token "?" then
    match mr_stack s with
    | c :: b :: a :: st =>
        '(m, r) ← mm_ite (g_mm (mr_w s)) a b c; Some (MRpn (with_mm (mr_w s) m) (r :: st) (mr_saved s), true)
    | _ => None
    end
  else if String.eqb token "True" then Some (push s mm_one, true)
  else if String.eqb token "False" then Some (push s mm_zero, true)
  else match paren_arg "save(" token with
  | Some name =>
      match mr_stack s with
      | x :: st => Some (MRpn (mr_w s) (x :: st) (<[name := x]> (mr_saved s)), true)
      | [] => Some (s, false)
      end
  | None =>
      match paren_arg "load(" token with
      | Some name =>
          match mr_saved s !! name with
          | Some x => Some (push s x, true)
          | None => Some (s, false)
          end
      | None =>
          match parse_i32 token with
          | Some z => let '(m, x) := mm_value (g_mm (mr_w s)) z in
              Some (MRpn (with_mm (mr_w s) m) (x :: mr_stack s) (mr_saved s), true)
          | None =>
              range ← vars !! token;
              (* [node], a fresh handle, is dropped at the end of the arm *)
              '(w, x) ← g_defvar (mr_w s) token range;
              Some (MRpn (g_drop w x) (x :: mr_stack s) (mr_saved s), true)
          end
      end
  end
  end.
Fixpoint mrpn_loop (I : vint) (vars : gmap string nat) (s : mrpn) (tokens : list string) : option (mrpn * bool) :=
  match tokens with
  | [] => Some (s, true)
  | t :: ts => '(s, go) ← mrpn_step I vars s t; if go : bool then mrpn_loop I vars s ts else Some (s, false)
  end.
Definition g_rpn (I : vint) (w : mmgr) (expr : string) (vars : gmap string nat) : option (mmgr * rpn_res mnode) :=
  '(s, go) ← mrpn_loop I vars (MRpn w [] ∅) (split_whitespace expr);
  if go : bool then
    match mr_stack s with
    | [x] => '(w, x) ← g_wrap (mr_w s) x; Some (w, RpnOk x)
    | _ => Some (mr_w s, RpnErr)
    end
  else Some (mr_w s, RpnErr).

(** ** ZmddMgr *)
(** mss/src/zmdd.rs:17-22 (GcState) and 45-48 (ZmddMgr) *)
Record zmgr := ZMgr { q_z : mt; q_roots : gmap nat nat; q_thr : nat; q_floor : nat }.
Definition with_z (q : zmgr) (z : mt) : zmgr := ZMgr z (q_roots q) (q_thr q) (q_floor q).
(** zmdd.rs:53-62 *)
Definition q_new : zmgr := ZMgr zm_new ∅ GC_FLOOR GC_FLOOR.
(** zmdd.rs:142-153; Drop 320-331 *)
Definition q_pin (q : zmgr) (id : nat) : zmgr := ZMgr (q_z q) (pin (q_roots q) id) (q_thr q) (q_floor q).
Definition q_clone (q : zmgr) (x : zmnode) : zmgr := q_pin q (zn_id x).
Definition q_drop (q : zmgr) (x : zmnode) : zmgr := ZMgr (q_z q) (unpin (q_roots q) (zn_id x)) (q_thr q) (q_floor q).
(** zmdd.rs:24-39 *)
Definition q_maybe_gc (q : zmgr) : option zmgr :=
  if zm_live_node_count (q_z q) <? q_thr q then Some q
  else
    '(z, _) ← zm_gc (q_z q) (root_keys (q_roots q));
    Some (ZMgr z (q_roots q) ((zm_live_node_count z * 2) `max` q_floor q) (q_floor q)).
(** wrap, zmdd.rs:64-68, and rewrap, zmdd.rs:165-177 *)
Definition q_wrap (q : zmgr) (id : nat) (reverse : bool) (vars : list (string * nat)) : option (zmgr * zmnode) :=
  q ← q_maybe_gc (q_pin q id); Some (q, ZMNode id reverse vars).
(** convert, zmdd.rs:72-86, and convert_rev, zmdd.rs:92-106 *)
Definition q_convert (q : zmgr) (src : mm) (x : mnode) (reverse : bool) (vars : list (string * nat)) (baseline : Z)
  : option (zmgr * zmnode) :=
  '(z, id) ← to_zmdd src x (q_z q) reverse;
  '(z, id) ← zm_set_baseline z id baseline;
  q_wrap (with_z q z) id reverse vars.
(** intersect and setdiff, zmdd.rs:258-270: the result keeps the direction and variables of [self] *)
Definition q_intersect (q : zmgr) (x y : zmnode) : option (zmgr * zmnode) :=
  '(z, id) ← zm_intersect (q_z q) (zn_id x) (zn_id y); q_wrap (with_z q z) id (zn_rev x) (zn_vars x).
Definition q_setdiff (q : zmgr) (x y : zmnode) : option (zmgr * zmnode) :=
  '(z, id) ← zm_setdiff (q_z q) (zn_id x) (zn_id y); q_wrap (with_z q z) id (zn_rev x) (zn_vars x).
(** zmdd.rs:112-114 *)
Definition q_clear_cache (q : zmgr) : zmgr := with_z q (zm_clear_cache (q_z q)).

(** ** MssMgr *)
(** mss.rs:56-71 *)
Record mss := Mss { s_m : mmgr; s_z : zmgr }.
Definition s_new : mss := Mss g_new q_new.
(** mss.rs:148-151 *)
Definition s_clear_cache (s : mss) : mss := Mss (g_clear_cache (s_m s)) (q_clear_cache (s_z s)).
(** minpath, mss.rs:170-180 (the node comes from this manager; for others see MssPool.v) *)
Definition s_minpath (I : vint) (s : mss) (x : mnode) : option (mss * option zmnode) :=
  '(m, fake) ← mdd_minsol I (g_mm (s_m s)) x;
  let w := with_mm (s_m s) m in
  vars ← g_varorder w;
  baseline ← eval_extreme m x false;
  match fake with
  | None => Some (Mss w (s_z s), None)
  | Some f => '(q, r) ← q_convert (s_z s) m f false vars baseline; Some (Mss w q, Some r)
  end.
(** mincut, mss.rs:200-210 *)
Definition s_mincut (I : vint) (s : mss) (x : mnode) : option (mss * option zmnode) :=
  '(m, fake) ← mdd_maxsol I (g_mm (s_m s)) x;
  let w := with_mm (s_m s) m in
  vars ← g_varorder w;
  baseline ← eval_extreme m x true;
  match fake with
  | None => Some (Mss w (s_z s), None)
  | Some f => '(q, r) ← q_convert (s_z s) m f true vars baseline; Some (Mss w q, Some r)
  end.
