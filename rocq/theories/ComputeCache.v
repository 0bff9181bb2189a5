(** Model of the direct-mapped, lossy computed table.
    Source: common/src/compute_cache.rs. *)
From Verif Require Import Prelude.

(** compute_cache.rs:16  const EMPTY: u32 = u32::MAX *)
Definition EMPTY : N := 4294967295%N.
(** compute_cache.rs:19 *)
Definition INIT_BITS : N := 14%N.
(** compute_cache.rs:21 *)
Definition MAX_BITS : N := 24%N.

(** compute_cache.rs:31  one slot [u32;4].  Words are unbounded [N] here; the
    narrowing casts at the call sites are in Bdd32.v, Mdd32.v, Mt32.v and Mm32.v. *)
Record slot := Slot { s0 : N; s1 : N; s2 : N; s3 : N }.

(** compute_cache.rs:30-34 *)
Record ccache := CCache { cc_slots : list slot; cc_mask : N; cc_len : N }.

(** compute_cache.rs:47-50 *)
Definition with_bits (bits : N) : ccache :=
  let n := N.shiftl 1 bits in
  CCache (replicate (N.to_nat n) (Slot 0 0 0 EMPTY)) (n - 1) 0.

(** compute_cache.rs:43-45 *)
Definition cc_new : ccache := with_bits INIT_BITS.

(** u64 wrap-around *)
Definition wrap64 (x : N) : N := (x mod 2 ^ 64)%N.

(** compute_cache.rs:53-60 *)
Definition cc_index (c : ccache) (k0 k1 k2 : N) : nat :=
  let h := k0 in
  let h := wrap64 (wrap64 (h * 0x9E3779B97F4A7C15) + k1) in
  let h := wrap64 (wrap64 (h * 0x9E3779B97F4A7C15) + k2) in
  let h := N.lxor h (N.shiftr h 29) in
  N.to_nat (N.land h (cc_mask c)).

(** compute_cache.rs:63-70.  [None] outside = index panic. *)
Definition cc_get (c : ccache) (k0 k1 k2 : N) : option (option N) :=
  s ← cc_slots c !! cc_index c k0 k1 k2;
  Some (if negb (s3 s =? EMPTY)%N && (s0 s =? k0)%N && (s1 s =? k1)%N && (s2 s =? k2)%N
        then Some (s3 s) else None).

(** compute_cache.rs:83-90 *)
Definition cc_put_nogrow (c : ccache) (k0 k1 k2 v : N) : option ccache :=
  let i := cc_index c k0 k1 k2 in
  s ← cc_slots c !! i;
  Some (CCache (<[i := Slot k0 k1 k2 v]> (cc_slots c)) (cc_mask c)
               (if (s3 s =? EMPTY)%N then (cc_len c + 1)%N else cc_len c)).

(** usize::trailing_zeros on a non-zero number *)
Fixpoint ctz (p : positive) : N :=
  match p with xO p => (1 + ctz p)%N | _ => 0%N end.
Definition trailing_zeros (n : N) : N :=
  match n with N0 => 64%N | Npos p => ctz p end.

(** compute_cache.rs:98-102: the re-insertion loop *)
Fixpoint cc_reinsert (old : list slot) (c : ccache) : option ccache :=
  match old with
  | [] => Some c
  | s :: old =>
      c ← (if (s3 s =? EMPTY)%N then Some c
           else cc_put_nogrow c (s0 s) (s1 s) (s2 s) (s3 s));
      cc_reinsert old c
  end.

(** compute_cache.rs:92-103 *)
Definition cc_grow (c : ccache) : option ccache :=
  let bits := (trailing_zeros (N.of_nat (length (cc_slots c))) + 1)%N in
  if (MAX_BITS <? bits)%N then Some c
  else cc_reinsert (cc_slots c) (with_bits bits).

(** compute_cache.rs:73-80 *)
Definition cc_put (c : ccache) (k0 k1 k2 v : N) : option ccache :=
  c ← (if (N.of_nat (length (cc_slots c)) * 3 <=? cc_len c * 4)%N
       then cc_grow c else Some c);
  cc_put_nogrow c k0 k1 k2 v.

(** [live\[i\]]: [None] = index panic *)
Definition live_at (live : list bool) (i : N) : option bool := live !! N.to_nat i.

(** [live\[a\] && live\[b\] && ...] with left-to-right short-circuit *)
Fixpoint all_live (live : list bool) (is : list N) : option bool :=
  match is with
  | [] => Some true
  | i :: is => b ← live_at live i; if b : bool then all_live live is else Some false
  end.

(** The sweep loop shared by retain_live (compute_cache.rs:110-120) and retain_live3
    (compute_cache.rs:125-135); [words s] are the ids checked. *)
Fixpoint cc_sweep (words : slot → list N) (live : list bool) (ss : list slot) (len : N)
  : option (list slot * N) :=
  match ss with
  | [] => Some ([], len)
  | s :: ss =>
      '(s', len') ←
        (if (s3 s =? EMPTY)%N then Some (s, len)
         else b ← all_live live (words s);
              if b : bool then Some (s, len)
              else Some (Slot (s0 s) (s1 s) (s2 s) EMPTY, (len - 1)%N));
      '(ss', len'') ← cc_sweep words live ss len';
      Some (s' :: ss', len'')
  end.

(** compute_cache.rs:110-120 *)
Definition cc_retain_live (c : ccache) (live : list bool) : option ccache :=
  '(ss, len) ← cc_sweep (λ s, [s1 s; s2 s; s3 s]) live (cc_slots c) (cc_len c);
  Some (CCache ss (cc_mask c) len).

(** compute_cache.rs:125-135 *)
Definition cc_retain_live3 (c : ccache) (live : list bool) : option ccache :=
  '(ss, len) ← cc_sweep (λ s, [s0 s; s1 s; s2 s; s3 s]) live (cc_slots c) (cc_len c);
  Some (CCache ss (cc_mask c) len).

(** compute_cache.rs:137-142 *)
Definition cc_clear (c : ccache) : ccache :=
  CCache ((λ s, Slot (s0 s) (s1 s) (s2 s) EMPTY) <$> cc_slots c) (cc_mask c) 0.
