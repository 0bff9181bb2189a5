(** Sizes of diagrams, call by call (C71). *)
From stdpp Require Import strings.
From Verif Require Import Prelude ComputeCache Arena Bdd BssAlg BssMgr BssLook SpecBdd SpecBss SpecBssMgr BssMgrProofs BssMgrMain
  SpecSize Subdd SizeBound SizeKofn BssLookProofs.

Lemma held_sized w H f F : bss_held w H → (f, F) ∈ H → ∃ s, w_size w f = Some s.
Proof.
  intros Hk%held_wok Hf. destruct (size_nodes (w_bdd w) f) as (l & s & Hs & _); [apply Hk|by apply (wk_held _ _ Hk f F)|]. by exists s.
Qed.

Lemma held_gate o w H f F g G w' r : bss_held w H → (f, F) ∈ H → (g, G) ∈ H → w_bin o w f g = Some (w', r) →
  ∃ s sf sg, w_size w' r = Some s ∧ w_size w' f = Some sf ∧ w_size w' g = Some sg ∧ (vertices s ≤ vertices sf * vertices sg)%N.
Proof.
  intros Hh Hf Hg Hr. pose proof (sh_step _ _ _ _ Hh (st_bin o _ _ _ _ _ _ _ _ Hf Hg Hr)) as Hh'.
  assert ((f, F) ∈ (r, λ e : env, bop2_fun o (F e) (G e)) :: H) as Hf' by by right.
  assert ((g, G) ∈ (r, λ e : env, bop2_fun o (F e) (G e)) :: H) as Hg' by by right.
  destruct (held_sized _ _ _ _ Hh' Hf') as [sf Hsf], (held_sized _ _ _ _ Hh' Hg') as [sg Hsg].
  destruct (held_sized _ _ _ _ Hh' (elem_of_list_here _ _)) as [s Hs]. exists s, sf, sg. sp; try done.
  pose proof (held_comb w' _ [(f, F); (g, G)] r (λ e : env, bop2_fun o (F e) (G e)) (λ l, match l with [a; b] => bop2_fun o a b | _ => false end) s [sf; sg] Hh') as Hc.
  cbn [foldr] in Hc. rewrite N.mul_1_r in Hc. apply Hc; try done.
  - intros x [->|[->|?%elem_of_nil]%elem_of_cons]%elem_of_cons; done.
  - by left.
  - by repeat constructor.
Qed.

Lemma held_ite_size w H f F g G h K w' r : bss_held w H → (f, F) ∈ H → (g, G) ∈ H → (h, K) ∈ H → w_ite w f g h = Some (w', r) →
  ∃ s sf sg sh, w_size w' r = Some s ∧ w_size w' f = Some sf ∧ w_size w' g = Some sg ∧ w_size w' h = Some sh ∧
    (vertices s ≤ vertices sf * (vertices sg * vertices sh))%N.
Proof.
  intros Hh Hf Hg Hk Hr. pose proof (sh_step _ _ _ _ Hh (st_ite _ _ _ _ _ _ _ _ _ _ Hf Hg Hk Hr)) as Hh'.
  match type of Hh' with bss_held _ ?X => set (H' := X) in * end.
  assert ((f, F) ∈ H') as Hf' by by right. assert ((g, G) ∈ H') as Hg' by by right. assert ((h, K) ∈ H') as Hk' by by right.
  destruct (held_sized _ _ _ _ Hh' Hf') as [sf Hsf], (held_sized _ _ _ _ Hh' Hg') as [sg Hsg], (held_sized _ _ _ _ Hh' Hk') as [sh Hsh].
  destruct (held_sized _ _ _ _ Hh' (elem_of_list_here _ _)) as [s Hs]. exists s, sf, sg, sh. sp; try done.
  pose proof (held_comb w' _ [(f, F); (g, G); (h, K)] r (λ e : env, if F e : bool then G e else K e) (λ l, match l with [a; b; c] => if a : bool then b else c | _ => false end) s [sf; sg; sh] Hh') as Hc.
  cbn [foldr] in Hc. rewrite N.mul_1_r in Hc. apply Hc; try done.
  - intros x [->|[->|[->|?%elem_of_nil]%elem_of_cons]%elem_of_cons]%elem_of_cons; done.
  - by left.
  - by repeat constructor.
Qed.

Lemma held_not_size w H f F w' r : bss_held w H → (f, F) ∈ H → w_not w f = Some (w', r) →
  ∃ s sf, w_size w' r = Some s ∧ w_size w' f = Some sf ∧ vertices s = vertices sf.
Proof.
  intros Hh Hf Hr. pose proof (sh_step _ _ _ _ Hh (st_not _ _ _ _ _ _ Hf Hr)) as Hh'.
  match type of Hh' with bss_held _ ?X => set (H' := X) in * end. assert ((f, F) ∈ H') as Hf' by by right.
  destruct (held_sized _ _ _ _ Hh' Hf') as [sf Hsf], (held_sized _ _ _ _ Hh' (elem_of_list_here _ _)) as [s Hs]. exists s, sf. sp; try done.
  set (op := λ l, match l with [a] => negb a | _ => false end).
  pose proof (held_comb w' _ [(f, F)] r (λ e, negb (F e)) op s [sf] Hh') as H1.
  pose proof (held_comb w' _ [(r, λ e, negb (F e))] f F op sf [s] Hh') as H2.
  cbn [foldr] in H1, H2. rewrite N.mul_1_r in H1, H2. apply N.le_antisymm; [apply H1|apply H2]; try done.
  1,4: intros x ->%elem_of_list_singleton; first [done|by left].
  1,2: by constructor.
  - intros e. cbn. by rewrite negb_involutive.
  - by constructor.
Qed.

Lemma sv_ext m e e' id t : bss_value m e id t → (∀ x, e' x = e x) → bss_value m e' id t.
Proof.
  intros Hv He. induction Hv as [id t Ht|id h lo hi hd t Hn Hh _ IH]; [by apply sv_term|]. eapply sv_node; [done|done|]. by rewrite He.
Qed.
Lemma held_dual_size w H f F w' r : bss_held w H → (f, F) ∈ H → w_dual w f = Some (w', r) →
  ∃ s sf, w_size w' r = Some s ∧ w_size w' f = Some sf ∧ vertices s = vertices sf.
Proof.
  intros Hh Hf Hr. pose proof (sh_step _ _ _ _ Hh (st_dual _ _ _ _ _ _ Hf Hr)) as Hh'.
  match type of Hh' with bss_held _ ?X => set (H' := X) in * end. assert ((f, F) ∈ H') as Hf' by by right.
  assert ((r, λ e : env, negb (F (λ x, negb (e x)))) ∈ H') as Hr' by by left.
  destruct (held_sized _ _ _ _ Hh' Hf') as [sf Hsf], (held_sized _ _ _ _ Hh' Hr') as [s Hs]. exists s, sf. sp; try done.
  assert (Hext : ∀ e, F e = F (λ x, negb (negb (e x)))).
  { intros e. pose proof (held_wok _ _ Hh') as Hk. destruct (wk_held _ _ Hk f F Hf') as [_ Hv].
    pose proof (sv_ext _ _ (λ x, negb (negb (e x))) _ _ (Hv e) (λ x, negb_involutive (e x))) as V.
    pose proof (sv_fun _ _ _ _ _ V (Hv _)) as E. by destruct (F e), (F (λ x, negb (negb (e x)))). }
  apply N.le_antisymm.
  - by eapply (held_dual_le w' H' f F r).
  - eapply (held_dual_le w' H' r _ f F); try done. intros e. cbn. rewrite negb_involutive. apply Hext.
Qed.

Lemma held_kofn_call w H k (L : list (nat * string)) w' r :
  bss_held w H → (∀ x, x ∈ L → (x.1, λ e : env, e x.2) ∈ H) → NoDup L.*2 →
  w_kofn w k L.*1 = Some (w', r) →
  ∃ s, w_size w' r = Some s ∧ (vertices s ≤ N.of_nat (k * (length L + 1 - k) + 2))%N.
Proof.
  intros Hh HL Hnd Hr. set (M := (λ x : nat * string, (x.1, λ e : env, e x.2)) <$> L).
  assert (M.*1 = L.*1) as HM by (unfold M; by rewrite <- list_fmap_compose).
  rewrite <- HM in Hr. assert (∀ x, x ∈ M → x ∈ H) as HMH by (intros x (y & -> & Hy)%elem_of_list_fmap; by apply HL).
  pose proof (sh_step _ _ _ _ Hh (st_kofn _ _ k M _ _ HMH Hr)) as Hh'. match type of Hh' with bss_held _ ((_, ?X) :: _) => set (R := X) in * end.
  destruct (held_sized _ _ _ _ Hh' (elem_of_list_here _ _)) as [s Hs]. exists s. split; [done|].
  replace (length L) with (length L.*2) by apply fmap_length.
  destruct (held_order _ _ Hh') as (names' & Hn' & _ & _).
  apply (held_kofn w' _ k L.*2 r R names' s Hh'); try done; [by left| |].
  { intros x (y & -> & Hy)%elem_of_list_fmap. eapply (held_needs w' _ y.1 (λ e, e y.2)); [exact Hh'|right; by apply HL|done|].
    exists (λ _, false). unfold env_set. by rewrite !decide_True. }
  intros e. unfold R, M. f_equal. clear. induction L as [|x L IH]; [done|]. cbn [fmap list_fmap]. rewrite !filter_cons. cbn [snd].
  destruct (decide _); cbn [length]; [f_equal|]; exact IH.
Qed.
