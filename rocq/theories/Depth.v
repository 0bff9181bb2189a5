(** The recursions of the model take a bound on their depth; here: a larger bound never changes a result. *)
From stdpp Require Import strings.
From Verif Require Import Prelude ComputeCache Arena Bdd BssAlg Zdd ZddAlg Mdd MtMdd MtMdd2 Zmdd ZmddAlg MssAlg MddMinsol MssConv Dot SpecDepth.

Definition ole {A} (x y : option A) : Prop := ∀ r, x = Some r → y = Some r.
Lemma ole_refl {A} (x : option A) : ole x x.
Proof. by intros r. Qed.
Lemma ole_none {A} (y : option A) : ole None y.
Proof. by intros r. Qed.
Lemma ole_bind {A B} (x y : option A) (k k' : A → option B) : ole x y → (∀ a, ole (k a) (k' a)) → ole (x ≫= k) (y ≫= k').
Proof. intros H Hk r Hr. destruct x as [a|]; [| done]. rewrite (H a eq_refl). by apply Hk. Qed.
Lemma ole_mapst {S A B} (F G : S → A → option (S * B)) l : (∀ s a, ole (F s a) (G s a)) → ∀ s, ole (mapst F s l) (mapst G s l).
Proof.
  intros H. induction l as [| a l IH]; intros s; [apply ole_refl |]. cbn [mapst].
  apply ole_bind; [apply H |]. intros [s' b]. apply ole_bind; [apply IH |]. intros [s'' bs]. apply ole_refl.
Qed.
Ltac om2 IH IN :=
  repeat lazymatch goal with
    | |- ole ?x ?x => exact (ole_refl x)
    | |- ole None _ => apply ole_none
    | |- ole (mbind _ _) (mbind _ _) => apply ole_bind; [| intros ?]
    | |- ole (mapst _ _ _) (mapst _ _ _) => apply ole_mapst; intros
    | |- ole (zm_zip _ _ _ _) _ => unfold zm_zip
    | |- ole (match ?x with _ => _ end) _ => destruct x
    | |- _ => first [apply IH | apply IN]
    end.
Ltac om IH := om2 IH IH.
(** [deep F]: raising the bound keeps every result. *)
Ltac deep F :=
  let n := fresh "n" in let IH := fresh "IH" in let n' := fresh "n'" in let H := fresh "Hn" in
  intros n; induction n as [| n IH]; intros n' H; [intros; apply ole_none |];
  destruct n' as [| n']; [lia |]; apply le_S_n in H; specialize (IH n' H); intros; cbn [F]; om IH.

Lemma not_mono : ∀ n n', n ≤ n' → ∀ m f, ole (bdd_not_f n m f) (bdd_not_f n' m f).
Proof. deep bdd_not_f. Qed.
Lemma and_mono : ∀ n n', n ≤ n' → ∀ m f g, ole (bdd_and_f n m f g) (bdd_and_f n' m f g).
Proof. deep bdd_and_f. Qed.
Lemma or_mono : ∀ n n', n ≤ n' → ∀ m f g, ole (bdd_or_f n m f g) (bdd_or_f n' m f g).
Proof. deep bdd_or_f. Qed.
Lemma xor_mono : ∀ n n', n ≤ n' → ∀ m f g, ole (bdd_xor_f n m f g) (bdd_xor_f n' m f g).
Proof.
  intros n; induction n as [| n IH]; intros n' H; [intros; apply ole_none |].
  destruct n' as [| n']; [lia |]. pose proof (not_mono (S n) (S n') H) as IN. apply le_S_n in H; specialize (IH n' H). intros. cbn [bdd_xor_f]. om2 IH IN.
Qed.
Lemma ite_mono : ∀ n n', n ≤ n' → ∀ m f g h, ole (bdd_ite_f n m f g h) (bdd_ite_f n' m f g h).
Proof. deep bdd_ite_f. Qed.
Lemma zinter_mono : ∀ n n', n ≤ n' → ∀ m f g, ole (zdd_intersect_f n m f g) (zdd_intersect_f n' m f g).
Proof. deep zdd_intersect_f. Qed.
Lemma zunion_mono : ∀ n n', n ≤ n' → ∀ m f g, ole (zdd_union_f n m f g) (zdd_union_f n' m f g).
Proof. deep zdd_union_f. Qed.
Lemma zdiff_mono : ∀ n n', n ≤ n' → ∀ m f g, ole (zdd_setdiff_f n m f g) (zdd_setdiff_f n' m f g).
Proof. deep zdd_setdiff_f. Qed.
Lemma zprod_mono : ∀ n n', n ≤ n' → ∀ m f g, ole (zdd_product_f n m f g) (zdd_product_f n' m f g).
Proof. deep zdd_product_f. Qed.
Lemma zdiv_mono : ∀ n n', n ≤ n' → ∀ m f g, ole (zdd_divide_f n m f g) (zdd_divide_f n' m f g).
Proof. deep zdd_divide_f. Qed.
Lemma mnot_mono : ∀ n n', n ≤ n' → ∀ m f, ole (mdd_not_f n m f) (mdd_not_f n' m f).
Proof. deep mdd_not_f. Qed.
Lemma mbin_mono o : ∀ n n', n ≤ n' → ∀ m f g, ole (mdd_bin_f o n m f g) (mdd_bin_f o n' m f g).
Proof.
  intros n; induction n as [| n IH]; intros n' H; [intros; apply ole_none |].
  destruct n' as [| n']; [lia |]. pose proof (mnot_mono (S n) (S n') H) as IN. apply le_S_n in H; specialize (IH n' H). intros. cbn [mdd_bin_f]. om2 IH IN.
Qed.
Lemma mite_mono : ∀ n n', n ≤ n' → ∀ m f g h, ole (mdd_ite_f n m f g h) (mdd_ite_f n' m f g h).
Proof. deep mdd_ite_f. Qed.
Lemma tbin_mono I o : ∀ n n', n ≤ n' → ∀ m f g, ole (mt_bin_f I o n m f g) (mt_bin_f I o n' m f g).
Proof. deep mt_bin_f. Qed.
Lemma cmp_mono o : ∀ n n', n ≤ n' → ∀ m f g, ole (mm_cmp_f o n m f g) (mm_cmp_f o n' m f g).
Proof. deep mm_cmp_f. Qed.
Lemma vif_mono : ∀ n n', n ≤ n' → ∀ m f g, ole (mm_vif_f n m f g) (mm_vif_f n' m f g).
Proof. deep mm_vif_f. Qed.
Lemma vite_mono : ∀ n n', n ≤ n' → ∀ m f g h, ole (mm_vite_f n m f g h) (mm_vite_f n' m f g h).
Proof. deep mm_vite_f. Qed.
Lemma base_mono : ∀ n n', n ≤ n' → ∀ m f v, ole (zm_set_baseline_f n m f v) (zm_set_baseline_f n' m f v).
Proof. deep zm_set_baseline_f. Qed.
Lemma zminter_mono : ∀ n n', n ≤ n' → ∀ m f g, ole (zm_intersect_f n m f g) (zm_intersect_f n' m f g).
Proof. deep zm_intersect_f. Qed.
Lemma zmdiff_mono : ∀ n n', n ≤ n' → ∀ m f g, ole (zm_setdiff_f n m f g) (zm_setdiff_f n' m f g).
Proof. deep zm_setdiff_f. Qed.

(** ** The analyses of bss/ *)
Lemma nodes_mono : ∀ n n', n ≤ n' → ∀ a x c, ole (node_count_f n a x c) (node_count_f n' a x c).
Proof. deep node_count_f. Qed.
Lemma count_mono : ∀ n n', n ≤ n' → ∀ a ss x c, ole (bdd_count_f n a ss x c) (bdd_count_f n' a ss x c).
Proof. deep bdd_count_f. Qed.
Lemma kofn_mono : ∀ n n', n ≤ n' → ∀ m xs k i l memo, ole (kofn_rec n m xs k i l memo) (kofn_rec n' m xs k i l memo).
Proof. deep kofn_rec. Qed.
Lemma dual_mono : ∀ n n', n ≤ n' → ∀ m x c, ole (dual_f n m x c) (dual_f n' m x c).
Proof. deep dual_f. Qed.
Lemma prob_mono {R} (rO rI : R) radd rmul rsub : ∀ n n', n ≤ n' → ∀ a x pv ss c,
  ole (prob_f rO rI radd rmul rsub n a x pv ss c) (prob_f rO rI radd rmul rsub n' a x pv ss c).
Proof. deep (@prob_f). Qed.
Lemma without_mono : ∀ n n', n ≤ n' → ∀ m f g c, ole (BssAlg.without_f n m f g c) (BssAlg.without_f n' m f g c).
Proof. deep BssAlg.without_f. Qed.
Lemma minsol_mono : ∀ n n', n ≤ n' → ∀ m x c1 c2, ole (minsol_f n m x c1 c2) (minsol_f n' m x c1 c2).
Proof. deep minsol_f. Qed.
Lemma topo_mono : ∀ n n', n ≤ n' → ∀ a x st, ole (topo_visit n a x st) (topo_visit n' a x st).
Proof.
  intros n; induction n as [| n IH]; intros n' H; [intros; apply ole_none |].
  destruct n' as [| n']; [lia |]. apply le_S_n in H; specialize (IH n' H). intros a x st. cbn [topo_visit].
  destruct st as [[check result] queue]. destruct (check !! x) as [[]|]; [apply ole_refl | apply ole_refl |].
  apply ole_bind; [apply ole_refl |]. intros nd. apply ole_bind; [| intros; apply ole_refl].
  destruct nd as [t | h cs]; [apply ole_refl |]. generalize (<[x := Temporary]> check) as ch.
  intros ch. revert ch result queue. induction cs as [| c cs IHc]; intros ch result queue; [apply ole_refl |].
  apply ole_bind; [apply IH |]. intros [[ch' r'] q']. apply IHc.
Qed.
Lemma zcount_mono : ∀ n n', n ≤ n' → ∀ a ss x c, ole (zdd_count_f n a ss x c) (zdd_count_f n' a ss x c).
Proof. deep zdd_count_f. Qed.
Lemma to_zdd_mono : ∀ n n', n ≤ n' → ∀ src x dst zh memo, ole (to_zdd_f n src x dst zh memo) (to_zdd_f n' src x dst zh memo).
Proof. deep to_zdd_f. Qed.

(** ** The analyses of mss/ *)
Ltac start F IH :=
  let n := fresh "n" in let n' := fresh "n'" in let H := fresh "H" in
  intros n; induction n as [| n IH]; intros n' H; [intros; apply ole_none |];
  destruct n' as [| n']; [lia |]; apply le_S_n in H; specialize (IH n' H); clear H; intros; cbn [F].

Lemma nsize_mono {T} : ∀ n n', n ≤ n' → ∀ (a : arena T) x c, ole (nsize_f n a x c) (nsize_f n' a x c).
Proof.
  start (@nsize_f) IH.
  case_decide; [apply ole_refl |]. apply ole_bind; [apply ole_refl |]. intros nd. apply ole_bind; [| intros; apply ole_refl].
  destruct nd as [t | h cs]; [apply ole_refl |].
  lazymatch goal with |- ole (?G cs c _ _ _) (?G' _ _ _ _ _) =>
    cut (∀ cs c x y z, ole (G cs c x y z) (G' cs c x y z)); [intros HH; apply HH |] end.
  clear -IH. induction cs as [| e cs IHc]; intros; [apply ole_refl |].
  apply ole_bind; [apply IH |]. intros [c' [[? ?] ?]]. apply IHc.
Qed.
Lemma ncount_mono {T} keyed hit : ∀ n n', n ≤ n' → ∀ (a : arena T) l2h l x c,
  ole (ncount_f keyed hit n a l2h l x c) (ncount_f keyed hit n' a l2h l x c).
Proof.
  start (@ncount_f) IH.
  destruct (c !! _); [apply ole_refl |]. apply ole_bind; [apply ole_refl |]. intros nd.
  apply ole_bind; [apply ole_refl |]. intros nl. apply ole_bind; [| intros; apply ole_refl].
  destruct (_ && _); [om IH |].
  destruct nd as [t | h cs]; [apply ole_refl |].
  lazymatch goal with |- ole (?G cs c _) (?G' _ _ _) =>
    cut (∀ cs c x, ole (G cs c x) (G' cs c x)); [intros HH; apply HH |] end.
  clear -IH. induction cs as [| e cs IHc]; intros; [apply ole_refl |].
  apply ole_bind; [apply IH |]. intros [c' ?]. apply IHc.
Qed.
Lemma nprob_mono {T R} (rO : R) rI radd rmul hit : ∀ n n', n ≤ n' → ∀ (a : arena T) pv x c,
  ole (nprob_f rO rI radd rmul hit n a pv x c) (nprob_f rO rI radd rmul hit n' a pv x c).
Proof.
  start (@nprob_f) IH.
  destruct (c !! _); [apply ole_refl |]. apply ole_bind; [apply ole_refl |]. intros nd.
  apply ole_bind; [| intros; apply ole_refl].
  destruct nd as [t | h cs]; [apply ole_refl |].
  apply ole_bind; [apply ole_refl |]. intros hd. apply ole_bind; [apply ole_refl |]. intros fp.
  lazymatch goal with |- ole (?G _ cs c _) (?G' _ _ _ _) =>
    cut (∀ cs i c x, ole (G i cs c x) (G' i cs c x)); [intros HH; apply HH |] end.
  clear -IH. induction cs as [| e cs IHc]; intros; [apply ole_refl |].
  apply ole_bind; [apply IH |]. intros [c' ?]. apply ole_bind; [apply ole_refl |]. intros p. apply IHc.
Qed.
Lemma ntopo_mono {T} : ∀ n n', n ≤ n' → ∀ (a : arena T) x st, ole (ntopo_f n a x st) (ntopo_f n' a x st).
Proof.
  start (@ntopo_f) IH. destruct st as [vis ord].
  case_decide; [apply ole_refl |]. apply ole_bind; [apply ole_refl |]. intros nd.
  apply ole_bind; [| intros; apply ole_refl].
  generalize ({[x]} ∪ vis, ord) as st. generalize (node_children nd) as cs. clear -IH.
  induction cs as [| e cs IHc]; intros; [apply ole_refl |].
  apply ole_bind; [apply IH |]. intros ?. apply IHc.
Qed.
Lemma to_zmdd_mono {T} (leaf : T → option Z) : ∀ n n', n ≤ n' → ∀ (a : arena T) r s x,
  ole (to_zmdd_f leaf n a r s x) (to_zmdd_f leaf n' a r s x).
Proof. deep (@to_zmdd_f). Qed.
Lemma extreme_mono {T} : ∀ n n', n ≤ n' → ∀ (a : arena T) top x, ole (extreme_f n a top x) (extreme_f n' a top x).
Proof. deep (@extreme_f). Qed.
Lemma zm_count_mono : ∀ n n', n ≤ n' → ∀ a ss x c, ole (zm_count_f n a ss x c) (zm_count_f n' a ss x c).
Proof. deep zm_count_f. Qed.
Lemma dot_mono {T} tl hides (a : arena T) : ∀ n n', n ≤ n' → ∀ x st, ole (dot_f tl hides a n x st) (dot_f tl hides a n' x st).
Proof.
  start (@dot_f) IH. destruct st as [vis out].
  case_decide; [apply ole_refl |]. apply ole_bind; [apply ole_refl |]. intros nd.
  apply ole_bind; [| intros; apply ole_refl].
  destruct nd as [t | h cs]; [apply ole_refl |].
  apply ole_bind; [apply ole_refl |]. intros hd.
  lazymatch goal with |- ole (?G _ cs _) (?G' _ _ _) =>
    cut (∀ cs i c, ole (G i cs c) (G' i cs c)); [intros HH; apply HH |] end.
  clear -IH. induction cs as [| e cs IHc]; intros; [apply ole_refl |].
  apply ole_bind; [apply ole_refl |]. intros nx. destruct (Dot.hides hides nx); [apply IHc |].
  apply ole_bind; [apply IH |]. intros [v' o']. apply IHc.
Qed.
Lemma mwithout_mono {S T} (F : forest S T) top warm : ∀ n n', n ≤ n' → ∀ st f g,
  ole (MddMinsol.without_f F top warm n st f g) (MddMinsol.without_f F top warm n' st f g).
Proof. start (@MddMinsol.without_f) IH. cbv zeta. om IH. Qed.
Lemma sol_loop_mono {S T} (F : forest S T) top warm G G' : (∀ st c, ole (G st c) (G' st c)) → ∀ l st,
  ole (sol_loop F top warm G st l) (sol_loop F top warm G' st l).
Proof.
  intros H. induction l as [| [c p] l IH]; intros st; [apply ole_refl |]. cbn [sol_loop].
  apply ole_bind; [apply H |]. intros [st' m]. destruct m as [m|]; [| apply ole_refl].
  apply ole_bind; [apply ole_refl |]. intros [st'' v]. apply ole_bind; [apply IH |]. intros; apply ole_refl.
Qed.
Lemma sol_mono {S T} (F : forest S T) top warm leaf : ∀ n n', n ≤ n' → ∀ st x,
  ole (sol_f F top warm leaf n st x) (sol_f F top warm leaf n' st x).
Proof.
  start (@sol_f) IH. destruct (_ !! x); [apply ole_refl |]. apply ole_bind; [apply ole_refl |]. intros nd.
  apply ole_bind; [| intros; apply ole_refl]. destruct nd as [t | h cs]; [apply ole_refl |].
  apply ole_bind; [apply ole_refl |]. intros [s mono]. cbv zeta. destruct mono; [| apply ole_refl].
  destruct (_ && _); [apply ole_refl |]. apply ole_bind; [| intros; apply ole_refl].
  by apply sol_loop_mono.
Qed.

(** ** From an answer at the bound of the entry point *)
Lemma nests_of {A} (F : nat → option A) d r : (∀ n n', n ≤ n' → ole (F n) (F n')) → F d = Some r → nests F d.
Proof. intros H Hr. exists r. intros n Hn. by apply (H d n Hn). Qed.
Lemma nests_bind {A B} (F : nat → option A) (k : A → option B) d r : (∀ n n', n ≤ n' → ole (F n) (F n')) →
  F d ≫= k = Some r → nests F d.
Proof. intros H Hr. destruct (F d) as [x|] eqn:E; [| done]. by apply (nests_of F d x). Qed.

Lemma levels_len_aux (l : list header) k : (∀ i hd, l !! i = Some hd → h_level hd = k + i) →
  max_list_with (λ hd, S (h_level hd)) l = match l with [] => 0 | _ => k + length l end.
Proof.
  revert k; induction l as [| hd l IH]; intros k H; [done |]. cbn [max_list_with]. rewrite (IH (S k)).
  - rewrite (H 0 hd eq_refl). destruct l; cbn [length]; lia.
  - intros i hd' Hi. rewrite (H (S i) hd' Hi). lia.
Qed.
Lemma levels_len {T} (a : arena T) : (∀ i hd, ar_headers a !! i = Some hd → h_level hd = i) → levels a = length (ar_headers a).
Proof. intros H. unfold levels. rewrite (levels_len_aux _ 0); [| done]. by destruct (ar_headers a). Qed.
