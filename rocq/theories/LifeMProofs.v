(** A dropped MddMgr makes no difference to its handles while a reference to the arena is held. *)
From stdpp Require Import strings.
From Verif Require Import Prelude ComputeCache ComputeCacheProofs Arena Trees ArenaProofs ArenaMore Bdd Mdd MtMdd MtMdd2 NaryProofs MddProofs MtProofs MmProofs.
From Verif Require Import SpecBdd SpecMdd SpecExactM MddMain MmMain MddExact MmExact MmExactMain BssMgr MssMgr MssAlg MssLook SpecBssMgr SpecMss MssMgrProofs MssMgrVar MssRpn Iso IsoM IsoN SpecTransM TransM PanicM PanicMProofs LifeM SpecLifeM.

Global Set Default Goal Selector "!".

Section prog.
Context (I : vint) {R : Type} (rO rI : R) (radd rmul rsub : R → R → R).
Local Notation mdo := (mdo I rO rI radd rmul rsub).
Local Notation caught := (caught I rO rI radd rmul rsub).
Local Notation ideal := (ideal I rO rI radd rmul rsub).
Local Notation mhdo := (mhdo I rO rI radd rmul rsub).
Local Notation mlstep := (mlstep I rO rI radd rmul rsub).
Local Notation msstep := (msstep I rO rI radd rmul rsub).

Definition mat_mgr (n : nat) (w : mmgr) : mworld := MWorld (Some (g_mm w)) n (Some (mrest w)).
Definition mat_core (n : nat) (w : mmgr) : mworld := MWorld (Some (g_mm w)) n None.
Lemma mwhole_rest w : mwhole (g_mm w) (mrest w) = w.
Proof. by destruct w. Qed.
Lemma mslots_cons Sl i l : mslot_list Sl (i :: l) = (f ← mslot Sl i; fs ← mslot_list Sl l; Some (f :: fs)).
Proof. done. Qed.
Lemma mdo_slots w Sl (c : mcmd R) r : of_mnode c → mdo w Sl c = Some r → is_Some (mslot_list Sl (used c)).
Proof.
  intros Hc. destruct c as [x n|b|z| | |i|o i j|i j k|o l|h l|i|i|i|e rg|i j|i|t i|i|ss i|pv ss i|pv ss i|m ss i|i|i|i|i| |keep|t| ];
    try (exact (False_ind _ Hc)); cbn [SpecTransM.mdo used]; rewrite ?mslots_cons;
    (destruct (mslot Sl i); cbn [mbind option_bind]; [|discriminate]); try (intros _; by eexists);
    (destruct (mslot Sl j); cbn [mbind option_bind]; [|discriminate]); try (intros _; by eexists);
    (destruct (mslot Sl k); cbn [mbind option_bind]; [|discriminate]); intros _; by eexists.
Qed.
(** what a panicking method leaves in the manager *)
Definition mleft (w : mmgr) (Sl : mslots) (c : mcmd R) : mmgr :=
  match c with
  | DBin t i j => default w (f ← mslot Sl i; g ← mslot Sl j; m ← bin_panic I t (g_mm w) f g; Some (with_mm w m))
  | _ => w
  end.
Lemma mcaught_node w Sl (c : mcmd R) : of_mnode c →
  caught w Sl c = (_ ← mslot_list Sl (used c); Some match mdo w Sl c with Some (w, Sl, a) => (w, Sl, Some a) | None => (mleft w Sl c, Sl, None) end).
Proof.
  intros Hc. unfold PanicM.caught, g_panic. destruct (mdo w Sl c) as [[[w' S'] a]|] eqn:E.
  - destruct (mdo_slots _ _ _ _ Hc E) as [l ->]. done.
  - clear E. destruct c as [x n|b|z| | |i|o i j|i j k|o l|h l|i|i|i|e rg|i j|i|t i|i|ss i|pv ss i|pv ss i|m ss i|i|i|i|i| |keep|t| ];
      try (exact (False_ind _ Hc)); cbn [used mleft]; try (destruct (mslot_list _ _); reflexivity).
    rewrite !mslots_cons. destruct (mslot Sl i) as [f|]; cbn [mbind option_bind]; [|done]. destruct (mslot Sl j) as [g|]; cbn [mbind option_bind]; [|done].
    change (mslot_list Sl []) with (Some (@nil mnode)). cbn [mbind option_bind]. by destruct (bin_panic I o (g_mm w) f g).
Qed.

(** ** the manager is there *)
Lemma mgive_alive n w Sl (op : mm → option (mm * mnode)) :
  mhgive (R := R) Sl (mh_op (mat_mgr n w) op) = '(w', S', a) ← mgive Sl (g_op w (op (g_mm w))); Some (mat_mgr n w', S', a).
Proof.
  unfold mh_op, g_op, g_wrap, mgive, mhgive, mh_rewrap. cbn [mat_mgr n_core mbind option_bind]. destruct (op (g_mm w)) as [[b r]|]; cbn [mbind option_bind]; [|done].
  unfold mwhole, g_pin, with_mm, mwith_core, mh_pin. cbn [mat_mgr n_mgr n_core n_strong k_roots k_thr k_floor k_vars mrest g_roots g_thr g_floor g_vars mbind option_bind g_mm]. by destruct (g_maybe_gc _).
Qed.
Lemma pins_alive n l : ∀ w, foldl mh_pin (mat_mgr n w) l = mat_mgr n (foldl g_pin w l).
Proof. induction l as [|x l IH]; intros w; [done|]. cbn [foldl]. rewrite <- IH. done. Qed.
Lemma mkids_alive n w f : mh_children (mat_mgr n w) f = '(w', r) ← g_children w f; Some (mat_mgr n w', r).
Proof.
  unfold mh_children, g_children. cbn [mat_mgr n_core mbind option_bind]. fold (mat_mgr n w).
  destruct f as [f|f]; (destruct (_ !! f) as [[t|h cs]|]; cbn [mbind option_bind]; [done| |done]); by rewrite pins_alive.
Qed.
Lemma mhdo_alive n w Sl (c : mcmd R) : of_mnode c → mhdo (mat_mgr n w) Sl c = '(w', S', a) ← mdo w Sl c; Some (mat_mgr n w', S', a).
Proof.
  intros Hc. destruct c as [x k|b|z| | |i|o i j|i j k|o l|h l|i|i|i|e rg|i j|i|t i|i|ss i|pv ss i|pv ss i|m ss i|i|i|i|i| |keep|t| ];
    try (exact (False_ind _ Hc)); cbn [LifeM.mhdo SpecTransM.mdo];
    repeat (match goal with |- context [mslot Sl ?i] => destruct (mslot Sl i) as [?f|]; cbn [mbind option_bind]; [|done] end).
  - exact (mgive_alive n w Sl _).
  - exact (mgive_alive n w Sl (λ m, mm_bin I o m f f0)).
  - exact (mgive_alive n w Sl (λ m, mm_ite m f f0 f1)).
  - rewrite mkids_alive. by destruct (g_children w f) as [[w' [r|]]|].
  - done.
  - done.
  - done.
  - done.
  - unfold mh_is, mh_look, mtell, mhtell. destruct f as [f|f]; cbn [mat_mgr n_core mbind option_bind]; [done|]. unfold g_is. cbn [g_mm]. by destruct (ar_nodes _ !! _).
  - unfold mh_const, mh_look, mtell, mhtell. destruct f as [f|f]; cbn [mat_mgr n_core mbind option_bind]; [|done]. unfold g_const. cbn [g_mm]. by destruct (ar_nodes _ !! _).
  - unfold mh_look, mtell, mhtell. cbn [mat_mgr n_core mbind option_bind]. change (g_count (MMgr (g_mm w) ∅ 0 0 ∅) f ss) with (g_count w f ss). by destruct (g_count w f ss).
  - unfold mh_look, mtell, mhtell. cbn [mat_mgr n_core mbind option_bind]. change (g_prob rO rI radd rmul (MMgr (g_mm w) ∅ 0 0 ∅) f pv ss) with (g_prob rO rI radd rmul w f pv ss).
    by destruct (g_prob rO rI radd rmul w f pv ss).
  - unfold mh_look, mtell, mhtell. cbn [mat_mgr n_core mbind option_bind]. change (g_bmeas rO rI radd rmul rsub (MMgr (g_mm w) ∅ 0 0 ∅) f pv ss) with (g_bmeas rO rI radd rmul rsub w f pv ss).
    by destruct (g_bmeas rO rI radd rmul rsub w f pv ss).
  - unfold mh_look, mtell, mhtell. cbn [mat_mgr n_core mbind option_bind]. change (g_extract m (MMgr (g_mm w) ∅ 0 0 ∅) f ss) with (g_extract m w f ss). by destruct (g_extract m w f ss).
  - unfold mh_look, mtell, mhtell. cbn [mat_mgr n_core mbind option_bind]. change (g_size (MMgr (g_mm w) ∅ 0 0 ∅) f) with (g_size w f). by destruct (g_size w f).
  - done.
  - done.
  - done.
Qed.
Lemma mleft_alive n w Sl (c : mcmd R) : mh_panic I (mat_mgr n w) Sl c = mat_mgr n (mleft w Sl c).
Proof.
  destruct c as [x k|b|z| | |i|o i j|i j k|o l|h l|i|i|i|e rg|i j|i|t i|i|ss i|pv ss i|pv ss i|m ss i|i|i|i|i| |keep|t| ]; try reflexivity.
  cbn [mh_panic mleft mat_mgr n_core]. destruct (mslot Sl i) as [f|]; cbn [mbind option_bind default]; [|done]. destruct (mslot Sl j) as [g|]; cbn [mbind option_bind default]; [|done].
  by destruct (bin_panic I o (g_mm w) f g).
Qed.
Lemma mcall_alive n w Sl (c : mcmd R) : mlstep (mat_mgr n w) Sl (MCall c) = '(w', S', a) ← caught w Sl c; Some (mat_mgr n w', S', a).
Proof.
  cbn [LifeM.mlstep]. destruct (of_mnode c) eqn:Hc.
  - apply Is_true_true_2 in Hc. rewrite (mcaught_node _ _ _ Hc), (mhdo_alive n w Sl c Hc), mleft_alive. destruct (mslot_list _ _); cbn [mbind option_bind]; [|done].
    by destruct (mdo w Sl c) as [[[? ?] ?]|].
  - cbn [mat_mgr n_mgr n_core mbind option_bind]. rewrite mwhole_rest. by destruct (caught w Sl c) as [[[? ?] ?]|].
Qed.

(** ** only the arena is there: as the manager with a threshold that is not reached *)
Lemma mgive_core n w Sl (op : mm → option (mm * mnode)) : ∃ t,
  mhgive (R := R) Sl (mh_op (mat_core n w) op) = '(w', S', a) ← mgive Sl (g_op (g_set_threshold w t) (op (g_mm w))); Some (mat_core n w', S', a).
Proof.
  unfold mh_op, g_op, g_wrap, mgive, mhgive, mh_rewrap. cbn [mat_core n_core mbind option_bind]. destruct (op (g_mm w)) as [[b r]|]; cbn [mbind option_bind]; [|by exists 0].
  exists (S (mm_live_node_count b)). unfold g_maybe_gc. cbn [g_pin with_mm g_set_threshold g_mm g_thr g_roots].
  rewrite (proj2 (Nat.ltb_lt _ _)) by lia. done.
Qed.
Lemma pins_core n l : ∀ w, foldl mh_pin (mat_core n w) l = mat_core n w.
Proof. induction l as [|x l IH]; intros w; [done|]. exact (IH w). Qed.
Lemma mkids_core n w f : mh_children (mat_core n w) f = '(w', r) ← g_children (g_set_threshold w 0) f; Some (mat_core n w', r).
Proof.
  unfold mh_children, g_children. cbn [mat_core n_core mbind option_bind g_set_threshold g_mm]. fold (mat_core n w).
  destruct f as [f|f]; (destruct (_ !! f) as [[t|h cs]|]; cbn [mbind option_bind]; [done| |done]); rewrite pins_core; unfold mat_core; by rewrite pins_mm.
Qed.
Lemma mhdo_core n w Sl (c : mcmd R) : of_mnode c → ∃ t, mhdo (mat_core n w) Sl c = '(w', S', a) ← mdo (g_set_threshold w t) Sl c; Some (mat_core n w', S', a).
Proof.
  intros Hc. destruct c as [x k|b|z| | |i|o i j|i j k|o l|h l|i|i|i|e rg|i j|i|t i|i|ss i|pv ss i|pv ss i|m ss i|i|i|i|i| |keep|t| ];
    try (exact (False_ind _ Hc)); cbn [LifeM.mhdo SpecTransM.mdo];
    repeat (match goal with |- context [mslot Sl ?i] => destruct (mslot Sl i) as [?f|]; cbn [mbind option_bind]; [|by exists 0] end).
  - exact (mgive_core n w Sl (λ m, mm_not m f)).
  - exact (mgive_core n w Sl (λ m, mm_bin I o m f f0)).
  - exact (mgive_core n w Sl (λ m, mm_ite m f f0 f1)).
  - exists 0. rewrite mkids_core. by destruct (g_children (g_set_threshold w 0) f) as [[w' [r|]]|].
  - by exists 0.
  - by exists 0.
  - by exists 0.
  - by exists 0.
  - exists 0. unfold mh_is, mh_look, mtell, mhtell. destruct f as [f|f]; cbn [mat_core n_core mbind option_bind]; [done|]. unfold g_is. cbn [g_mm g_set_threshold]. by destruct (ar_nodes _ !! _).
  - exists 0. unfold mh_const, mh_look, mtell, mhtell. destruct f as [f|f]; cbn [mat_core n_core mbind option_bind]; [|done]. unfold g_const. cbn [g_mm g_set_threshold]. by destruct (ar_nodes _ !! _).
  - exists 0. unfold mh_look, mtell, mhtell. cbn [mat_core n_core mbind option_bind].
    change (g_count (MMgr (g_mm w) ∅ 0 0 ∅) f ss) with (g_count (g_set_threshold w 0) f ss). by destruct (g_count _ f ss).
  - exists 0. unfold mh_look, mtell, mhtell. cbn [mat_core n_core mbind option_bind].
    change (g_prob rO rI radd rmul (MMgr (g_mm w) ∅ 0 0 ∅) f pv ss) with (g_prob rO rI radd rmul (g_set_threshold w 0) f pv ss). by destruct (g_prob rO rI radd rmul _ f pv ss).
  - exists 0. unfold mh_look, mtell, mhtell. cbn [mat_core n_core mbind option_bind].
    change (g_bmeas rO rI radd rmul rsub (MMgr (g_mm w) ∅ 0 0 ∅) f pv ss) with (g_bmeas rO rI radd rmul rsub (g_set_threshold w 0) f pv ss). by destruct (g_bmeas rO rI radd rmul rsub _ f pv ss).
  - exists 0. unfold mh_look, mtell, mhtell. cbn [mat_core n_core mbind option_bind].
    change (g_extract m (MMgr (g_mm w) ∅ 0 0 ∅) f ss) with (g_extract m (g_set_threshold w 0) f ss). by destruct (g_extract m _ f ss).
  - exists 0. unfold mh_look, mtell, mhtell. cbn [mat_core n_core mbind option_bind].
    change (g_size (MMgr (g_mm w) ∅ 0 0 ∅) f) with (g_size (g_set_threshold w 0) f). by destruct (g_size _ f).
  - by exists 0.
  - by exists 0.
  - by exists 0.
Qed.
Lemma mleft_core n w Sl (c : mcmd R) t : mh_panic I (mat_core n w) Sl c = mat_core n (mleft (g_set_threshold w t) Sl c).
Proof.
  destruct c as [x k|b|z| | |i|o i j|i j k|o l|h l|i|i|i|e rg|i j|i|? i|i|ss i|pv ss i|pv ss i|m ss i|i|i|i|i| |keep|?| ]; try reflexivity.
  cbn [mh_panic mleft mat_core n_core]. destruct (mslot Sl i) as [f|]; cbn [mbind option_bind default]; [|done]. destruct (mslot Sl j) as [g|]; cbn [mbind option_bind default]; [|done].
  cbn [g_set_threshold g_mm]. by destruct (bin_panic I o (g_mm w) f g).
Qed.
Lemma mcall_core n w Sl (c : mcmd R) : of_mnode c → ∃ t,
  mlstep (mat_core n w) Sl (MCall c) = '(w', S', a) ← caught (g_set_threshold w t) Sl c; Some (mat_core n w', S', a).
Proof.
  intros Hc. destruct (mhdo_core n w Sl c Hc) as [t E]. exists t. cbn [LifeM.mlstep]. rewrite (Is_true_true_1 _ Hc), (mcaught_node _ _ _ Hc), E, (mleft_core n w Sl c t).
  destruct (mslot_list _ _); cbn [mbind option_bind]; [|done]. by destruct (mdo (g_set_threshold w t) Sl c) as [[[? ?] ?]|].
Qed.

(** ** nothing is left *)
Definition mnothing : mworld := MWorld None 0 None.
Lemma mcall_gone w Sl (c : mcmd R) : of_mnode c → mlstep mnothing Sl (MCall c) =
  if mlight Sl c then '(w', S', a) ← caught w Sl c; Some (mnothing, S', a) else _ ← mslot_list Sl (used c); Some (mnothing, Sl, None).
Proof.
  intros Hc. cbn [LifeM.mlstep]. rewrite (Is_true_true_1 _ Hc). rewrite (mcaught_node _ _ _ Hc).
  destruct c as [x k|b|z| | |i|o i j|i j k|o l|h l|i|i|i|e rg|i j|i|t i|i|ss i|pv ss i|pv ss i|m ss i|i|i|i|i| |keep|t| ];
    try (exact (False_ind _ Hc)); cbn [LifeM.mhdo SpecTransM.mdo used mlight]; rewrite ?mslots_cons;
    repeat (match goal with |- context [mslot Sl ?i] => destruct (mslot Sl i) as [?f|]; cbn [mbind option_bind]; [|done] end); try reflexivity;
    destruct f; reflexivity.
Qed.

(** ** the two runs side by side *)
Definition mplace (alive : bool) (k : nat) (w : mmgr) : mworld :=
  if alive then mat_mgr (S k) w else if 0 <? k then mat_core k w else mnothing.
Definition mlrel (p : mworld * mslots * option (mans R)) (q : bool * nat * mmgr * mslots * option (mans R)) : Prop :=
  ∃ w, p.1.1 = mplace q.1.1.1.1 q.1.1.1.2 w ∧ twin I w p.1.2 q.1.1.2 q.1.2 ∧ p.2 = q.2.
Lemma mtwin_thr w1 S1 w2 S2 t : twin I w1 S1 w2 S2 → twin I (g_set_threshold w1 t) S1 w2 S2.
Proof. intros T. destruct (TransM.house_tw I rO rI radd rmul rsub _ _ _ _ T (JThreshold t) Logic.I) as (w' & [= <-] & T'). done. Qed.
Lemma mcaught_rel (P : mmgr → mworld) (alive : bool) (k : nat) w1 S1 w2 S2 c : (∀ w, P w = mplace alive k w) → twin I w1 S1 w2 S2 → good c →
  osim mlrel ('(w', S', a) ← caught w1 S1 c; Some (P w', S', a)) ('(w', S', a) ← ideal w2 S2 c; Some (alive, k, w', S', a)).
Proof.
  intros HP T Hg. pose proof (step_tw I rO rI radd rmul rsub _ _ _ _ c T Hg) as Hs.
  destruct Hs as [[[v1 T1] a1] [[v2 T2] a2] [T' Ha]|]; [|constructor]. cbn in Ha, T'. subst. constructor. exists v1. cbn. sp; [apply HP|done|done].
Qed.
Lemma mlight_same w1 S1 w2 S2 (c : mcmd R) : twin I w1 S1 w2 S2 → mlight S1 c = mlight S2 c.
Proof.
  intros T. destruct c as [x k|b|z| | |i|o i j|i j k|o l|h l|i|i|i|e rg|i j|i|t i|i|ss i|pv ss i|pv ss i|m ss i|i|i|i|i| |keep|t| ]; try reflexivity; cbn [mlight];
    pose proof (TransM.slot_tw I _ _ _ _ T i) as H; destruct H as [f1 f2 Hf|]; [|done| |done]; by destruct f1, f2.
Qed.
Definition mgood (c : mlcmd R) : Prop := match c with MCall c => good c | _ => True end.
Lemma mlstep_rel alive k w1 S1 w2 S2 c : twin I w1 S1 w2 S2 → mgood c → osim mlrel (mlstep (mplace alive k w1) S1 c) (msstep alive k w2 S2 c).
Proof.
  intros T Hg. destruct c as [c|i| |].
  - cbn [mgood] in Hg. cbn [SpecLifeM.msstep]. destruct alive; cbn [orb].
    { change (mplace true k w1) with (mat_mgr (S k) w1). rewrite (mcall_alive (S k) w1 S1 c). by apply (mcaught_rel (mat_mgr (S k)) true k w1 S1 w2 S2). }
    destruct (of_mnode c) eqn:Hc; cbn [andb].
    2: { unfold mplace. cbn [LifeM.mlstep]. rewrite Hc. destruct (0 <? k); constructor. }
    pose proof (Is_true_true_2 _ Hc) as Hc'. unfold mowned. cbn [orb]. destruct (0 <? k) eqn:Hk; cbn [orb].
    { unfold mplace. rewrite Hk. destruct (mcall_core k w1 S1 c Hc') as [t ->]. apply (mcaught_rel (mat_core k) false k _ S1 w2 S2); [|by apply mtwin_thr|done].
      intros w. unfold mplace. by rewrite Hk. }
    unfold mplace. rewrite Hk. rewrite (mcall_gone w1 S1 c Hc'), (mlight_same _ _ _ _ c T). destruct (mlight S2 c).
    { apply (mcaught_rel (λ _, mnothing) false k w1 S1 w2 S2); [|done|done]. intros w. unfold mplace. by rewrite Hk. }
    pose proof (TransM.slots_tw I _ _ _ _ T (used c)) as HL. destruct HL as [l1 l2 _|]; [|constructor]. cbn [mbind option_bind]. constructor. exists w1. cbn.
    sp; [by destruct k|done|done].
  - cbn [LifeM.mlstep SpecLifeM.msstep]. pose proof (TransM.slot_tw I _ _ _ _ T i) as H. destruct H as [f1 f2 _|]; [|constructor]. cbn [mbind option_bind]. constructor.
    unfold mowned, mplace. destruct alive; cbn [orb].
    { exists w1. sp; done. }
    destruct (0 <? k) eqn:Hk; cbn.
    + exists w1. sp; done.
    + exists w1. cbn. sp; [by destruct k|done|done].
  - cbn [LifeM.mlstep SpecLifeM.msstep]. destruct alive; cbn [mplace].
    + destruct k as [|k]; [constructor|]. constructor. exists w1. by sp.
    + destruct k as [|[|k]]; [constructor| |]; constructor; exists w1; by sp.
  - cbn [LifeM.mlstep SpecLifeM.msstep]. destruct alive; [|unfold mplace; destruct (0 <? k); constructor]. constructor. exists w1. cbn. sp; [|done|done].
    unfold mmgr_drop, mrc_drop, mplace. cbn. by destruct k.
Qed.
Lemma mstates_cons c p : mwith_states (c :: p) → mgood c ∧ mwith_states (R := R) p.
Proof. unfold mwith_states. destruct c as [c|i| |]; cbn; [|done..]. intros [? ?]%Forall_cons. done. Qed.
Lemma mlrun_rel p : ∀ alive k w1 S1 w2 S2, twin I w1 S1 w2 S2 → mwith_states p →
  mlrun I rO rI radd rmul rsub (mplace alive k w1) S1 p = msrun I rO rI radd rmul rsub alive k w2 S2 p.
Proof.
  induction p as [|c p IH]; intros alive k w1 S1 w2 S2 T Hg; [done|]. apply mstates_cons in Hg as [Hc Hg]. cbn [mlrun msrun].
  pose proof (mlstep_rel alive k _ _ _ _ c T Hc) as Hs. destruct Hs as [[[o T1] a1] [[[[al k'] v2] T2] a2] (v1 & Hp & T' & Ha)|]; [|done].
  cbn in Hp, Ha, T'. subst. cbn [mbind option_bind]. by rewrite (IH _ _ _ _ _ _ T' Hg).
Qed.
Lemma mlrun_srun p : mwith_states p → mlrun I rO rI radd rmul rsub n_new [] p = msrun I rO rI radd rmul rsub true 0 g_new [] p.
Proof. apply (mlrun_rel p true 0 g_new [] g_new []), new_twin. Qed.

(** ** what follows for single calls *)
Local Notation msrun := (msrun I rO rI radd rmul rsub).
Local Notation mlrun := (mlrun I rO rI radd rmul rsub).
Local Notation count alive k := ((if alive : bool then 1 else 0) + k).
Lemma mlight_node Sl (c : mcmd R) : mlight Sl c → of_mnode c.
Proof. by destruct c. Qed.
Lemma mideal_light w Sl c r : mlight Sl c → ideal w Sl c = Some r → is_Some r.2.
Proof.
  intros Hc. unfold PanicM.ideal. destruct (mdo w Sl c) as [[[? ?] ?]|] eqn:E; [intros [= <-]; by eexists|]. intros E2. exfalso. revert E E2.
  destruct c as [x k|b|z| | |i|o i j|i j k|o l|h l|i|i|i|e rg|i j|i|t i|i|ss i|pv ss i|pv ss i|m ss i|i|i|i|i| |keep|t| ]; try (exact (False_ind _ Hc));
    cbn [SpecTransM.mdo used]; rewrite ?mslots_cons; cbn [mlight] in Hc.
  - destruct (mslot Sl i); cbn [mbind option_bind]; intros ??; discriminate.
  - destruct (mslot Sl i); cbn [mbind option_bind]; intros ??; discriminate.
  - destruct (mslot Sl i); cbn [mbind option_bind]; [|intros ??; discriminate]. destruct (mslot Sl j); cbn [mbind option_bind]; [unfold mtell; cbn [mbind option_bind]|]; intros ??; discriminate.
  - destruct (mslot Sl i); cbn [mbind option_bind]; [unfold mtell; cbn [mbind option_bind]|]; intros ??; discriminate.
  - destruct (mslot Sl i) as [[f|f]|]; try (exact (False_ind _ Hc)). cbn. intros ??; discriminate.
  - destruct (mslot Sl i) as [[f|f]|]; try (exact (False_ind _ Hc)). cbn. intros ??; discriminate.
Qed.
Lemma msstep_owners alive k w Sl c alive' k' w' Sl' a : msstep alive k w Sl c = Some (alive', k', w', Sl', a) →
  count alive' k' = match c, a with MDropMgr, _ | MDropRef, _ => Nat.pred (count alive k) | MGetMgr _, Some _ => S (count alive k) | _, _ => count alive k end.
Proof.
  destruct c as [c|i| |]; cbn [SpecLifeM.msstep].
  - destruct (_ || _); [|destruct (of_mnode c); [|done]].
    + destruct (ideal w Sl c) as [[[? ?] ?]|]; [|done]. by intros [= <- <- <- <- <-].
    + destruct (mslot_list _ _); [|done]. by intros [= <- <- <- <- <-].
  - destruct (mslot Sl i); [|done]. cbn [mbind option_bind]. destruct (mowned alive k); intros [= <- <- <- <- <-]; [lia|done].
  - destruct k; [done|]. intros [= <- <- <- <- <-]. cbn [Nat.pred]. lia.
  - destruct alive; [|done]. by intros [= <- <- <- <- <-].
Qed.
Lemma msrun_cons alive k w Sl c p l : msrun alive k w Sl (c :: p) = Some l →
  ∃ alive' k' w' Sl' a l', msstep alive k w Sl c = Some (alive', k', w', Sl', a) ∧ msrun alive' k' w' Sl' p = Some l' ∧ l = a :: l'.
Proof.
  cbn [SpecLifeM.msrun]. destruct (msstep alive k w Sl c) as [[[[[alive' k'] w'] Sl'] a]|]; [|done]. cbn [mbind option_bind].
  destruct (msrun alive' k' w' Sl' p) as [l'|] eqn:E; [|done]. intros [= <-]. by exists alive', k', w', Sl', a, l'.
Qed.
Lemma msrun_light p : ∀ alive k w Sl l j c, msrun alive k w Sl p = Some l → p !! j = Some (MCall c) → (∀ Sl, mlight Sl c) → ∃ a, l !! j = Some (Some a).
Proof.
  induction p as [|c0 p IH]; intros alive k w Sl l j c E Hj Hc; [done|].
  destruct (msrun_cons _ _ _ _ _ _ _ E) as (al & k' & w' & Sl' & a & l' & Es & El & ->). destruct j as [|j]; [|exact (IH _ _ _ _ _ j c El Hj Hc)]. injection Hj as ->.
  cbn [SpecLifeM.msstep] in Es. rewrite (Is_true_true_1 _ (Hc Sl)), orb_true_r, andb_true_r in Es.
  rewrite (Is_true_true_1 _ (mlight_node Sl c (Hc Sl))), orb_true_r in Es. destruct (ideal w Sl c) as [[[? ?] a']|] eqn:Eb; [|done]. injection Es as <- <- <- <- <-.
  destruct (mideal_light _ _ _ _ (Hc Sl) Eb) as [a Ha]. exists a. cbn in *. by rewrite Ha.
Qed.
Lemma msrun_gone p : ∀ alive k w Sl l j c, msrun alive k w Sl p = Some l → p !! j = Some (MCall c) → of_mnode c → (∀ Sl, mlight Sl c = false) →
  mowners (count alive k) (take j p) (take j l) = 0 → l !! j = Some None.
Proof.
  induction p as [|c0 p IH]; intros alive k w Sl l j c E Hj Hn Hc Ho; [done|].
  destruct (msrun_cons _ _ _ _ _ _ _ E) as (al & k' & w' & Sl' & a & l' & Es & El & ->). destruct j as [|j].
  - injection Hj as ->. cbn in Ho. assert (alive = false ∧ k = 0) as [-> ->] by (destruct alive; [lia|split; [done|lia]]).
    cbn [SpecLifeM.msstep mowned orb Nat.ltb Nat.leb] in Es. rewrite Hc, (Is_true_true_1 _ Hn) in Es. cbn in Es. destruct (mslot_list _ _); [|done]. by injection Es as <- <- <- <- <-.
  - cbn [take] in Ho. cbn [mowners] in Ho. rewrite <- (msstep_owners _ _ _ _ _ _ _ _ _ _ Es) in Ho. by apply (IH _ _ _ _ _ j c El).
Qed.
(** the arena is there exactly while it has an owner *)
Lemma mlend_place p : ∀ alive k w1 S1 w2 S2 o l, twin I w1 S1 w2 S2 → mwith_states p → mlend I rO rI radd rmul rsub (mplace alive k w1) S1 p = Some (o, l) →
  ∃ alive' k' w', o = mplace alive' k' w' ∧ count alive' k' = mowners (count alive k) p l.
Proof.
  induction p as [|c p IH]; intros alive k w1 S1 w2 S2 o l T Hg E.
  { injection E as <- <-. by exists alive, k, w1. }
  apply mstates_cons in Hg as [Hc Hg].
  cbn [mlend] in E. pose proof (mlstep_rel alive k _ _ _ _ c T Hc) as Hs. destruct (mlstep (mplace alive k w1) S1 c) as [[[o1 T1] a1]|]; [|done].
  inversion Hs as [? [[[[al k'] v2] T2] a2] (v1 & Hp & T' & Ha) E1 E2|]; subst. cbn in Hp, Ha, T'. subst. cbn [mbind option_bind] in E.
  destruct (mlend _ _ _ _ _ _ _ _ _) as [[o2 l2]|] eqn:E3; [|done]. injection E as <- <-. cbn [mowners].
  rewrite <- (msstep_owners _ _ _ _ _ _ _ _ _ _ (eq_sym E2)). exact (IH _ _ _ _ _ _ _ _ T' Hg E3).
Qed.
Lemma mlend_freed p o l : mwith_states p → mlend I rO rI radd rmul rsub n_new [] p = Some (o, l) → n_core o = None ↔ mowners 1 p l = 0.
Proof.
  intros Hg E. destruct (mlend_place p true 0 g_new [] g_new [] o l (new_twin I) Hg E) as (al & k & w & -> & Ho).
  change (1 + 0) with 1 in Ho. rewrite <- Ho. destruct al; [split; [done|lia]|]. destruct k; cbn; [done|]. split; [done|lia].
Qed.

(** dropping the manager while a reference is held *)
Lemma msrun_held cs : forallb of_mnode cs → ∀ alive k w Sl, msrun alive (S k) w Sl (MCall <$> cs) = msrun true (S k) w Sl (MCall <$> cs).
Proof.
  induction cs as [|c cs IH]; intros Hf alive k w Sl; [done|]. cbn in Hf. apply andb_True in Hf as [Hc Hf]. rewrite fmap_cons. cbn [SpecLifeM.msrun SpecLifeM.msstep orb].
  rewrite (Is_true_true_1 _ Hc). unfold mowned. cbn [Nat.ltb Nat.leb]. rewrite orb_true_r. cbn [orb andb]. rewrite orb_true_r.
  destruct (ideal w Sl c) as [[[w' Sl'] a]|]; [|done]. cbn [mbind option_bind]. by rewrite IH.
Qed.
Lemma msrun_drop p cs i : MDropMgr ∉ p → forallb of_mnode cs → ∀ k w Sl,
  msrun true k w Sl (p ++ MGetMgr i :: MDropMgr :: (MCall <$> cs)) =
  (λ l, take (S (length p)) l ++ Some NDone :: drop (S (length p)) l) <$> msrun true k w Sl (p ++ MGetMgr i :: (MCall <$> cs)).
Proof.
  intros Hp Hf. induction p as [|c p IH]; intros k w Sl.
  - cbn [app length]. cbn [SpecLifeM.msrun SpecLifeM.msstep]. destruct (mslot Sl i); [|done]. cbn [mbind option_bind mowned orb].
    rewrite (msrun_held cs Hf false). by destruct (msrun true (S k) w Sl (MCall <$> cs)).
  - rewrite not_elem_of_cons in Hp. destruct Hp as [Hc Hp]. cbn [app SpecLifeM.msrun].
    destruct (msstep true k w Sl c) as [[[[[al k'] w'] Sl'] a]|] eqn:Es; [|done]. cbn [mbind option_bind].
    assert (al = true) as ->.
    { destruct c as [c|j| |]; cbn [SpecLifeM.msstep orb] in Es; [| | |done].
      - destruct (ideal w Sl c) as [[[? ?] ?]|]; [|done]. by injection Es.
      - destruct (mslot Sl j); [|done]. by injection Es.
      - destruct k; [done|]. by injection Es. }
    rewrite (IH Hp). by destruct (msrun true k' w' Sl' _).
Qed.
Lemma mstates_app p q : mwith_states (R := R) (p ++ q) ↔ mwith_states p ∧ mwith_states q.
Proof. unfold mwith_states. rewrite omap_app. apply Forall_app. Qed.
Lemma mlrun_drop p cs i : mwith_states p → MDropMgr ∉ p → forallb of_mnode cs →
  mlrun n_new [] (p ++ MGetMgr i :: MDropMgr :: (MCall <$> cs)) =
  (λ l, take (S (length p)) l ++ Some NDone :: drop (S (length p)) l) <$> mlrun n_new [] (p ++ MGetMgr i :: (MCall <$> cs)).
Proof.
  intros Hg Hp Hf. assert (mwith_states (MCall <$> cs)) as Hcs.
  { clear p i Hg Hp. induction cs as [|c cs IH]; [constructor|]. cbn in Hf. apply andb_True in Hf as [Hc Hf]. constructor; [by destruct c|by apply IH]. }
  rewrite !mlrun_srun; [by apply msrun_drop|by apply mstates_app|by apply mstates_app].
Qed.
End prog.
