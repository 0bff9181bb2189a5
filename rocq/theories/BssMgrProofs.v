(** The wrapper's invariant: reference counts, variables and held handles. *)
From stdpp Require Import strings.
From Verif Require Import Prelude ComputeCache ComputeCacheProofs Arena Trees ArenaProofs Keeps Bdd BddProofs SpecBdd SpecBss BddMain BssAlg BssCount BssGates BssMgr SpecBssMgr.

Definition denotes (m : bdd) (f : nat) (F : nfun) : Prop :=
  bdd_valid m f ∧ ∀ e, bss_value m e f (tvb (F e)).

Definition roots_of (l : list nat) : gmap nat nat := foldr (λ id r, pin r id) ∅ l.

(** [B]: what is known to be there since earlier: headers, and the diagrams of handles that are not the
    user's own (those of iterators), each with the arena it was taken from *)
Record base := Base { bs_hd : list header; bs_pins : list (arena tv * nat) }.
Definition kept (B : base) (a : arena tv) : Prop :=
  bs_hd B `prefix_of` ar_headers a ∧ ∀ a0 f, (a0, f) ∈ bs_pins B → keeps a0 [f] a.
Lemma kept_ext B a a' : kept B a → ext a a' → kept B a'.
Proof.
  intros [Hp Hk] He. split; [by etrans; [|apply He]|]. intros a0 f Hf. eapply keeps_ext; [by apply Hk|done].
Qed.
Lemma kept_live B a a0 f : kept B a → (a0, f) ∈ bs_pins B → live a f.
Proof. intros [_ Hk] Hf. apply (Hk _ _ Hf). constructor. by left. Qed.
Definition base0 : base := Base [] [].
Section base.
Context {B : base}.
Record wok (w : bmgr) (H : list (nat * nfun)) : Prop := {
  wk_wf : bwf (w_bdd w);
  wk_lvl : ∀ i hd, ar_headers (b_ar (w_bdd w)) !! i = Some hd → h_level hd = i;
  wk_size : size (w_vars w) = length (ar_headers (b_ar (w_bdd w)));
  wk_var : ∀ x id, w_vars w !! x = Some id → bdd_valid (w_bdd w) id ∧
    ∃ i hd, ar_headers (b_ar (w_bdd w)) !! i = Some hd ∧ h_label hd = x ∧
      ar_nodes (b_ar (w_bdd w)) !! id = Some (NT i [bdd_zero; bdd_one]);
  wk_lab : ∀ i hd, ar_headers (b_ar (w_bdd w)) !! i = Some hd → is_Some (w_vars w !! h_label hd);
  wk_nodup : NoDup (h_label <$> ar_headers (b_ar (w_bdd w)));
  wk_roots : ∃ l, w_roots w = roots_of l ∧ l ≡ₚ H.*1 ++ (map_to_list (w_vars w)).*2 ++ (bs_pins B).*2;
  wk_held : ∀ f F, (f, F) ∈ H → denotes (w_bdd w) f F;
  wk_base : kept B (b_ar (w_bdd w));
}.

(** ** values by name and by level *)
Definition lab (m : bdd) (l : nat) : string := default EmptyString (h_label <$> ar_headers (b_ar m) !! l).
Definition rho_of (m : bdd) (e : env) : nat → bool := λ l, e (lab m l).

Lemma value_name m e id t : (∀ i hd, ar_headers (b_ar m) !! i = Some hd → h_level hd = i) →
  bss_value m e id t ↔ bdd_value m (rho_of m e) id t.
Proof.
  intros Hl.
  assert (Hr : ∀ h hd, ar_headers (b_ar m) !! h = Some hd → rho_of m e (h_level hd) = e (h_label hd)).
  { intros h hd Hh. unfold rho_of, lab. rewrite (Hl _ _ Hh), Hh. done. }
  split.
  - induction 1 as [id t Hn|id h lo hi hd t Hn Hh _ IH]; [by constructor|].
    eapply bv_node; [done..|]. by rewrite (Hr h).
  - induction 1 as [id t Hn|id h lo hi hd t Hn Hh _ IH]; [by constructor|].
    eapply sv_node; [done..|]. by rewrite <- (Hr h).
Qed.

Lemma sv_fun m e id t t' : bss_value m e id t → bss_value m e id t' → t = t'.
Proof.
  intros H. revert t'. induction H as [id t Hn|id h lo hi hd t Hn Hh Hv IH]; intros t' H'.
  - destruct H' as [? ? Hn'|]; congruence.
  - destruct H' as [? ? Hn'|? h' lo' hi' hd' ? Hn' Hh' Hv']; [congruence|].
    assert (lo' = lo ∧ hi' = hi ∧ hd' = hd) as (-> & -> & ->) by (rewrite Hn in Hn'; simplify_eq; done).
    by apply IH.
Qed.

Lemma sv_mono m m' e id t : good (b_ar m) → ext (b_ar m) (b_ar m') → bdd_valid m id →
  bss_value m e id t → bss_value m' e id t.
Proof.
  intros Hg He Hv H. induction H as [id t Hn|id h lo hi hd t Hn Hh _ IH].
  - constructor. by apply He.
  - eapply sv_node; [by apply He|by eapply ext_header|]. apply IH.
    destruct (aw_nt _ _ (gd_wf _ Hg) _ _ _ Hv Hn) as (hd' & _ & _ & _ & Hcs).
    rewrite !Forall_cons in Hcs. destruct Hcs as ((? & _) & (? & _) & _). by destruct (e _).
Qed.

Lemma denotes_mono m m' f F : good (b_ar m) → ext (b_ar m) (b_ar m') → denotes m f F → denotes m' f F.
Proof. intros Hg He [Hv H]. split; [by eapply ext_live|]. intros e. by eapply sv_mono. Qed.

Lemma denotes_nodes m m' f F : ar_nodes (b_ar m') = ar_nodes (b_ar m) → ar_headers (b_ar m') = ar_headers (b_ar m) →
  bdd_valid m' f → denotes m f F → denotes m' f F.
Proof.
  intros Hn Hh Hv [_ H]. split; [done|]. intros e. specialize (H e). clear Hv.
  induction H as [id t Hx|id h lo hi hd t Hx Hy _ IH].
  - constructor. by rewrite Hn.
  - eapply sv_node; [by rewrite Hn|by rewrite Hh|]. done.
Qed.

(** ** reference counts *)
Lemma pin_lookup r id j : pin r id !! j = if decide (j = id) then Some (S (default 0 (r !! id))) else r !! j.
Proof.
  unfold pin. destruct (decide _) as [->|]; [by rewrite lookup_insert|by rewrite lookup_insert_ne].
Qed.
Lemma pin_comm r i j : pin (pin r i) j = pin (pin r j) i.
Proof.
  apply map_eq. intros k. rewrite !pin_lookup. repeat destruct (decide _); subst; done.
Qed.
Lemma roots_perm l l' : l ≡ₚ l' → roots_of l = roots_of l'.
Proof.
  induction 1 as [|x l l' _ IH|x y l|l1 l2 l3 _ IH1 _ IH2]; [done| | |congruence].
  - unfold roots_of in *. cbn. by rewrite IH.
  - unfold roots_of. cbn. apply pin_comm.
Qed.
Lemma roots_pos l id c : roots_of l !! id = Some c → c ≠ 0.
Proof.
  revert c. induction l as [|x l IH]; intros c; [done|]. unfold roots_of in *. cbn. rewrite pin_lookup.
  destruct (decide _); [intros [= <-]; lia|apply IH].
Qed.
Lemma unpin_pin l id : unpin (roots_of (id :: l)) id = roots_of l.
Proof.
  unfold unpin. change (roots_of (id :: l)) with (pin (roots_of l) id).
  rewrite pin_lookup, decide_True by done. cbn [Nat.pred].
  destruct (roots_of l !! id) as [c|] eqn:Hc; cbn [from_option].
  - pose proof (roots_pos _ _ _ Hc). cbn. destruct (Nat.eqb_spec c 0) as [|]; [done|].
    apply map_eq. intros k. destruct (decide (k = id)) as [->|].
    + by rewrite lookup_insert.
    + by rewrite lookup_insert_ne, pin_lookup, decide_False.
  - apply map_eq. intros k. cbn. destruct (decide (k = id)) as [->|].
    + by rewrite lookup_delete.
    + by rewrite lookup_delete_ne, pin_lookup, decide_False.
Qed.
Lemma root_keys_elem l id : id ∈ root_keys (roots_of l) ↔ id ∈ l.
Proof.
  unfold root_keys. transitivity (is_Some (roots_of l !! id)).
  - rewrite elem_of_list_fmap. split.
    + intros ([k c] & -> & Hk%elem_of_map_to_list). by exists c.
    + intros [c Hc]. exists (id, c). split; [done|]. by apply elem_of_map_to_list.
  - induction l as [|x l IH].
    + unfold roots_of. cbn. rewrite lookup_empty, elem_of_nil. split; [by intros []|done].
    + change (roots_of (x :: l)) with (pin (roots_of l) x). rewrite pin_lookup, elem_of_cons, <- IH.
      destruct (decide _); [|tauto]. split; [by left|]. intros _. by eexists.
Qed.

(** ** moving the invariant along *)
Lemma wok_step w H b : wok w H → step (w_bdd w) b → wok (with_bdd w b) H.
Proof.
  intros [Hw Hl Hs Hv Hla Hnd Hr Hh Hb] (Hw' & He & Hhd). constructor; cbn [with_bdd w_bdd w_vars w_roots]; rewrite ?Hhd; try done.
  - intros x id Hx. destruct (Hv _ _ Hx) as [Vid (i & hd & Hi & Hx' & Hn)]. split; [by eapply ext_live|].
    exists i, hd. sp; try done. by apply He.
  - intros f F Hf. eapply denotes_mono; [apply Hw|done|]. by apply Hh.
  - by eapply kept_ext.
Qed.

Lemma wok_pin w H f F : wok w H → denotes (w_bdd w) f F → wok (w_pin w f) ((f, F) :: H).
Proof.
  intros [Hw Hl Hs Hv Hla Hnd [l [Hr Hp]] Hh Hb] Hd. constructor; cbn [w_pin w_bdd w_vars w_roots]; try done.
  - exists (f :: l). split; [by rewrite Hr|]. cbn. by rewrite Hp.
  - intros g G [Hg|Hg]%elem_of_cons; [|by apply Hh]. by injection Hg as -> ->.
Qed.

Lemma wok_drop w H f F H' : wok w H → H ≡ₚ (f, F) :: H' → wok (w_drop w f) H'.
Proof.
  intros [Hw Hl Hs Hv Hla Hnd [l [Hr Hp]] Hh Hb] Hd. constructor; cbn [w_drop w_bdd w_vars w_roots]; try done.
  - exists (H'.*1 ++ (map_to_list (w_vars w)).*2 ++ (bs_pins B).*2). split; [|done].
    rewrite Hr, (roots_perm l (f :: H'.*1 ++ (map_to_list (w_vars w)).*2 ++ (bs_pins B).*2)); [apply unpin_pin|].
    rewrite Hp, Hd. done.
  - intros g G Hg. apply Hh. rewrite Hd. by right.
Qed.

Lemma wok_perm w H H' : wok w H → H ≡ₚ H' → wok w H'.
Proof.
  intros [Hw Hl Hs Hv Hla Hnd [l [Hr Hp]] Hh Hb] Hd. constructor; try done.
  - exists l. split; [done|]. by rewrite <- Hd.
  - intros g G Hg. apply Hh. by rewrite Hd.
Qed.

Lemma wok_params w H t f : wok w H → wok (BMgr (w_bdd w) (w_roots w) t f (w_vars w)) H.
Proof. by intros []. Qed.

Lemma wok_root_valid w H id : wok w H → id ∈ root_keys (w_roots w) → bdd_valid (w_bdd w) id.
Proof.
  intros [Hw Hl Hs Hv Hla Hnd [l [Hr Hp]] Hh Hb] Hin. rewrite Hr, root_keys_elem, Hp, !elem_of_app in Hin.
  destruct Hin as [([f F] & -> & Hf)%elem_of_list_fmap|[([x v] & -> & Hx)%elem_of_list_fmap|([a0 f] & -> & Hf)%elem_of_list_fmap]].
  - by apply Hh in Hf as [? _].
  - apply elem_of_map_to_list in Hx. by apply Hv in Hx as [? _].
  - by eapply kept_live.
Qed.

Lemma wok_gc w H roots : wok w H → (∀ id, id ∈ root_keys (w_roots w) → id ∈ roots) →
  (∀ id, id ∈ roots → bdd_valid (w_bdd w) id) →
  ∃ b n, bdd_gc (w_bdd w) roots = Some (b, n) ∧ wok (with_bdd w b) H.
Proof.
  intros Hk Hsup Hval. pose proof Hk as [Hw Hl Hs Hv Hla Hnd [l [Hr Hp]] Hh Hb].
  destruct (gc_ok (w_bdd w) roots Hw Hval) as (b & n & Heq & Hw' & Hhd & Hns & Hlive & _).
  exists b, n. split; [done|].
  assert (Hkeep : ∀ id, id ∈ l → bdd_valid b id).
  { intros id Hid. apply valid_live, Hlive. right. constructor. apply Hsup. rewrite Hr. by apply root_keys_elem. }
  constructor; cbn [with_bdd w_bdd w_vars w_roots]; rewrite ?Hhd, ?Hns; try done.
  - intros x id Hx. destruct (Hv _ _ Hx) as [_ Hx']. split; [|done]. apply Hkeep. rewrite Hp.
    apply elem_of_app. right. apply elem_of_app. left. apply elem_of_list_fmap. exists (x, id). split; [done|]. by apply elem_of_map_to_list.
  - by exists l.
  - intros f F Hf. eapply denotes_nodes; [done|done| |by apply Hh]. apply Hkeep. rewrite Hp.
    apply elem_of_app. left. apply elem_of_list_fmap. by exists (f, F).
  - split; [rewrite Hhd; apply Hb|]. intros a0 f Hf. eapply keeps_gc; [by apply Hb|done|done|]. intros id Hid.
    apply Hlive. right. eapply reach_mono; [|exact Hid]. intros g ->%elem_of_list_singleton. apply Hsup. rewrite Hr. apply root_keys_elem.
    rewrite Hp, !elem_of_app. right. right. apply elem_of_list_fmap. by exists (a0, f).
Qed.

Lemma wok_maybe_gc w H : wok w H → ∃ w', maybe_gc w = Some w' ∧ wok w' H.
Proof.
  intros Hk. unfold maybe_gc. destruct (_ <? _); [by exists w|].
  destruct (wok_gc w H (root_keys (w_roots w))) as (b & n & -> & Hk'); [done|done| |].
  { intros id. by eapply wok_root_valid. }
  cbn [mbind option_bind]. eexists. split; [done|].
  eapply (wok_params _ _ _ _ Hk').
Qed.

Lemma wok_wrap w H f F : wok w H → denotes (w_bdd w) f F →
  ∃ w', w_wrap w f = Some (w', f) ∧ wok w' ((f, F) :: H).
Proof.
  intros Hk Hd. unfold w_wrap. destruct (wok_maybe_gc (w_pin w f) ((f, F) :: H)) as (w' & -> & Hk'); [by apply wok_pin|].
  by exists w'.
Qed.

(** an operation of the inner manager followed by wrap *)
Lemma wok_op w H o b r F : wok w H → o = Some (b, r) → step (w_bdd w) b → denotes b r F →
  ∃ w', w_op w o = Some (w', r) ∧ wok w' ((r, F) :: H).
Proof.
  intros Hk -> Hst Hd. unfold w_op. cbn [mbind option_bind]. apply wok_wrap; [by apply wok_step|done].
Qed.

(** meaning by level of a handle *)
Lemma denotes_value w H f F e : wok w H → denotes (w_bdd w) f F →
  bdd_value (w_bdd w) (rho_of (w_bdd w) e) f (tvb (F e)).
Proof. intros Hk [_ Hd]. apply value_name; [apply Hk|apply Hd]. Qed.

Lemma value_denotes w H b f F : wok w H → step (w_bdd w) b → bdd_valid b f →
  (∀ e, bdd_value b (rho_of (w_bdd w) e) f (tvb (F e))) → denotes b f F.
Proof.
  intros Hk (Hw & _ & Hhd) Hv Hf. split; [done|]. intros e. apply value_name.
  - rewrite Hhd. apply Hk.
  - assert (rho_of b e = rho_of (w_bdd w) e) as -> by (unfold rho_of, lab; by rewrite Hhd). apply Hf.
Qed.

(** ** inner operations with their frame *)
Lemma conn_v m c f g : bwf m → bdd_valid m f → bdd_valid m g →
  ∃ m' r, bdd_conn c m f g = Some (m', r) ∧ step m m' ∧ bdd_valid m' r ∧
    ∀ rho x y, bdd_value m rho f (tvb x) → bdd_value m rho g (tvb y) →
      bdd_value m' rho r (tvb (conn_bool c x y)).
Proof.
  intros Hw Vf Vg. destruct (valid_repr _ _ Hw Vf) as [df Hf]. destruct (valid_repr _ _ Hw Vg) as [dg Hg].
  destruct (conn_tree c m f g df dg Hw Hf Hg) as (m' & r & dr & Heq & Hst & Hr & _ & Hp).
  exists m', r. split; [done|]. split; [done|]. split; [by eapply repr_live|]. intros rho x y Hx Hy.
  eapply val_ev in Hx; [|apply Hw|done]. eapply val_ev in Hy; [|apply Hw|done].
  eapply ev_val; [apply Hst|done|]. specialize (Hp (asg rho) (asg_ok rho)). rewrite Hx, Hy in Hp.
  by apply conn_rel_det.
Qed.
Lemma not_v m f : bwf m → bdd_valid m f →
  ∃ m' r, bdd_not m f = Some (m', r) ∧ step m m' ∧ bdd_valid m' r ∧
    ∀ rho x, bdd_value m rho f (tvb x) → bdd_value m' rho r (tvb (negb x)).
Proof.
  intros Hw Vf. destruct (valid_repr _ _ Hw Vf) as [df Hf].
  destruct (not_tree m f df Hw Hf) as (m' & r & dr & Heq & Hst & Hr & _ & Hp).
  exists m', r. split; [done|]. split; [done|]. split; [by eapply repr_live|]. intros rho a Ha.
  eapply val_ev in Ha; [|apply Hw|done]. eapply ev_val; [apply Hst|done|].
  rewrite Hp by apply asg_ok. rewrite Ha. by destruct a.
Qed.
Lemma ite_v m f g h : bwf m → bdd_valid m f → bdd_valid m g → bdd_valid m h →
  ∃ m' r, bdd_ite m f g h = Some (m', r) ∧ step m m' ∧ bdd_valid m' r ∧
    ∀ rho (x y z : bool), bdd_value m rho f (tvb x) → bdd_value m rho g (tvb y) → bdd_value m rho h (tvb z) →
      bdd_value m' rho r (tvb (if x then y else z)).
Proof.
  intros Hw Vf Vg Vh. destruct (valid_repr _ _ Hw Vf) as [df Hf]. destruct (valid_repr _ _ Hw Vg) as [dg Hg].
  destruct (valid_repr _ _ Hw Vh) as [dh Hh].
  destruct (bdd_ite_ok m f g h df dg dh Hw Hf Hg Hh) as (m' & r & dr & Heq & Hst & Hr & _ & Hp).
  exists m', r. split; [done|]. split; [done|]. split; [by eapply repr_live|]. intros rho x y z Hx Hy Hz.
  eapply val_ev in Hx; [|apply Hw|done]. eapply val_ev in Hy; [|apply Hw|done]. eapply val_ev in Hz; [|apply Hw|done].
  eapply ev_val; [apply Hst|done|]. specialize (Hp (asg rho) (asg_ok rho)). rewrite Hx, Hy, Hz in Hp.
  by destruct x.
Qed.
Lemma node_v m h hd f g : bwf m → ar_headers (b_ar m) !! h = Some hd → bdd_valid m f → bdd_valid m g →
  bdd_below m f (h_level hd) → bdd_below m g (h_level hd) →
  ∃ m' r, bdd_create_node m h f g = (m', r) ∧ step m m' ∧ bdd_valid m' r ∧
    ∀ rho x y, bdd_value m rho f (tvb x) → bdd_value m rho g (tvb y) →
      bdd_value m' rho r (tvb (if rho (h_level hd) then y else x)).
Proof.
  intros Hw Hh Vf Vg Bf Bg. destruct (valid_repr _ _ Hw Vf) as [df Hf]. destruct (valid_repr _ _ Hw Vg) as [dg Hg].
  destruct (create_node_sem m h hd f g df dg) as (m' & r & dr & Heq & Hst & Hr & _ & Hp); try done.
  { by eapply below_rank. } { by eapply below_rank. }
  exists m', r. split; [done|]. split; [done|]. split; [by eapply repr_live|]. intros rho x y Hx Hy.
  eapply val_ev in Hx; [|apply Hw|done]. eapply val_ev in Hy; [|apply Hw|done].
  eapply ev_val; [apply Hst|done|]. rewrite Hp by apply asg_ok. unfold asg at 2.
  by destruct (rho (h_level hd)).
Qed.

(** ** the operations on the wrapper *)
Section ops.
Context (w : bmgr) (H : list (nat * nfun)) (Hk : wok w H).
Let Hw := wk_wf _ _ Hk.

Lemma held_d f F : (f, F) ∈ H → denotes (w_bdd w) f F.
Proof. apply Hk. Qed.

Lemma inner_bin c f F g G : denotes (w_bdd w) f F → denotes (w_bdd w) g G →
  ∃ b r, bdd_conn c (w_bdd w) f g = Some (b, r) ∧ step (w_bdd w) b ∧ denotes b r (λ e, conn_bool c (F e) (G e)).
Proof.
  intros Hf Hg. destruct (conn_v (w_bdd w) c f g) as (b & r & Heq & Hst & Hv & Hr); [apply Hw|apply Hf|apply Hg|].
  exists b, r. sp; [done|done|]. eapply value_denotes; [exact Hk|done|done|].
  intros e. apply Hr; by eapply denotes_value.
Qed.
Lemma inner_not f F : denotes (w_bdd w) f F →
  ∃ b r, bdd_not (w_bdd w) f = Some (b, r) ∧ step (w_bdd w) b ∧ denotes b r (λ e, negb (F e)).
Proof.
  intros Hf. destruct (not_v (w_bdd w) f) as (b & r & Heq & Hst & Hv & Hr); [apply Hw|apply Hf|].
  exists b, r. sp; [done|done|]. eapply value_denotes; [exact Hk|done|done|].
  intros e. apply Hr; by eapply denotes_value.
Qed.
Lemma inner_ite f F g G h K : denotes (w_bdd w) f F → denotes (w_bdd w) g G → denotes (w_bdd w) h K →
  ∃ b r, bdd_ite (w_bdd w) f g h = Some (b, r) ∧ step (w_bdd w) b ∧ denotes b r (λ e, if F e : bool then G e else K e).
Proof.
  intros Hf Hg Hh. destruct (ite_v (w_bdd w) f g h) as (b & r & Heq & Hst & Hv & Hr); [apply Hw|apply Hf|apply Hg|apply Hh|].
  exists b, r. sp; [done|done|]. eapply value_denotes; [exact Hk|done|done|].
  intros e. apply Hr; by eapply denotes_value.
Qed.

Lemma terminal_d : denotes (w_bdd w) bdd_zero (λ _, false) ∧ denotes (w_bdd w) bdd_one (λ _, true).
Proof.
  destruct (bw_good _ Hw) as [_ [??] [??] _ _]. split; (split; [done|]; intros e; by constructor).
Qed.

Lemma w_bin_ok o f F g G : (f, F) ∈ H → (g, G) ∈ H →
  ∃ w' r, w_bin o w f g = Some (w', r) ∧ wok w' ((r, λ e, bop2_fun o (F e) (G e)) :: H).
Proof.
  intros Hf%held_d Hg%held_d.
  assert (Hgo : ∀ c, (∀ x y, conn_bool c x y = bop2_fun o x y) → w_bin o w f g = w_op w (bdd_conn c (w_bdd w) f g) →
    ∃ w' r, w_bin o w f g = Some (w', r) ∧ wok w' ((r, λ e, bop2_fun o (F e) (G e)) :: H)).
  { intros c Hc ->. destruct (inner_bin c f F g G Hf Hg) as (b & r & Heq & Hst & Hd).
    destruct (wok_op w H _ b r (λ e, bop2_fun o (F e) (G e)) Hk Heq Hst) as (w' & ? & ?); [|by exists w', r].
    split; [apply Hd|]. intros e. rewrite <- Hc. apply Hd. }
  destruct o; [apply (Hgo And)|apply (Hgo Or)|apply (Hgo Xor)]; done.
Qed.
Lemma w_not_ok f F : (f, F) ∈ H → ∃ w' r, w_not w f = Some (w', r) ∧ wok w' ((r, λ e, negb (F e)) :: H).
Proof.
  intros Hf%held_d. destruct (inner_not f F Hf) as (b & r & Heq & Hst & Hd).
  destruct (wok_op w H _ b r _ Hk Heq Hst Hd) as (w' & ? & ?). by exists w', r.
Qed.
Lemma w_ite_ok f F g G h K : (f, F) ∈ H → (g, G) ∈ H → (h, K) ∈ H →
  ∃ w' r, w_ite w f g h = Some (w', r) ∧ wok w' ((r, λ e, if F e : bool then G e else K e) :: H).
Proof.
  intros Hf%held_d Hg%held_d Hh%held_d. destruct (inner_ite f F g G h K Hf Hg Hh) as (b & r & Heq & Hst & Hd).
  destruct (wok_op w H _ b r _ Hk Heq Hst Hd) as (w' & ? & ?). by exists w', r.
Qed.
Lemma w_zero_ok : ∃ w' r, w_zero w = Some (w', r) ∧ wok w' ((r, λ _, false) :: H).
Proof. destruct (wok_wrap w H bdd_zero (λ _, false) Hk) as (w' & ? & ?); [apply terminal_d|]. by exists w', bdd_zero. Qed.
Lemma w_one_ok : ∃ w' r, w_one w = Some (w', r) ∧ wok w' ((r, λ _, true) :: H).
Proof. destruct (wok_wrap w H bdd_one (λ _, true) Hk) as (w' & ? & ?); [apply terminal_d|]. by exists w', bdd_one. Qed.

Lemma w_node_ok h hd f F g G : (f, F) ∈ H → (g, G) ∈ H → ar_headers (b_ar (w_bdd w)) !! h = Some hd →
  bdd_below (w_bdd w) f (h_level hd) → bdd_below (w_bdd w) g (h_level hd) →
  ∃ w' r, w_create_node w h f g = Some (w', r) ∧ wok w' ((r, λ e : env, if e (h_label hd) then G e else F e) :: H).
Proof.
  intros Hf%held_d Hg%held_d Hh Bf Bg.
  destruct (node_v (w_bdd w) h hd f g Hw Hh) as (b & r & Heq & Hst & Hv & Hr); try done; [apply Hf|apply Hg|].
  unfold w_create_node. rewrite Heq.
  destruct (wok_op w H (Some (b, r)) b r (λ e : env, if e (h_label hd) then G e else F e) Hk eq_refl Hst) as (w' & ? & ?);
    [|by exists w', r].
  eapply value_denotes; [exact Hk|done|done|]. intros e.
  specialize (Hr (rho_of (w_bdd w) e) (F e) (G e)).
  assert (rho_of (w_bdd w) e (h_level hd) = e (h_label hd)) as Hrho.
  { unfold rho_of, lab. by rewrite (wk_lvl _ _ Hk _ _ Hh), Hh. }
  rewrite Hrho in Hr.
  apply Hr; by eapply denotes_value.
Qed.

(** gates *)
Lemma list_values (L : list (nat * nfun)) e : (∀ x, x ∈ L → x ∈ H) →
  Forall (bdd_valid (w_bdd w)) L.*1 ∧
  Forall2 (λ x b, bdd_value (w_bdd w) (rho_of (w_bdd w) e) x (tvb b)) L.*1 ((λ x, x.2 e) <$> L).
Proof.
  induction L as [|[f F] L IH]; intros HL; [by split; constructor|].
  destruct IH as [IH1 IH2]; [intros x Hx; apply HL; by right|].
  assert (denotes (w_bdd w) f F) as Hf by (apply held_d, HL; by left). split.
  - constructor; [apply Hf|done].
  - constructor; [by eapply denotes_value|done].
Qed.

Lemma w_and_list_ok (L : list (nat * nfun)) : (∀ x, x ∈ L → x ∈ H) →
  ∃ w' r, w_and_list w L.*1 = Some (w', r) ∧ wok w' ((r, λ e, forallb (λ x, x.2 e) L) :: H).
Proof.
  intros HL. destruct (and_list_l (w_bdd w) L.*1 Hw) as (b & r & Heq & Hst & Hv & _ & Hr).
  { apply (list_values L (λ _, false) HL). }
  destruct (wok_op w H _ b r (λ e, forallb (λ x, x.2 e) L) Hk Heq Hst) as (w' & ? & ?); [|by exists w', r].
  eapply value_denotes; [exact Hk|done|done|]. intros e. specialize (Hr _ _ (proj2 (list_values L e HL))).
  assert (forallb id ((λ x : nat * nfun, x.2 e) <$> L) = forallb (λ x, x.2 e) L) as <-; [|done].
  clear. induction L as [|x L IH]; cbn; [done|by rewrite IH].
Qed.
Lemma w_or_list_ok (L : list (nat * nfun)) : (∀ x, x ∈ L → x ∈ H) →
  ∃ w' r, w_or_list w L.*1 = Some (w', r) ∧ wok w' ((r, λ e, existsb (λ x, x.2 e) L) :: H).
Proof.
  intros HL. destruct (or_list_l (w_bdd w) L.*1 Hw) as (b & r & Heq & Hst & Hv & _ & Hr).
  { apply (list_values L (λ _, false) HL). }
  destruct (wok_op w H _ b r (λ e, existsb (λ x, x.2 e) L) Hk Heq Hst) as (w' & ? & ?); [|by exists w', r].
  eapply value_denotes; [exact Hk|done|done|]. intros e. specialize (Hr _ _ (proj2 (list_values L e HL))).
  assert (existsb id ((λ x : nat * nfun, x.2 e) <$> L) = existsb (λ x, x.2 e) L) as <-; [|done].
  clear. induction L as [|x L IH]; cbn; [done|by rewrite IH].
Qed.
Lemma w_kofn_ok k (L : list (nat * nfun)) : (∀ x, x ∈ L → x ∈ H) →
  ∃ w' r, w_kofn w k L.*1 = Some (w', r) ∧
    wok w' ((r, λ e, k <=? length (filter (λ x : nat * nfun, x.2 e = true) L)) :: H).
Proof.
  intros HL. destruct (kofn_l (w_bdd w) k L.*1 Hw) as (b & r & Heq & Hst & Hv & _ & Hr).
  { apply (list_values L (λ _, false) HL). }
  destruct (wok_op w H _ b r (λ e, k <=? length (filter (λ x : nat * nfun, x.2 e = true) L)) Hk Heq Hst) as (w' & ? & ?);
    [|by exists w', r].
  eapply value_denotes; [exact Hk|done|done|]. intros e. specialize (Hr _ _ (proj2 (list_values L e HL))).
  assert (count_true ((λ x : nat * nfun, x.2 e) <$> L) = length (filter (λ x : nat * nfun, x.2 e = true) L)) as <-; [|done].
  clear. unfold count_true. induction L as [|x L IH]; [done|]. rewrite fmap_cons, !filter_cons.
  destruct (decide (x.2 e = true)); cbn; by rewrite IH.
Qed.
Lemma w_dual_ok f F : (f, F) ∈ H →
  ∃ w' r, w_dual w f = Some (w', r) ∧ wok w' ((r, λ e, negb (F (λ x, negb (e x)))) :: H).
Proof.
  intros Hf%held_d. destruct (dual_l (w_bdd w) f Hw (proj1 Hf)) as (b & r & Heq & Hst & Hv & _ & Hr & _).
  destruct (wok_op w H _ b r (λ e, negb (F (λ x, negb (e x)))) Hk Heq Hst) as (w' & ? & ?); [|by exists w', r].
  eapply value_denotes; [exact Hk|done|done|]. intros e.
  pose proof (denotes_value w H f F (λ x, negb (e x)) Hk Hf) as Hx.
  apply (Hr (rho_of (w_bdd w) e)) in Hx. by destruct (F _).
Qed.

Lemma w_gc_ok keep : Forall (λ f, f ∈ H.*1) keep → ∃ w' n, w_gc w keep = Some (w', n) ∧ wok w' H.
Proof.
  intros Hkeep. unfold w_gc.
  destruct (wok_gc w H (root_keys (w_roots w) ++ keep) Hk) as (b & n & -> & Hk').
  - intros id Hid. apply elem_of_app. by left.
  - intros id [Hid|Hid]%elem_of_app; [by eapply wok_root_valid|]. rewrite Forall_forall in Hkeep.
    apply Hkeep in Hid. apply elem_of_list_fmap in Hid as ([f F] & -> & Hf). by apply held_d in Hf as [? _].
  - by exists (with_bdd w b), n.
Qed.
Lemma w_clear_ok : wok (w_clear_cache w) H.
Proof.
  destruct Hk as [? ? ? ? ? ? ? Hh ?]. constructor; try done.
  - cbn. by apply clear_cache_ok.
  - intros f F Hf. eapply (denotes_nodes (w_bdd w)); [done|done| |by apply Hh]. by apply Hh in Hf as [? _].
Qed.

End ops.

End base.

Lemma new_wok : @wok base0 w_new [].
Proof.
  constructor; cbn; try done.
  - apply new_ok.
  - by constructor.
  - exists []. done.
  - intros f F Hf. by apply elem_of_nil in Hf.
  - split; [done|]. intros a0 f Hf. by apply elem_of_nil in Hf.
Qed.

(** ** variables *)
Lemma defvar_ok {B} w H x w' r : @wok B w H → w_defvar w x = (w', r) →
  @wok B w' ((r, λ e, e x) :: H) ∧ ext (b_ar (w_bdd w)) (b_ar (w_bdd w')) ∧
  ar_headers (b_ar (w_bdd w')) = ar_headers (b_ar (w_bdd w)) ++
    (if decide (is_Some (w_vars w !! x)) then [] else [Header (length (ar_headers (b_ar (w_bdd w)))) (length (ar_headers (b_ar (w_bdd w)))) x 2]) ∧
  (is_Some (w_vars w !! x) → w_bdd w' = w_bdd w) ∧ w_vars w' !! x = Some r.
Proof.
  intros Hk. pose proof Hk as [Hw Hl Hs Hv Hla Hnd [l [Hr Hp]] Hh Hb]. unfold w_defvar.
  assert (Hvar : ∀ m id i hd, good (b_ar m) → bdd_valid m id → ar_headers (b_ar m) !! i = Some hd →
     ar_nodes (b_ar m) !! id = Some (NT i [bdd_zero; bdd_one]) → denotes m id (λ e, e (h_label hd))).
  { intros m id i hd Hg Vid Hi Hn. split; [done|]. intros e. eapply sv_node; [done..|].
    destruct Hg as [_ [_ Hz] [_ Ho] _ _]. destruct (e (h_label hd)); by constructor. }
  destruct (w_vars w !! x) as [id|] eqn:Hx.
  { intros [= <- <-]. destruct (Hv _ _ Hx) as (Vid & i & hd & Hi & <- & Hn). rewrite decide_True by done. rewrite app_nil_r.
    cbn [w_pin w_bdd w_vars]. sp; try done.
    apply wok_pin; [done|]. eapply Hvar; [apply Hw|done..]. }
  destruct (bdd_create_header (w_bdd w) (size (w_vars w)) x) as [b1 h] eqn:Hch.
  destruct (create_header_ok _ _ _ _ _ Hw Hch) as (Hw1 & He1 & -> & Hhd1 & Hns1 & Hl1).
  assert (Hh1 : ar_headers (b_ar b1) !! length (ar_headers (b_ar (w_bdd w))) =
    Some (Header (length (ar_headers (b_ar (w_bdd w)))) (size (w_vars w)) x 2)).
  { rewrite Hhd1, lookup_app_r by lia. by rewrite Nat.sub_diag. }
  destruct (create_node_spec b1 _ _ bdd_zero bdd_one (Leaf TZero) (Leaf TOne) Hw1 Hh1
      (gd_zero _ (bw_good _ Hw1)) (gd_one _ (bw_good _ Hw1)) (Nat.le_0_l _) (Nat.le_0_l _))
    as (b2 & id & dr & Hcn & (Hw2 & He2 & Hhd2) & Hid & [[? _]|[_ ->]]); [done|].
  rewrite Hcn. intros [= <- <-]. cbn [w_bdd w_vars].
  pose proof Hid as [Lid (h & cs & Hn & Hh' & Hf)]%repr_br.
  assert (He : ext (b_ar (w_bdd w)) (b_ar b2)) by by eapply ext_trans.
  assert (Hhs : ar_headers (b_ar b2) = ar_headers (b_ar (w_bdd w)) ++ [Header (length (ar_headers (b_ar (w_bdd w)))) (size (w_vars w)) x 2]) by congruence.
  assert (h = length (ar_headers (b_ar (w_bdd w)))) as ->.
  { apply (aw_hdr _ _ (gd_wf _ (bw_good _ Hw2))) in Hh'. done. }
  assert (cs = [bdd_zero; bdd_one]) as ->.
  { inversion Hf as [|? c0 ? cs0 H0 Hf0]; subst. inversion Hf0 as [|? c1 ? cs1 H1 Hf1]; subst. inversion Hf1; subst.
    f_equal; [|f_equal]; (eapply repr_inj; [apply (gd_wf _ (bw_good _ Hw2))|done|apply (bw_good _ Hw2)]). }
  assert (Hdn : denotes b2 id (λ e, e x)).
  { eapply (Hvar b2 id _ _ (bw_good _ Hw2) Lid Hh' Hn). }
  assert (Hnone : ∀ i hd, ar_headers (b_ar (w_bdd w)) !! i = Some hd → h_label hd ≠ x).
  { intros i hd Hi <-. apply Hla in Hi. rewrite Hx in Hi. by destruct Hi. }
  sp.
  - constructor; cbn [w_bdd w_vars w_roots].
    + done.
    + intros i hd. rewrite Hhs. intros [Hi|[Hge Hi]]%lookup_app_Some; [by apply Hl|].
      destruct (i - _) as [|k] eqn:Hk0; [|done]. cbn in Hi. injection Hi as <-. cbn. lia.
    + rewrite map_size_insert_None by done. rewrite Hhs, app_length. cbn. lia.
    + intros y id'. destruct (decide (y = x)) as [->|Hne].
      * rewrite lookup_insert. intros [= <-]. split; [done|]. eexists _, _. split; [exact Hh'|]. done.
      * rewrite lookup_insert_ne by done. intros Hy. destruct (Hv _ _ Hy) as (Vid' & i & hd & Hi & Hy' & Hn').
        split; [by eapply ext_live|]. exists i, hd. sp; [by eapply ext_header|done|by apply He].
    + intros i hd. rewrite Hhs. intros [Hi|[Hge Hi]]%lookup_app_Some.
      * rewrite lookup_insert_ne by (apply not_eq_sym; by eapply Hnone). by eapply Hla.
      * destruct (i - _) as [|k]; [|done]. cbn in Hi. injection Hi as <-. cbn. rewrite lookup_insert. by eexists.
    + rewrite Hhs, fmap_app. apply NoDup_app. split; [done|]. split; [|by apply NoDup_singleton].
      intros y (hd & -> & Hhd)%elem_of_list_fmap. apply elem_of_list_lookup in Hhd as [i Hi].
      cbn. rewrite elem_of_list_singleton. by eapply Hnone.
    + exists (id :: id :: l). split; [by rewrite Hr|]. rewrite map_to_list_insert by done. cbn.
      rewrite Hp. constructor. by rewrite Permutation_middle.
    + intros f F [Hf'|Hf']%elem_of_cons.
      * injection Hf' as -> ->. done.
      * eapply denotes_mono; [apply Hw|done|]. by apply Hh.
    + by eapply kept_ext.
  - done.
  - rewrite decide_False by (intros [? ?]; done). rewrite Hhs, Hs. done.
  - by intros [? ?].
  - apply lookup_insert.
Qed.
