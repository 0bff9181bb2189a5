(** Generic facts used for all multi-valued managers: headers and assignments, n-ary nodes, memo tables,
    state-passing maps, expansion of operands. *)
From Verif Require Import Prelude ComputeCache ComputeCacheProofs Arena Trees ArenaProofs Bdd ArenaMore Mdd.

(** ** Headers and assignments *)
Definition hcons (hs : list header) : Prop :=
  (∀ hd, hd ∈ hs → 0 < h_edges hd) ∧
  (∀ hd hd', hd ∈ hs → hd' ∈ hs → h_level hd = h_level hd' → h_edges hd = h_edges hd').
Definition vokh (hs : list header) (ρ : nat → nat) : Prop := ∀ hd, hd ∈ hs → ρ (h_level hd) < h_edges hd.

Definition Eof (hs : list header) (ρ : nat → nat) (l : nat) : nat :=
  match list_find (λ hd, h_level hd = l) hs with Some p => h_edges p.2 | None => S (ρ l) end.

Lemma Eof_edges hs ρ hd : hcons hs → hd ∈ hs → h_edges hd = Eof hs ρ (h_level hd).
Proof.
  intros [_ Hc] Hin. unfold Eof. destruct (list_find _ hs) as [[i hd']|] eqn:Hf.
  - apply list_find_Some in Hf as (Hi & Hl & _). cbn. apply Hc; [done| |done].
    by eapply elem_of_list_lookup_2.
  - apply list_find_None in Hf. rewrite Forall_forall in Hf. by destruct (Hf _ Hin).
Qed.
Lemma Eof_pos hs ρ l : hcons hs → 0 < Eof hs ρ l.
Proof.
  intros [Hp _]. unfold Eof. destruct (list_find _ hs) as [[i hd']|] eqn:Hf; [|lia].
  apply list_find_Some in Hf as (Hi & _ & _). cbn. apply Hp. by eapply elem_of_list_lookup_2.
Qed.
Lemma Eof_vok hs ρ : vokh hs ρ → vok (Eof hs ρ) ρ.
Proof.
  intros Hv l. unfold Eof. destruct (list_find _ hs) as [[i hd']|] eqn:Hf; [|lia].
  apply list_find_Some in Hf as (Hi & <- & _). cbn. apply Hv. by eapply elem_of_list_lookup_2.
Qed.
Lemma vok_vokh hs ρ0 ρ : hcons hs → vok (Eof hs ρ0) ρ → vokh hs ρ.
Proof. intros Hc Hv hd Hin. rewrite (Eof_edges hs ρ0 hd Hc Hin). apply Hv. Qed.
Lemma vokh_mono hs hs' ρ : hs `prefix_of` hs' → vokh hs' ρ → vokh hs ρ.
Proof. intros [k ->] Hv hd Hin. apply Hv. apply elem_of_app. by left. Qed.
Lemma vokh_upd hs ρ hd i : hcons hs → vokh hs ρ → hd ∈ hs → i < h_edges hd → vokh hs (upd ρ (h_level hd) i).
Proof.
  intros [_ Hc] Hv Hin Hi hd' Hin'. unfold upd. destruct (decide _) as [He|]; [|by apply Hv].
  by rewrite (Hc hd' hd).
Qed.
Lemma vokh_zero hs : hcons hs → vokh hs (λ _, 0).
Proof. intros [Hp _] hd Hin. by apply Hp. Qed.

(** trees ordered and of the right arity under every admissible assignment *)
Definition okh {T} (hs : list header) (d : dd T) : Prop := ∀ ρ, okdd (Eof hs ρ) d.

Lemma repr_okh {T} R (a : arena T) d id : awf R a → hcons (ar_headers a) → repr a d id → okh (ar_headers a) d.
Proof.
  intros Hwf Hc Hr ρ. eapply repr_ok; try done. intros h hd Hh. apply Eof_edges; [done|].
  by eapply elem_of_list_lookup_2.
Qed.
Lemma okh_total {T} hs (d : dd T) ρ : okh hs d → vokh hs ρ → ∃ t, eval ρ d = Some t.
Proof. intros Ho Hv. apply (eval_total (Eof hs ρ)); [apply Ho|by apply Eof_vok]. Qed.
Lemma okh_cof_eval {T} hs (d : dd T) ρ l : okh hs d → vokh hs ρ → eval ρ (cof d l (ρ l)) = eval ρ d.
Proof. intros Ho Hv. apply (eval_cof (Eof hs ρ)); [apply Ho|by apply Eof_vok]. Qed.
Lemma okh_upd {T} hs (d : dd T) ρ l v : okh hs d → rank d ≤ l → eval (upd ρ l v) d = eval ρ d.
Proof. intros Ho. apply (eval_upd (Eof hs ρ)). apply Ho. Qed.
Lemma okh_cof_upd {T} hs (d : dd T) ρ hd i : hcons hs → okh hs d → hd ∈ hs → i < h_edges hd →
  rank d ≤ S (h_level hd) → vokh hs ρ →
  eval (upd ρ (h_level hd) i) d = eval ρ (cof d (h_level hd) i).
Proof.
  intros Hc Ho Hin Hi Hr Hv.
  rewrite <- (okh_cof_eval hs d (upd ρ (h_level hd) i) (h_level hd)); [|done|by apply vokh_upd].
  rewrite upd_same. specialize (Ho ρ).
  assert (i < Eof hs ρ (h_level hd)) by by rewrite <- Eof_edges.
  eapply (eval_upd (Eof hs ρ)); [by apply cof_ok|by eapply cof_rank].
Qed.

(** ** Pointwise relations *)
Section rel.
Context {T1 T2 T3 T : Type}.
Definition P1 (hs : list header) (Rel : T1 → T → Prop) (d1 : dd T1) (dr : dd T) : Prop :=
  ∀ ρ, vokh hs ρ → ∃ a r, eval ρ d1 = Some a ∧ eval ρ dr = Some r ∧ Rel a r.
Definition P2 (hs : list header) (Rel : T1 → T2 → T → Prop) (d1 : dd T1) (d2 : dd T2) (dr : dd T) : Prop :=
  ∀ ρ, vokh hs ρ → ∃ a b r, eval ρ d1 = Some a ∧ eval ρ d2 = Some b ∧ eval ρ dr = Some r ∧ Rel a b r.
Definition P3 (hs : list header) (Rel : T1 → T2 → T3 → T → Prop)
  (d1 : dd T1) (d2 : dd T2) (d3 : dd T3) (dr : dd T) : Prop :=
  ∀ ρ, vokh hs ρ → ∃ a b c r, eval ρ d1 = Some a ∧ eval ρ d2 = Some b ∧ eval ρ d3 = Some c ∧
    eval ρ dr = Some r ∧ Rel a b c r.
Lemma P1_mono hs hs' Rel d1 dr : hs `prefix_of` hs' → P1 hs Rel d1 dr → P1 hs' Rel d1 dr.
Proof. intros Hp H ρ Hv. apply H. by eapply vokh_mono. Qed.
Lemma P2_mono hs hs' Rel d1 d2 dr : hs `prefix_of` hs' → P2 hs Rel d1 d2 dr → P2 hs' Rel d1 d2 dr.
Proof. intros Hp H ρ Hv. apply H. by eapply vokh_mono. Qed.
Lemma P3_mono hs hs' Rel d1 d2 d3 dr : hs `prefix_of` hs' → P3 hs Rel d1 d2 d3 dr → P3 hs' Rel d1 d2 d3 dr.
Proof. intros Hp H ρ Hv. apply H. by eapply vokh_mono. Qed.
End rel.

(** ** n-ary nodes under the "all children equal" rule *)
Definition Rn (cs : list nat) : Prop := ¬ ∃ c, Forall (eq c) cs.

Definition mkrel {T} (hd : header) (ds : list (dd T)) (dr : dd T) : Prop :=
  (Forall (eq dr) ds ∧ ds ≠ []) ∨ ((¬ ∃ c, Forall (eq c) ds) ∧ dr = Br hd ds).

Lemma mkrel_rank {T} hd (ds : list (dd T)) dr : mkrel hd ds dr → Forall (λ d, rank d ≤ h_level hd) ds →
  rank dr ≤ S (h_level hd).
Proof.
  intros [[Hf Hne]|[_ ->]] Hr; [|done]. destruct ds as [|d ds]; [done|].
  rewrite !Forall_cons in *. destruct Hf as [-> _], Hr as [Hr _]. lia.
Qed.
Lemma mkrel_eval {T} hd (ds : list (dd T)) dr ρ d : mkrel hd ds dr →
  ds !! ρ (h_level hd) = Some d → eval ρ dr = eval ρ d.
Proof.
  intros [[Hf Hne]|[_ ->]] Hd.
  - rewrite Forall_lookup in Hf. by rewrite (Hf _ _ Hd).
  - by rewrite eval_br, Hd.
Qed.

Lemma all_same_Some cs x : all_same cs = Some x → Forall (eq x) cs ∧ cs ≠ [].
Proof.
  destruct cs as [|y cs]; [done|]. unfold all_same.
  destruct (forallb _ _) eqn:Hb; [|done]. intros [= ->]. split; [|done].
  apply Forall_forall. intros z Hz. rewrite forallb_forall in Hb.
  specialize (Hb z). rewrite <- elem_of_list_In in Hb. specialize (Hb Hz). by apply Nat.eqb_eq in Hb.
Qed.
Lemma all_same_None cs : cs ≠ [] → all_same cs = None → Rn cs.
Proof.
  destruct cs as [|y cs]; [done|]. intros _. unfold all_same.
  destruct (forallb _ _) eqn:Hb; [done|]. intros _ [c Hc].
  assert (forallb (Nat.eqb y) (y :: cs) = true); [|congruence].
  apply forallb_forall. intros z Hz. apply elem_of_list_In in Hz. rewrite Forall_forall in Hc.
  rewrite <- (Hc z Hz). rewrite <- (Hc y) by left. apply Nat.eqb_refl.
Qed.

Lemma Forall2_repr_mono {T} (a a' : arena T) ds cs : ext a a' → Forall2 (repr a) ds cs → Forall2 (repr a') ds cs.
Proof. intros He H. eapply Forall2_impl; [exact H|]. intros d c. by apply repr_mono. Qed.

(** the part of create_node common to MDD and MTMDD *)
Lemma mknode_spec {T} (a : arena T) h hd cs ds : awf Rn a → hcons (ar_headers a) →
  ar_headers a !! h = Some hd → length cs = h_edges hd →
  Forall2 (repr a) ds cs → Forall (λ d, rank d ≤ h_level hd) ds →
  ∃ dr, mkrel hd ds dr ∧
    match all_same cs with
    | Some x => repr a dr x
    | None => ∃ a' id, ar_hashcons a h cs = (a', id) ∧ awf Rn a' ∧ ext a a' ∧
        ar_headers a' = ar_headers a ∧ repr a' dr id ∧ (∀ i, live a' i ↔ live a i ∨ i = id) ∧
        ar_nodes a' !! id = Some (NT h cs)
    end.
Proof.
  intros Hwf Hc Hh Hlen Hf Hr.
  assert (Hne : cs ≠ []).
  { intros ->. destruct Hc as [Hp _]. specialize (Hp hd (elem_of_list_lookup_2 _ _ _ Hh)). cbn in Hlen. lia. }
  destruct (all_same cs) as [x|] eqn:Hs.
  - apply all_same_Some in Hs as [Hx _]. destruct cs as [|c cs]; [done|].
    inversion Hf as [|d ? ds' ? Hd Hf']; subst. exists d. split.
    + left. split; [|done]. constructor; [done|]. rewrite Forall_cons in Hx. destruct Hx as [-> Hx].
      clear -Hf' Hx Hd. induction Hf' as [|d' c' ds' cs' Hd' _ IH]; constructor.
      * rewrite Forall_cons in Hx. destruct Hx as [-> _]. by eapply repr_fun.
      * apply IH. by apply Forall_cons in Hx as [_ Hx].
    + rewrite Forall_cons in Hx. by destruct Hx as [-> _].
  - apply all_same_None in Hs as HR; [|done].
    destruct (hashcons_spec Rn a h hd cs) as (a' & id & Heq & Hwf' & Hext & Hhd & Hl & Hn & Hlv); try done.
    { apply Forall_lookup. intros i c Hi. destruct (Forall2_lookup_r _ _ _ _ _ Hf Hi) as (d & Hd & Hrc).
      split; [by eapply repr_live|]. eapply repr_rank_below; [done|]. rewrite Forall_lookup in Hr. by eapply Hr. }
    exists (Br hd ds). split.
    + right. split; [|done]. intros [c Hcc]. apply HR.
      assert (Hne' : ds ≠ []) by (intros ->; by inversion Hf; subst).
      clear Hhd Hl Hn Hlv HR Hne Hlen Hr Hext Hwf' Heq.
      destruct cs as [|x cs]; [inversion Hf; by subst|]. exists x.
      inversion Hf as [|d ? ds' ? Hd Hf']; subst. rewrite Forall_cons in Hcc. destruct Hcc as [-> Hcc].
      constructor; [done|].
      clear -Hf' Hcc Hd Hwf. induction Hf' as [|d' c' ds' cs' Hd' _ IH]; constructor.
      * rewrite Forall_cons in Hcc. destruct Hcc as [-> _]. by eapply repr_inj.
      * apply IH. by apply Forall_cons in Hcc as [_ Hcc].
    + exists a', id. sp; try done. apply repr_br. split; [done|]. exists h, cs. split; [done|].
      split; [by rewrite Hhd|]. by eapply Forall2_repr_mono.
Qed.

(** ** Memo tables *)
Definition cache_ok (c : ccache) (Ent : N * N * N → N → Prop) : Prop :=
  cwf c ∧ ∀ k v, cfind c k = Some v → Ent k v.

Lemma cache_ok_new Ent : cache_ok cc_new Ent.
Proof. split; [apply cc_new_wf|]. intros k v. by rewrite cc_new_find. Qed.
Lemma cache_ok_mono c (Ent Ent' : N * N * N → N → Prop) :
  (∀ k v, Ent k v → Ent' k v) → cache_ok c Ent → cache_ok c Ent'.
Proof. intros HI [Hw Hc]. split; [done|]. intros k v Hk. by apply HI, Hc. Qed.
Lemma cache_ok_get c Ent k0 k1 k2 : cache_ok c Ent →
  ∃ r, cc_get c k0 k1 k2 = Some r ∧ ∀ v, r = Some v → Ent (k0, k1, k2) v.
Proof.
  intros [Hw Hc]. pose proof (cc_get_total c (k0, k1, k2) (cwf_shape _ Hw)) as H. cbn in H.
  exists (cfind c (k0, k1, k2)). split; [done|]. intros v Hv. by apply Hc.
Qed.
Lemma cache_ok_put c (Ent : N * N * N → N → Prop) k0 k1 k2 v : cache_ok c Ent → Ent (k0, k1, k2) v →
  ∃ c', cc_put c k0 k1 k2 v = Some c' ∧ cache_ok c' Ent.
Proof.
  intros [Hw Hc] He. destruct (put_spec c (k0, k1, k2) v Hw) as (c' & Heq & Hw' & _ & Hf).
  exists c'. split; [done|]. split; [done|]. intros k w Hk.
  destruct (Hf k w Hk) as [[-> ->]|[_ Hk']]; [done|]. by apply Hc.
Qed.
Lemma cache_ok_clear c Ent : cwf c → cache_ok (cc_clear c) Ent.
Proof.
  intros Hw. destruct (clear_spec c Hw) as [Hw' Hn]. split; [done|]. intros k v. by rewrite Hn.
Qed.
Lemma cache_ok_retain c (Ent Ent' : N * N * N → N → Prop) live : cache_ok c Ent →
  (∀ k v, Ent k v → Forall (λ i, N.to_nat i < length live) (words2 k v)) →
  (∀ k v, Ent k v → Forall (alive live) (words2 k v) → Ent' k v) →
  ∃ c', cc_retain_live c live = Some c' ∧ cache_ok c' Ent'.
Proof.
  intros [Hw Hc] Hb HI. destruct (retain_live_spec live c Hw) as (c' & Heq & Hw' & Hf).
  { intros k v Hk. by apply Hb, Hc. }
  exists c'. split; [done|]. split; [done|]. intros k v [Hk Hl]%Hf. apply HI; [by apply Hc|done].
Qed.
Lemma cache_ok_retain3 c (Ent Ent' : N * N * N → N → Prop) live : cache_ok c Ent →
  (∀ k v, Ent k v → Forall (λ i, N.to_nat i < length live) (words3 k v)) →
  (∀ k v, Ent k v → Forall (alive live) (words3 k v) → Ent' k v) →
  ∃ c', cc_retain_live3 c live = Some c' ∧ cache_ok c' Ent'.
Proof.
  intros [Hw Hc] Hb HI. destruct (retain_live3_spec live c Hw) as (c' & Heq & Hw' & Hf).
  { intros k v Hk. by apply Hb, Hc. }
  exists c'. split; [done|]. split; [done|]. intros k v [Hk Hl]%Hf. apply HI; [by apply Hc|done].
Qed.

(** ** State-passing maps *)
Lemma mapst_spec {S A B} (st : S → S → Prop) (Q : S → A → B → Prop) (Bad : A → Prop)
    (F : S → A → option (S * B)) l s :
  (∀ x y z, st x y → st y z → st x z) → (∀ x y, st x y → st y y) → st s s →
  (∀ x y a b, st s x → st x y → Q x a b → Q y a b) →
  (∀ s' a, a ∈ l → st s s' →
     match F s' a with Some (s'', b) => st s' s'' ∧ Q s'' a b | None => Bad a end) →
  match mapst F s l with
  | Some (s', bs) => st s s' ∧ Forall2 (Q s') l bs
  | None => ∃ a, a ∈ l ∧ Bad a
  end.
Proof.
  intros Htr Hrr Hrf Hm HF.
  assert (Hgen : ∀ s0, st s s0 → match mapst F s0 l with
    | Some (s', bs) => st s0 s' ∧ Forall2 (Q s') l bs | None => ∃ a, a ∈ l ∧ Bad a end); [|by apply Hgen].
  clear Hrf. induction l as [|a l IH]; intros s0 H0; cbn [mapst].
  { split; [by eapply Hrr|constructor]. }
  pose proof (HF s0 a) as HFa. destruct (F s0 a) as [[s1 b]|].
  - destruct HFa as [H1 Hq]; [left|done|]. cbn [mbind option_bind].
    assert (Hs1 : st s s1) by by eapply Htr.
    specialize (IH (λ s' a Ha, HF s' a (elem_of_list_further _ _ _ Ha)) s1 Hs1).
    destruct (mapst F s1 l) as [[s2 bs]|]; cbn [mbind option_bind].
    + destruct IH as [H2 Hf]. split; [by eapply Htr|]. constructor; [|done]. by eapply (Hm s1).
    + destruct IH as (a' & Hin & Hb). exists a'. split; [by right|done].
  - exists a. split; [left|]. apply HFa; [left|done].
Qed.

(** ** Expansion of two operands at the top level *)
Lemma Forall2_map_l {A B C} (R : A → C → Prop) (f : B → A) l k :
  Forall2 (λ x y, R (f x) y) l k → Forall2 R (map f l) k.
Proof. induction 1; cbn; constructor; auto. Qed.

Definition dlevel {T} (d : dd T) : option nat := match d with Leaf _ => None | Br hd _ => Some (h_level hd) end.

Lemma repr_kid {T} R (a : arena T) hd ds id h cs i c : awf R a → repr a (Br hd ds) id →
  ar_nodes a !! id = Some (NT h cs) → cs !! i = Some c →
  repr a (cof (Br hd ds) (h_level hd) i) c ∧ rank (cof (Br hd ds) (h_level hd) i) ≤ h_level hd.
Proof.
  intros Hwf Hr Hn Hc. pose proof (repr_live _ _ _ Hr) as Hl.
  apply repr_br in Hr as [_ (h' & cs' & Hn' & Hh & Hf)]. rewrite Hn in Hn'. injection Hn' as <- <-.
  destruct (Forall2_lookup_r _ _ _ _ _ Hf Hc) as (d & Hd & Hrc). cbn [cof]. rewrite decide_True, Hd by done. cbn.
  split; [done|]. destruct (aw_nt _ _ Hwf _ _ _ Hl Hn) as (hd' & Hh' & _ & _ & Hcs).
  rewrite Hh in Hh'. injection Hh' as <-. rewrite Forall_lookup in Hcs. destruct (Hcs _ _ Hc) as [_ Hb].
  by eapply repr_rank_below.
Qed.

Lemma expand_spec {T1 T2} R1 R2 left (a1 : arena T1) (a2 : arena T2) f g df dg fn gn :
  awf R1 a1 → awf R2 a2 → ar_headers a1 = ar_headers a2 → hcons (ar_headers a1) →
  repr a1 df f → repr a2 dg g → ar_nodes a1 !! f = Some fn → ar_nodes a2 !! g = Some gn →
  0 < rank df `max` rank dg →
  ∃ h hd ps, expand left a1 a2 f g fn gn = Some (h, ps) ∧ ar_headers a1 !! h = Some hd ∧
    rank df `max` rank dg = S (h_level hd) ∧ length ps = h_edges hd ∧
    ∀ i p, ps !! i = Some p →
      repr a1 (cof df (h_level hd) i) p.1 ∧ rank (cof df (h_level hd) i) ≤ h_level hd ∧
      repr a2 (cof dg (h_level hd) i) p.2 ∧ rank (cof dg (h_level hd) i) ≤ h_level hd.
Proof.
  intros Hw1 Hw2 Hhs Hhc Hf Hg Hfn Hgn Hpos.
  assert (Hlen1 : ∀ hd ds h cs, df = Br hd ds → fn = NT h cs →
    ar_headers a1 !! h = Some hd ∧ length cs = h_edges hd).
  { intros hd ds h cs -> ->. destruct (aw_nt _ _ Hw1 _ _ _ (repr_live _ _ _ Hf) Hfn) as (hd' & Hh' & Hl & _).
    apply repr_br in Hf as [_ (h' & cs' & Hn' & Hh & _)]. rewrite Hfn in Hn'. injection Hn' as <- <-. by simplify_eq. }
  assert (Hlen2 : ∀ hd ds h cs, dg = Br hd ds → gn = NT h cs →
    ar_headers a2 !! h = Some hd ∧ length cs = h_edges hd).
  { intros hd ds h cs -> ->. destruct (aw_nt _ _ Hw2 _ _ _ (repr_live _ _ _ Hg) Hgn) as (hd' & Hh' & Hl & _).
    apply repr_br in Hg as [_ (h' & cs' & Hn' & Hh & _)]. rewrite Hgn in Hn'. injection Hn' as <- <-. by simplify_eq. }
  assert (HL : ∀ hd ds h cs, df = Br hd ds → fn = NT h cs → rank dg ≤ h_level hd →
    ∀ i p, map (λ c, (c, g)) cs !! i = Some p →
      repr a1 (cof df (h_level hd) i) p.1 ∧ rank (cof df (h_level hd) i) ≤ h_level hd ∧
      repr a2 (cof dg (h_level hd) i) p.2 ∧ rank (cof dg (h_level hd) i) ≤ h_level hd).
  { intros hd ds h cs -> -> Hle i p Hp. apply list_lookup_fmap_Some in Hp as (c & Hc & ->). cbn [fst snd].
    rewrite (cof_low dg) by done. destruct (repr_kid _ _ _ _ _ _ _ _ _ Hw1 Hf Hfn Hc). done. }
  assert (HR : ∀ hd ds h cs, dg = Br hd ds → gn = NT h cs → rank df ≤ h_level hd →
    ∀ i p, map (λ c, (f, c)) cs !! i = Some p →
      repr a1 (cof df (h_level hd) i) p.1 ∧ rank (cof df (h_level hd) i) ≤ h_level hd ∧
      repr a2 (cof dg (h_level hd) i) p.2 ∧ rank (cof dg (h_level hd) i) ≤ h_level hd).
  { intros hd ds h cs -> -> Hle i p Hp. apply list_lookup_fmap_Some in Hp as (c & Hc & ->). cbn [fst snd].
    rewrite (cof_low df) by done. destruct (repr_kid _ _ _ _ _ _ _ _ _ Hw2 Hg Hgn Hc). done. }
  assert (Hkf : match df with Leaf t => fn = Term t | Br _ _ => ∃ h cs, fn = NT h cs end).
  { destruct df as [t|hd ds]; [apply repr_leaf in Hf as [_ Hf]; congruence|].
    apply repr_br in Hf as [_ (h & cs & Hn & _)]. rewrite Hfn in Hn. injection Hn as ->. eauto. }
  assert (Hkg : match dg with Leaf t => gn = Term t | Br _ _ => ∃ h cs, gn = NT h cs end).
  { destruct dg as [t|hd ds]; [apply repr_leaf in Hg as [_ Hg]; congruence|].
    apply repr_br in Hg as [_ (h & cs & Hn & _)]. rewrite Hgn in Hn. injection Hn as ->. eauto. }
  destruct df as [tf|hdf dsf], dg as [tg|hdg dsg].
  - cbn in Hpos. lia.
  - subst fn. destruct Hkg as (hg & gc & ->). cbn [expand].
    destruct (Hlen2 _ _ _ _ eq_refl eq_refl) as [Hh Hlen].
    exists hg, hdg, (map (λ c, (f, c)) gc). split; [done|]. split; [by rewrite Hhs|]. split; [done|].
    split; [by rewrite map_length|]. eapply HR; [done|done|]. cbn. lia.
  - subst gn. destruct Hkf as (hf & fc & ->). cbn [expand].
    destruct (Hlen1 _ _ _ _ eq_refl eq_refl) as [Hh Hlen].
    exists hf, hdf, (map (λ c, (c, g)) fc). split; [done|]. split; [done|]. split; [done|].
    split; [by rewrite map_length|]. eapply HL; [done|done|]. cbn. lia.
  - destruct Hkf as (hf & fc & ->), Hkg as (hg & gc & ->). cbn [expand].
    destruct (Hlen1 _ _ _ _ eq_refl eq_refl) as [Hhf Hlf].
    destruct (Hlen2 _ _ _ _ eq_refl eq_refl) as [Hhg Hlg].
    rewrite (a_hdr_level _ _ _ Hhf), (a_hdr_level _ _ _ Hhg). cbn [mbind option_bind].
    destruct (Nat.ltb_spec (h_level hdg) (h_level hdf)) as [Hlt|Hge].
    { exists hf, hdf, (map (λ c, (c, g)) fc). split; [done|]. split; [done|]. split; [cbn [rank]; lia|].
      split; [by rewrite map_length|]. eapply HL; [done|done|]. cbn [rank]. lia. }
    destruct (Nat.ltb_spec (h_level hdf) (h_level hdg)) as [Hlt|Hge2].
    { exists hg, hdg, (map (λ c, (f, c)) gc). split; [done|]. split; [by rewrite Hhs|]. split; [cbn [rank]; lia|].
      split; [by rewrite map_length|]. eapply HR; [done|done|]. cbn [rank]. lia. }
    assert (Hl : h_level hdf = h_level hdg) by lia.
    assert (He : h_edges hdf = h_edges hdg).
    { destruct Hhc as [_ Hhc]. apply Hhc; [by eapply elem_of_list_lookup_2| |done].
      rewrite Hhs. by eapply elem_of_list_lookup_2. }
    exists (if left then hf else hg), (if left then hdf else hdg), (zip fc gc).
    assert (Hll : h_level (if left then hdf else hdg) = h_level hdf) by (destruct left; done).
    split; [by destruct left|]. split; [destruct left; [done|by rewrite Hhs]|].
    split; [cbn [rank]; rewrite Hll; lia|].
    split; [rewrite zip_with_length, Hlf, Hlg; destruct left; lia|].
    rewrite Hll. intros i [c1 c2] Hp. apply lookup_zip_with_Some in Hp as (x & y & [= -> ->] & Hx & Hy). cbn [fst snd].
    destruct (repr_kid _ _ _ _ _ _ _ _ _ Hw1 Hf Hfn Hx).
    destruct (repr_kid _ _ _ _ _ _ _ _ _ Hw2 Hg Hgn Hy) as [Hr2 Hk2]. rewrite <- Hl in Hr2, Hk2. done.
Qed.

(** ** Shannon expansion *)
Lemma shannon2 {T1 T2 T} hs (Rel : T1 → T2 → T → Prop) hd df dg ds dr :
  hcons hs → hd ∈ hs → okh hs df → okh hs dg → length ds = h_edges hd →
  (∀ i d, ds !! i = Some d → P2 hs Rel (cof df (h_level hd) i) (cof dg (h_level hd) i) d) →
  mkrel hd ds dr → P2 hs Rel df dg dr.
Proof.
  intros Hc Hin Hof Hog Hlen HP Hmk ρ Hv.
  destruct (lookup_lt_is_Some_2 ds (ρ (h_level hd))) as [d Hd].
  { rewrite Hlen. by apply Hv. }
  destruct (HP _ _ Hd ρ Hv) as (x & y & r & Hx & Hy & Hr & HRel).
  rewrite (okh_cof_eval hs df) in Hx by done. rewrite (okh_cof_eval hs dg) in Hy by done.
  exists x, y, r. rewrite (mkrel_eval hd ds dr ρ d) by done. done.
Qed.
Lemma shannon1 {T1 T} hs (Rel : T1 → T → Prop) hd df ds dr :
  hcons hs → hd ∈ hs → okh hs df → length ds = h_edges hd →
  (∀ i d, ds !! i = Some d → P1 hs Rel (cof df (h_level hd) i) d) →
  mkrel hd ds dr → P1 hs Rel df dr.
Proof.
  intros Hc Hin Hof Hlen HP Hmk ρ Hv.
  destruct (lookup_lt_is_Some_2 ds (ρ (h_level hd))) as [d Hd].
  { rewrite Hlen. by apply Hv. }
  destruct (HP _ _ Hd ρ Hv) as (x & r & Hx & Hr & HRel).
  rewrite (okh_cof_eval hs df) in Hx by done.
  exists x, r. rewrite (mkrel_eval hd ds dr ρ d) by done. done.
Qed.
Lemma shannon3 {T1 T2 T3 T} hs (Rel : T1 → T2 → T3 → T → Prop) hd df dg dh ds dr :
  hcons hs → hd ∈ hs → okh hs df → okh hs dg → okh hs dh → length ds = h_edges hd →
  (∀ i d, ds !! i = Some d →
     P3 hs Rel (cof df (h_level hd) i) (cof dg (h_level hd) i) (cof dh (h_level hd) i) d) →
  mkrel hd ds dr → P3 hs Rel df dg dh dr.
Proof.
  intros Hc Hin Hof Hog Hoh Hlen HP Hmk ρ Hv.
  destruct (lookup_lt_is_Some_2 ds (ρ (h_level hd))) as [d Hd].
  { rewrite Hlen. by apply Hv. }
  destruct (HP _ _ Hd ρ Hv) as (x & y & z & r & Hx & Hy & Hz & Hr & HRel).
  rewrite (okh_cof_eval hs df) in Hx by done. rewrite (okh_cof_eval hs dg) in Hy by done.
  rewrite (okh_cof_eval hs dh) in Hz by done.
  exists x, y, z, r. rewrite (mkrel_eval hd ds dr ρ d) by done. done.
Qed.

Lemma P2_intro {T1 T2 T} hs (Rel : T1 → T2 → T → Prop) df dg dr : okh hs df → okh hs dg → okh hs dr →
  (∀ ρ a b r, vokh hs ρ → eval ρ df = Some a → eval ρ dg = Some b → eval ρ dr = Some r → Rel a b r) →
  P2 hs Rel df dg dr.
Proof.
  intros Hf Hg Hr H ρ Hv. destruct (okh_total _ _ _ Hf Hv) as [a Ha]. destruct (okh_total _ _ _ Hg Hv) as [b Hb].
  destruct (okh_total _ _ _ Hr Hv) as [r Hr']. exists a, b, r. eauto 10.
Qed.
Lemma P3_intro {T1 T2 T3 T} hs (Rel : T1 → T2 → T3 → T → Prop) df dg dh dr :
  okh hs df → okh hs dg → okh hs dh → okh hs dr →
  (∀ ρ a b c r, vokh hs ρ → eval ρ df = Some a → eval ρ dg = Some b → eval ρ dh = Some c →
     eval ρ dr = Some r → Rel a b c r) →
  P3 hs Rel df dg dh dr.
Proof.
  intros Hf Hg Hh Hr H ρ Hv. destruct (okh_total _ _ _ Hf Hv) as [a Ha]. destruct (okh_total _ _ _ Hg Hv) as [b Hb].
  destruct (okh_total _ _ _ Hh Hv) as [c Hc].
  destruct (okh_total _ _ _ Hr Hv) as [r Hr']. exists a, b, c, r. eauto 10.
Qed.
Lemma P2_impl {T1 T2 T} hs (Rel Rel' : T1 → T2 → T → Prop) df dg dr :
  (∀ a b r, Rel a b r → Rel' a b r) → P2 hs Rel df dg dr → P2 hs Rel' df dg dr.
Proof. intros HI H ρ Hv. destruct (H ρ Hv) as (a & b & r & ? & ? & ? & ?). exists a, b, r. auto. Qed.
Lemma okh_leaf {T} hs (t : T) : okh hs (Leaf t).
Proof. done. Qed.

(** ** Expansion of three operands (ite) *)
Section ite.
Context {T : Type}.
Implicit Types (a : arena T) (d : dd T).

Lemma cofactor_spec R a d id top thd : awf R a → hcons (ar_headers a) → repr a d id →
  thd ∈ ar_headers a → h_level thd = top → rank d ≤ S top →
  ∃ cs, ite_cofactor a id top (h_edges thd) = Some cs ∧ length cs = h_edges thd ∧
    ∀ i c, cs !! i = Some c → repr a (cof d top i) c ∧ rank (cof d top i) ≤ top.
Proof.
  intros Hwf Hc Hr Hin Htop Hk. unfold ite_cofactor. rewrite (a_node_level _ _ _ Hr). cbn [mbind option_bind].
  assert (Hlow : rank d ≤ top → ∀ i c, replicate (h_edges thd) id !! i = Some c →
    repr a (cof d top i) c ∧ rank (cof d top i) ≤ top).
  { intros Hle i c [-> _]%lookup_replicate. by rewrite cof_low. }
  destruct d as [t|hd ds].
  { rewrite decide_False by done. eexists. split; [done|]. split; [by rewrite replicate_length|].
    apply Hlow. cbn. lia. }
  cbn [rank] in Hk. destruct (decide (Some (h_level hd) = Some top)) as [[= Heq]|Hne].
  - pose proof Hr as [Hl (h & cs & Hn & Hh & Hf)]%repr_br. rewrite Hn. cbn [mbind option_bind].
    exists cs. split; [done|]. split.
    + destruct (aw_nt _ _ Hwf _ _ _ Hl Hn) as (hd' & Hh' & -> & _). simplify_eq.
      destruct Hc as [_ Hc]. apply Hc; [by eapply elem_of_list_lookup_2|done|congruence].
    + intros i c Hi. rewrite <- Heq. by eapply repr_kid.
  - eexists. split; [done|]. split; [by rewrite replicate_length|]. apply Hlow. cbn [rank].
    assert (h_level hd ≠ top) by congruence. lia.
Qed.

Lemma top_step_spec a d x top : repr a d x → ite_top_step a top x = Some (top `max` Nat.pred (rank d)).
Proof.
  intros Hr. unfold ite_top_step. rewrite (a_node_level _ _ _ Hr). cbn [mbind option_bind].
  destruct d as [t|hd ds]; cbn [rank Nat.pred]; f_equal; [lia|].
  destruct (Nat.ltb_spec top (h_level hd)); lia.
Qed.

Lemma top_header_spec R a xs ds top : awf R a → Forall2 (repr a) ds xs → (∃ d, d ∈ ds ∧ rank d = S top) →
  ∃ h hd, ite_top_header a xs top = Some (h, h_edges hd) ∧ ar_headers a !! h = Some hd ∧ h_level hd = top.
Proof.
  intros Hwf. induction 1 as [|d x ds xs Hr Hf IH]; intros (d' & Hin & Hk).
  { by apply elem_of_nil in Hin. }
  cbn [ite_top_header]. rewrite (a_node_level _ _ _ Hr). cbn [mbind option_bind].
  destruct d as [t|hd cs].
  - rewrite decide_False by done. apply IH. apply elem_of_cons in Hin as [->|Hin]; [done|]. by exists d'.
  - apply repr_br in Hr as [Hl (h & ids & Hn & Hh & _)].
    destruct (decide (h_level hd = top)) as [<-|Hne].
    + rewrite decide_True by done. rewrite Hn. cbn. exists h, hd. split; [|done].
      destruct (aw_nt _ _ Hwf _ _ _ Hl Hn) as (hd' & Hh' & -> & _). simplify_eq. done.
    + rewrite decide_False by congruence. apply IH. apply elem_of_cons in Hin as [->|Hin].
      * cbn in Hk. lia.
      * by exists d'.
Qed.
End ite.

Lemma triples_spec k fc gc hc : length fc = k → length gc = k → length hc = k →
  ∃ ts, ite_triples k fc gc hc = Some ts ∧ length ts = k ∧
    ∀ i t, ts !! i = Some t → fc !! i = Some t.1.1 ∧ gc !! i = Some t.1.2 ∧ hc !! i = Some t.2.
Proof.
  intros Lf Lg Lh. unfold ite_triples.
  destruct (mapM _ (seq 0 k)) as [ts|] eqn:Hm.
  - exists ts. split; [done|]. apply mapM_Some in Hm. split.
    { rewrite <- (Forall2_length _ _ _ Hm). by rewrite seq_length. }
    intros i t Hi. destruct (Forall2_lookup_r _ _ _ _ _ Hm Hi) as (j & Hj & Ht).
    apply lookup_seq in Hj as [-> _]. cbn in Ht.
    destruct (fc !! i) as [x|], (gc !! i) as [y|], (hc !! i) as [z|]; try done. cbn in Ht. by injection Ht as <-.
  - apply mapM_None_1, Exists_exists in Hm as (i & Hi & Hn). apply elem_of_seq in Hi.
    destruct (lookup_lt_is_Some_2 fc i) as [x Hx]; [lia|].
    destruct (lookup_lt_is_Some_2 gc i) as [y Hy]; [lia|].
    destruct (lookup_lt_is_Some_2 hc i) as [z Hz]; [lia|].
    by rewrite Hx, Hy, Hz in Hn.
Qed.

(** turn "every pair has a result" into a list of result trees *)
Lemma Forall2_trees {A B} {T} (ps : list A) (ns : list B) (Q : nat → A → B → dd T → Prop) :
  length ps = length ns →
  (∀ i p r, ps !! i = Some p → ns !! i = Some r → ∃ d, Q i p r d) →
  ∃ ds, length ds = length ns ∧ ∀ i p r d, ps !! i = Some p → ns !! i = Some r → ds !! i = Some d → Q i p r d.
Proof.
  revert ns Q. induction ps as [|p ps IH]; intros [|r ns] Q Hl H; try done.
  - exists []. done.
  - destruct (H 0 p r) as [d Hd]; [done|done|].
    destruct (IH ns (λ i, Q (S i))) as (ds & Hlen & Hds).
    { by injection Hl. }
    { intros i q s Hq Hs. by apply (H (S i)). }
    exists (d :: ds). split; [cbn; lia|]. intros [|i] q s e; cbn; [by intros [= <-] [= <-] [= <-]|apply Hds].
Qed.

Lemma trees_of {T} (a : arena T) (l : nat) (ns : list nat) (PP : nat → dd T → Prop) :
  (∀ i r, ns !! i = Some r → ∃ d, repr a d r ∧ rank d ≤ l ∧ PP i d) →
  ∃ ds, Forall2 (repr a) ds ns ∧ Forall (λ d, rank d ≤ l) ds ∧ length ds = length ns ∧
    ∀ i d, ds !! i = Some d → PP i d.
Proof.
  revert PP. induction ns as [|r ns IH]; intros PP H.
  - exists []. done.
  - destruct (H 0 r) as (d & Hr & Hk & Hp); [done|].
    destruct (IH (λ i, PP (S i))) as (ds & Hf & Hfk & Hl & Hds).
    { intros i r' Hi. by apply (H (S i)). }
    exists (d :: ds). sp.
    + by constructor.
    + by constructor.
    + cbn. lia.
    + intros [|i] e; cbn; [by intros [= <-]|apply Hds].
Qed.

Lemma ext_hdr {T} (a a' : arena T) : ext a a' → ar_headers a `prefix_of` ar_headers a'.
Proof. by intros [? _]. Qed.

(** mapping an operation over the operand list of a node *)
Lemma mapst_idx {S A T} (st : S → S → Prop) (ar : S → arena T) (Bad : nat → A → Prop)
    (F : S → A → option (S * nat)) l s (lv : nat) (PP : nat → dd T → Prop) :
  (∀ x y z, st x y → st y z → st x z) → (∀ x y, st x y → st y y) → st s s →
  (∀ x y, st x y → ext (ar x) (ar y)) →
  (∀ i p s', l !! i = Some p → st s s' →
     match F s' p with
     | Some (s'', r) => st s' s'' ∧ ∃ dr, repr (ar s'') dr r ∧ rank dr ≤ lv ∧ PP i dr
     | None => Bad i p
     end) →
  match mapst F s l with
  | Some (s', ns) => st s s' ∧ length ns = length l ∧
      ∀ i r, ns !! i = Some r → ∃ d, repr (ar s') d r ∧ rank d ≤ lv ∧ PP i d
  | None => ∃ i p, l !! i = Some p ∧ Bad i p
  end.
Proof.
  intros Htr Hrr Hrf Hext HF.
  pose proof (mapst_spec st
    (λ s (q : nat * A) r, ∃ dr, repr (ar s) dr r ∧ rank dr ≤ lv ∧ PP q.1 dr)
    (λ q, Bad q.1 q.2) (λ s q, F s q.2) (imap pair l) s) as Hm.
  assert (Hmap : mapst (λ s (q : nat * A), F s q.2) s (imap pair l) = mapst F s l).
  { assert (Hg : ∀ (f : nat → nat) ps s, mapst (λ s (q : nat * A), F s q.2) s (imap (λ i p, (f i, p)) ps) = mapst F s ps).
    { intros f qs. revert f. induction qs as [|q qs IH]; intros f s0; [done|]. cbn [imap mapst].
      cbn [snd]. destruct (F s0 q) as [[s' b]|]; [|done]. cbn [mbind option_bind].
      unfold compose. by rewrite (IH (λ i, f (Datatypes.S i))). }
    apply (Hg (λ i, i)). }
  rewrite Hmap in Hm. clear Hmap.
  assert (Hprem : match mapst F s l with
    | Some (s', bs) => st s s' ∧ Forall2 (λ q r, ∃ dr, repr (ar s') dr r ∧ rank dr ≤ lv ∧ PP q.1 dr) (imap pair l) bs
    | None => ∃ a, a ∈ imap pair l ∧ Bad a.1 a.2 end).
  { apply Hm; try done.
    - intros x y q r _ Hst (dr & Hr & Hk & Hp). exists dr. sp; try done. eapply repr_mono; [by apply Hext|done].
    - intros s0 [i p] Hin Hst. cbn [fst snd]. apply elem_of_lookup_imap in Hin as (j & p' & [= -> ->] & Hj).
      by apply HF. }
  clear Hm. destruct (mapst F s l) as [[s' ns]|].
  - destruct Hprem as [Hst Hf]. split; [done|]. split.
    { by rewrite <- (Forall2_length _ _ _ Hf), imap_length. }
    intros i r Hi. destruct (Forall2_lookup_r _ _ _ _ _ Hf Hi) as ([j p] & Hj & dr & Hr & Hk & Hp).
    rewrite list_lookup_imap in Hj. destruct (l !! i) as [p'|]; [|done]. cbn in Hj. injection Hj as <- <-.
    by exists dr.
  - destruct Hprem as (q & Hin & Hb). apply elem_of_lookup_imap in Hin as (i & p & -> & Hi). by exists i, p.
Qed.
