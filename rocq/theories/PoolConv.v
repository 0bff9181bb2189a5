(** Results of minpath and mincut on nodes of several BDD managers, kept in one ZDD manager. *)
From stdpp Require Import strings.
From Verif Require Import Prelude ComputeCache Arena Trees ArenaProofs ArenaMore Bdd BddProofs SpecBdd BddMain BssAlg
  Zdd ZddTrees ZddProofs SpecZdd ZddMain ZddAlg ZddConv.

Fixpoint hall (P : header → Prop) (d : dd tv) : Prop :=
  match d with
  | Leaf _ => True
  | Br hd ds => P hd ∧ (fix all ds := match ds with [] => True | d :: ds => hall P d ∧ all ds end) ds
  end.

Section conv.
Context (src : bdd) (Hsrc : bwf src).
Let n0 := 0.

Definition nconv (d d' : dd tv) : Prop :=
  rank d' ≤ rank d ∧ (∀ S, zev S d' = zev S d) ∧ hall (named src) d'.
Definition nzhok (m : zdd) (zh : gmap nat nat) : Prop :=
  ∀ s h, zh !! s = Some h → ∃ hd0 hd, ar_headers (b_ar src) !! s = Some hd0 ∧
    ar_headers (z_ar m) !! h = Some hd ∧ h_level hd = h_level hd0 ∧ h_label hd = h_label hd0 ∧ n0 ≤ h.
Definition nmemok (m : zdd) (memo : gmap nat nat) : Prop :=
  ∀ i x, memo !! i = Some x → ∃ d d', repr (b_ar src) d i ∧ repr (z_ar m) d' x ∧ nconv d d'.

Lemma nzhok_mono m m' zh : hstep src m m' → nzhok m zh → nzhok m' zh.
Proof.
  intros St H s h Hs. destruct (H _ _ Hs) as (hd0 & hd & ? & ? & ? & ? & ?). exists hd0, hd.
  sp; try done. by eapply hstep_hdr.
Qed.
Lemma nmemok_mono m m' memo : hstep src m m' → nmemok m memo → nmemok m' memo.
Proof.
  intros St H i x Hi. destruct (H _ _ Hi) as (d & d' & ? & ? & ?). exists d, d'.
  sp; try done. by eapply hstep_repr.
Qed.

Definition ncres (m : zdd) (d : dd tv) (y : option (zdd * gmap nat nat * gmap nat nat * nat)) : Prop :=
  ∃ m' zh memo r d', y = Some (m', zh, memo, r) ∧ hstep src m m' ∧ nzhok m' zh ∧ nmemok m' memo ∧
    repr (z_ar m') d' r ∧ nconv d d'.

Lemma ncfinish m id d y : repr (b_ar src) d id → ncres m d y →
  ncres m d ('(m, zh, memo, r) ← y; Some (m, zh, <[id := r]> memo, r)).
Proof.
  intros Hd (m' & zh & memo & r & d' & -> & St & Hz & Hm & Hr & Hc). cbn [mbind option_bind].
  exists m', zh, (<[id := r]> memo), r, d'. split; [done|]. split; [done|]. split; [done|]. split; [|done].
  intros i x. rewrite lookup_insert_Some. intros [[<- <-]|[_ H]]; [by exists d, d'|by apply Hm].
Qed.

Lemma nconv_spec n : ∀ m id d zh memo, zwf m → repr (b_ar src) d id → nzhok m zh → nmemok m memo → n0 ≤ length (ar_headers (z_ar m)) →
  rank d < n → ncres m d (to_zdd_f n src id m zh memo).
Proof.
  induction n as [|n IH]; intros m id d zh memo Hw Hd Hz Hm Hn0 Hn; [lia|]. cbn [to_zdd_f].
  destruct (memo !! id) as [x|] eqn:Hhit.
  { destruct (Hm _ _ Hhit) as (d1 & d' & Hd1 & Hd' & Hc). rewrite (repr_fun _ _ _ _ Hd Hd1).
    exists m, zh, memo, x, d'. split; [done|]. split; [by apply hstep_refl|]. done. }
  pose proof (bw_good _ Hsrc) as Gs. pose proof (zw_good _ Hw) as Gm.
  destruct d as [t|hd ds].
  { pose proof Hd as [_ Hnd]%repr_leaf. rewrite Hnd. cbn [mbind option_bind].
    assert (Hc : nconv (Leaf t) (Leaf t)) by done.
    destruct t; (eapply (ncfinish _ _ _ (Some _)); [done|]); eexists m, zh, memo, _, _;
      (split; [done|]); (split; [by apply hstep_refl|]); (split; [done|]); (split; [done|]); (split; [|exact Hc]); apply Gm. }
  pose proof (good_ok _ _ _ Gs Hd) as Od.
  destruct (repr_node2 _ _ _ _ Gs Hd) as (h & lo & hi & dlo & dhi & -> & Hnd & Hh & Hlo & Hhi & R0 & R1).
  rewrite Hnd. cbn [mbind option_bind edges2]. cbn [rank] in Hn. apply ncfinish; [done|].
  destruct (IH m lo dlo zh memo Hw Hlo Hz Hm Hn0) as (m1 & zh1 & memo1 & low & dl & -> & St1 & Hz1 & Hm1 & Hl & (Rl & El & Fl)); [lia|].
  assert (Hlen : ∀ m m', hstep src m m' → n0 ≤ length (ar_headers (z_ar m)) → n0 ≤ length (ar_headers (z_ar m'))).
  { intros x y (_ & [Hp _] & _) Hx. apply prefix_length in Hp. lia. }
  pose proof (Hlen _ _ St1 Hn0) as Hn1.
  cbn [mbind option_bind].
  destruct (IH m1 hi dhi zh1 memo1 (proj1 St1) Hhi Hz1 Hm1 Hn1) as (m2 & zh2 & memo2 & high & dh & -> & St2 & Hz2 & Hm2 & Hh2 & (Rh & Eh & Fh)); [lia|].
  pose proof (Hlen _ _ St2 Hn1) as Hn2.
  cbn [mbind option_bind].
  assert (Hhdr : ∃ m3 zh3 dh3 hd3,
    match zh2 !! h with
    | Some h0 => Some (m2, zh2, h0)
    | None => header ← ar_headers (b_ar src) !! h;
              let '(dst, h0) := zdd_create_header m2 (h_level header) (h_label header) in
              Some (dst, <[h := h0]> zh2, h0)
    end = Some (m3, zh3, dh3) ∧ hstep src m2 m3 ∧ nzhok m3 zh3 ∧ ar_headers (z_ar m3) !! dh3 = Some hd3 ∧
    h_level hd3 = h_level hd ∧ h_label hd3 = h_label hd ∧ n0 ≤ dh3).
  { destruct (zh2 !! h) as [h0|] eqn:Hzh.
    - destruct (Hz2 _ _ Hzh) as (hd0 & hd3 & Hh0 & Hh3 & ? & ? & ?). rewrite Hh in Hh0. injection Hh0 as <-.
      exists m2, zh2, h0, hd3. split; [done|]. split; [apply hstep_refl, St2|]. done.
    - rewrite Hh. cbn [mbind option_bind].
      destruct (zdd_create_header m2 (h_level hd) (h_label hd)) as [m3 h3] eqn:Hc.
      destruct (zcreate_header_ok _ _ _ _ _ (proj1 St2) Hc) as (Hw3 & He3 & -> & Hhd3 & _).
      assert (St3 : hstep src m2 m3).
      { split; [done|]. split; [done|]. split.
        2:{ intros h0 hd0. rewrite Hhd3, lookup_app_Some. intros [?|[_ H0]]; [by left|right].
            apply list_lookup_singleton_Some in H0 as [_ <-]. by exists h, hd. }
        intros Hre. eapply (zreachable_step m2 (ZHeader _ _)); [done|done|].
        cbn [zdd_exec]. by rewrite Hc. }
      assert (Hlook : ar_headers (z_ar m3) !! length (ar_headers (z_ar m2)) =
        Some (Header (length (ar_headers (z_ar m2))) (h_level hd) (h_label hd) 2)).
      { rewrite Hhd3. by rewrite lookup_app_r, Nat.sub_diag by lia. }
      eexists m3, _, _, _. split; [done|]. split; [done|]. split; [|split; [exact Hlook|done]].
      intros s h'. rewrite lookup_insert_Some. intros [[<- <-]|[_ H]].
      + eexists hd, _. split; [done|]. split; [exact Hlook|done].
      + by apply (nzhok_mono _ _ _ St3 Hz2). }
  destruct Hhdr as (m3 & zh3 & dh3 & hd3 & -> & St3 & Hz3 & Hh3 & Hlev & Hlab & Hfr). cbn [mbind option_bind].
  assert (St23 : hstep src m1 m3) by (eapply hstep_trans; [exact St2|exact St3]).
  assert (Hlo3 : repr (z_ar m3) dl low) by (eapply hstep_repr; [exact St23|done]).
  assert (Hhi3 : repr (z_ar m3) dh high) by (eapply hstep_repr; [exact St3|done]).
  assert (Rlo3 : rank dl ≤ h_level hd3) by lia. assert (Rhi3 : rank dh ≤ h_level hd3) by lia.
  pose proof (proj1 St3) as Hw3.
  destruct (zcreate_node_spec m3 dh3 hd3 low high dl dh Hw3 Hh3 Hlo3 Hhi3 Rlo3 Rhi3) as (m4 & r & dr & Heq & Hst & Hr & Hdr).
  rewrite Heq.
  assert (St4 : hstep src m3 m4).
  { split; [apply Hst|]. split; [apply Hst|]. split.
    2:{ intros h0 hd0. rewrite (proj2 (proj2 Hst)). by left. }
    intros Hre. eapply (zreachable_step m3 (ZNode dh3 low high)); [done| |].
    - cbn. rewrite Hh3. sp; eauto using zvalid_of_repr, zbelow_of_rank.
    - cbn [zdd_exec]. by rewrite Heq. }
  assert (St : hstep src m m4).
  { eapply hstep_trans; [exact St1|]. eapply hstep_trans; [exact St23|exact St4]. }
  exists m4, zh3, memo2, r, dr. split; [done|]. split; [done|]. split; [eapply nzhok_mono; [exact St4|done]|].
  split; [eapply nmemok_mono; [eapply hstep_trans; [exact St3|exact St4]|done]|]. split; [done|].
  pose proof (zgood_ok _ _ _ (zw_good _ Hw3) Hlo3) as O0. pose proof (zgood_ok _ _ _ (zw_good _ Hw3) Hhi3) as O1.
  assert (Hs : zsplit (h_level hd3) dr dl dh).
  { destruct Hdr as [[-> ->]|[_ ->]]; [by apply zsplit_low|].
    apply zsplit_br. eapply zgood_ok; [apply (zw_good _ (proj1 St4))|done]. }
  unfold nconv. sp.
  - destruct Hdr as [[_ ->]|[_ ->]]; cbn [rank]; lia.
  - intros S. destruct Hs as (_ & _ & _ & _ & Hs). rewrite Hs. cbn [zev]. rewrite Hlev.
    destruct (decide _); [apply Eh|apply El].
  - destruct Hdr as [[_ ->]|[_ ->]]; [done|]. cbn [hall]. sp; try done. by exists h, hd.
Qed.
End conv.

Lemma to_zdd_named src m id d : bwf src → zwf m → repr (b_ar src) d id →
  ∃ m' r d', to_zdd src id m = Some (m', r) ∧ hstep src m m' ∧ repr (z_ar m') d' r ∧
    (∀ S, zev S d' = zev S d) ∧ hall (named src) d'.
Proof.
  intros Hs Hw Hd. unfold to_zdd.
  destruct (nconv_spec src Hs (ar_fuel (b_ar src)) m id d ∅ ∅ Hw Hd)
    as (m' & zh & memo & r & d' & -> & St & _ & _ & Hr & _ & Hc & Hc'); try done; [lia|by eapply a_fuel_enough|].
  by exists m', r, d'.
Qed.
