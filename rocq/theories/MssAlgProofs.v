(** Counting and enumeration of multi-state diagrams: proofs. *)
From stdpp Require Import strings.
From Verif Require Import Prelude ComputeCache Arena Trees ArenaProofs ArenaMore Bdd Mdd MtMdd MtMdd2 ZmddAlg BssMgr MssMgr MssAlg
  SpecMdd SpecZmddAlg NaryProofs MddMain.

Definition Ehs (hs : list header) : nat → nat := Eof hs (λ _, 0).
Lemma Ehs_at hs l hd : hcons hs → (∀ i hd, hs !! i = Some hd → h_level hd = i) → hs !! l = Some hd → Ehs hs l = h_edges hd.
Proof.
  intros Hc Hlv Hl. pose proof (Hlv _ _ Hl) as He. rewrite (Eof_edges hs (λ _, 0) hd Hc) by (by eapply elem_of_list_lookup_2).
  by rewrite He.
Qed.

Section enum.
Context {T : Type} (hit : T → option bool) (E : nat → nat).
Implicit Types d : dd T.

Definition yes (t : T) : Prop := hit t = Some true.
(** the vectors over levels below [n] at which the value is a hit, in the order of the iterator *)
Fixpoint enum (n : nat) d : list (list nat) :=
  match n with
  | O => match d with Leaf t => match hit t with Some true => [[]] | _ => [] end | _ => [] end
  | S n => concat ((λ i, (λ v, v ++ [i]) <$> enum n (cof d n i)) <$> seq 0 (E n))
  end.
Lemma elem_of_concat {A} (x : A) ls : x ∈ concat ls ↔ ∃ l, l ∈ ls ∧ x ∈ l.
Proof.
  induction ls as [|l ls IH]; cbn.
  - split; [by intros ?%elem_of_nil|]. by intros (? & ?%elem_of_nil & _).
  - rewrite elem_of_app, IH. split.
    + intros [?|(l' & ? & ?)]; [exists l; split; [by left|done]|]. exists l'. split; [by right|done].
    + intros (l' & [->|?]%elem_of_cons & ?); [by left|]. right. by exists l'.
Qed.
Lemma elem_of_enum_S n d v : v ∈ enum (S n) d ↔ ∃ i w, i < E n ∧ v = w ++ [i] ∧ w ∈ enum n (cof d n i).
Proof.
  cbn [enum]. rewrite elem_of_concat. split.
  - intros (l & (i & -> & [_ Hi]%elem_of_seq)%elem_of_list_fmap & (w & -> & Hw)%elem_of_list_fmap). by exists i, w.
  - intros (i & w & Hi & -> & Hw). eexists. split; [apply elem_of_list_fmap; exists i; split; [done|apply elem_of_seq; lia]|].
    apply elem_of_list_fmap. by exists w.
Qed.
Lemma vec_app w i l : l < length w → vec (w ++ [i]) l = vec w l.
Proof. intros H. unfold vec. by rewrite lookup_app_l. Qed.
Lemma vec_last w i : vec (w ++ [i]) (length w) = i.
Proof. unfold vec. by rewrite lookup_app_r, Nat.sub_diag by lia. Qed.

Definition inE (v : list nat) : Prop := ∀ l i, v !! l = Some i → i < E l.
Lemma inE_snoc w i : inE (w ++ [i]) ↔ inE w ∧ i < E (length w).
Proof.
  split.
  - intros H. split.
    + intros l j Hl. apply H. by apply lookup_app_l_Some.
    + apply H. by rewrite lookup_app_r, Nat.sub_diag by lia.
  - intros [H Hi] l j [Hl|[Hge Hl]]%lookup_app_Some; [by apply H|]. apply list_lookup_singleton_Some in Hl as [H0 <-].
    by replace l with (length w) by lia.
Qed.

Lemma elem_of_enum n : ∀ d v, okdd E d → rank d ≤ n →
  v ∈ enum n d ↔ length v = n ∧ inE v ∧ ∃ t, eval (vec v) d = Some t ∧ yes t.
Proof.
  induction n as [|n IH]; intros d v Ho Hr.
  - destruct d as [t|]; [|cbn in Hr; lia]. cbn [enum eval]. unfold yes.
    transitivity (v = [] ∧ hit t = Some true).
    { destruct (hit t) as [[]|]; rewrite ?elem_of_list_singleton, ?elem_of_nil; naive_solver. }
    split.
    + intros [-> Ht]. sp; [done|by intros l i H|eauto].
    + intros (->%nil_length_inv & _ & t' & [= <-] & ?). done.
  - rewrite elem_of_enum_S. split.
    + intros (i & w & Hi & -> & Hw). apply IH in Hw as (Hl & Hin & t & Ht & Hy); [|by apply cof_ok|by eapply cof_rank].
      sp; [rewrite app_length; cbn; lia|apply inE_snoc; by rewrite Hl|]. exists t. split; [|done]. rewrite <- Ht.
      assert (Hv : eval (vec (w ++ [i])) (cof d n i) = eval (vec w) (cof d n i)).
      { eapply eval_agree; [by apply cof_ok|]. intros l Hlr. apply vec_app.
        pose proof (cof_rank E d n i Ho Hi Hr). lia. }
      rewrite <- Hv. destruct d as [t'|hd cs]; [done|]. cbn [cof]. destruct (decide (h_level hd = n)) as [<-|]; [|done].
      rewrite eval_br. subst. rewrite <- Hl, vec_last.
      apply okdd_br in Ho as [Hlen _]. destruct (lookup_lt_is_Some_2 cs i) as [c ->]; [lia|]. done.
    + intros (Hl & Hin & t & Ht & Hy). destruct v as [|i w _] using rev_ind; [done|].
      rewrite app_length in Hl. cbn in Hl. assert (Hw : length w = n) by lia. apply inE_snoc in Hin as [Hin Hi]. rewrite Hw in Hi.
      exists i, w. sp; [done|done|]. apply IH; [by apply cof_ok|by eapply cof_rank|]. sp; [done|done|]. exists t. split; [|done].
      rewrite <- Ht. transitivity (eval (vec (w ++ [i])) (cof d n i)).
      { symmetry. eapply eval_agree; [by apply cof_ok|]. intros l Hlr. apply vec_app.
        pose proof (cof_rank E d n i Ho Hi Hr). lia. }
      destruct d as [t'|hd cs]; [done|]. cbn [cof]. destruct (decide (h_level hd = n)) as [<-|]; [|done].
      rewrite eval_br. rewrite <- Hw, vec_last.
      apply okdd_br in Ho as [Hlen _]. destruct (lookup_lt_is_Some_2 cs i) as [c ->]; [lia|]. done.
Qed.
Lemma NoDup_enum n : ∀ d, NoDup (enum n d).
Proof.
  induction n as [|n IH]; intros d.
  - destruct d as [t|]; cbn; [destruct (hit t) as [[]|]|]; try apply NoDup_singleton; apply NoDup_nil_2.
  - cbn [enum]. generalize (NoDup_seq 0 (E n)). generalize (seq 0 (E n)). intros is. induction is as [|i is IHi]; intros Hnd.
    + apply NoDup_nil_2.
    + apply NoDup_cons in Hnd as [Hi Hnd]. cbn. apply NoDup_app. sp; [| |by apply IHi].
      * apply NoDup_fmap_2; [|apply IH]. intros x y H. by apply app_inj_tail in H as [? _].
      * intros x (w & -> & _)%elem_of_list_fmap (l & (j & -> & Hj)%elem_of_list_fmap & (w' & He & _)%elem_of_list_fmap)%elem_of_concat.
        apply app_inj_tail in He as [_ ->]. done.
Qed.
Lemma enum_undet n : ∀ t, hit t = None → enum n (Leaf t) = [].
Proof.
  induction n as [|n IH]; intros t Ht; cbn; [by rewrite Ht|]. rewrite (IH _ Ht). by induction (seq 0 (E n)).
Qed.

(** the same, with the children listed *)
Fixpoint ens (n i : nat) (ds : list (dd T)) : list (list nat) :=
  match ds with [] => [] | d :: ds => ((λ v, v ++ [i]) <$> enum n d) ++ ens n (S i) ds end.
Lemma ens_seq n (f : nat → dd T) m : ∀ i, ens n i (f <$> seq i m) = concat ((λ i, (λ v, v ++ [i]) <$> enum n (f i)) <$> seq i m).
Proof. induction m as [|m IH]; intros i; [done|]. cbn [seq]. rewrite !fmap_cons. cbn [ens concat]. by rewrite IH. Qed.
Lemma enum_skip n d : rank d ≤ n → enum (S n) d = ens n 0 (replicate (E n) d).
Proof.
  intros Hr. cbn [enum]. rewrite <- (ens_seq n (λ i, cof d n i) (E n) 0). f_equal. apply list_eq. intros i. rewrite list_lookup_fmap.
  destruct (decide (i < E n)) as [Hi|Hi].
  - rewrite lookup_seq_lt, lookup_replicate_2 by done. cbn. by rewrite cof_low.
  - rewrite lookup_seq_ge by lia. cbn. symmetry. apply lookup_replicate_None. lia.
Qed.
Lemma enum_br hd (cs : list (dd T)) : okdd E (Br hd cs) → enum (S (h_level hd)) (Br hd cs) = ens (h_level hd) 0 cs.
Proof.
  intros [Hl _]%okdd_br. cbn [enum]. rewrite <- (ens_seq _ (λ i, cof (Br hd cs) (h_level hd) i) _ 0). f_equal. apply list_eq. intros i.
  rewrite list_lookup_fmap, <- Hl. destruct (decide (i < length cs)) as [Hi|Hi].
  - rewrite lookup_seq_lt by done. cbn [fmap option_fmap option_map Nat.add cof]. rewrite decide_True by done.
    destruct (lookup_lt_is_Some_2 cs i Hi) as [c Hc]. by rewrite Hc.
  - rewrite lookup_seq_ge by lia. by rewrite lookup_ge_None_2 by lia.
Qed.

(** counts *)
Definition cnt (n : nat) d : N := N.of_nat (length (enum n d)).
Lemma cnt_concat n d is : N.of_nat (length (concat ((λ i, (λ v, v ++ [i]) <$> enum n (cof d n i)) <$> is))) =
  foldr N.add 0%N ((λ i, cnt n (cof d n i)) <$> is).
Proof.
  induction is as [|i is IH]; [done|]. rewrite !fmap_cons. cbn [concat foldr]. rewrite app_length, Nat2N.inj_add, IH.
  f_equal. unfold cnt. by rewrite fmap_length.
Qed.
Lemma cnt_S n d : cnt (S n) d = foldr N.add 0%N ((λ i, cnt n (cof d n i)) <$> seq 0 (E n)).
Proof. apply cnt_concat. Qed.
Lemma nsum_const {A} (x : N) (l : list A) : foldr N.add 0%N ((λ _, x) <$> l) = (N.of_nat (length l) * x)%N.
Proof. induction l as [|y l IH]; [cbn; lia|]. rewrite fmap_cons. cbn [foldr length]. rewrite IH. lia. Qed.
Lemma cnt_low n d : rank d ≤ n → cnt (S n) d = (N.of_nat (E n) * cnt n d)%N.
Proof.
  intros Hr. rewrite cnt_S. transitivity (foldr N.add 0%N ((λ _, cnt n d) <$> seq 0 (E n))).
  - f_equal. apply list_fmap_ext. intros i x _. by rewrite cof_low.
  - by rewrite nsum_const, seq_length.
Qed.
Lemma cnt_br hd (cs : list (dd T)) : okdd E (Br hd cs) → cnt (S (h_level hd)) (Br hd cs) = foldr N.add 0%N (cnt (h_level hd) <$> cs).
Proof.
  intros [Hl _]%okdd_br. rewrite cnt_S, <- Hl. f_equal. apply list_eq. intros i. rewrite !list_lookup_fmap.
  destruct (decide (i < length cs)) as [Hi|Hi].
  - rewrite lookup_seq_lt by done. cbn [fmap option_fmap option_map Nat.add cof]. rewrite decide_True by done.
    destruct (lookup_lt_is_Some_2 cs i Hi) as [c Hc]. by rewrite Hc.
  - rewrite lookup_seq_ge by lia. by rewrite lookup_ge_None_2 by lia.
Qed.
End enum.

(** a level as a number of levels *)
Definition lvn (l : option nat) : nat := match l with Some l => S l | None => 0 end.
Lemma lvn_pred l : lvn (opred l) = pred (lvn l).
Proof. by destruct l as [[|]|]. Qed.

Section count.
Context {T : Type} (hit : T → option bool) (a : arena T) (Hwf : awf Rn a) (Hc : hcons (ar_headers a))
  (Hlv : ∀ i hd, ar_headers a !! i = Some hd → h_level hd = i).
Notation hs := (ar_headers a).
Notation E := (Ehs hs).
Notation cnt := (cnt hit E).
Implicit Types d : dd T.

Lemma repr_E d id : repr a d id → okdd E d.
Proof. intros Hr. eapply repr_okh; [exact Hwf|exact Hc|exact Hr]. Qed.
Lemma repr_rank d id : repr a d id → rank d ≤ length hs.
Proof.
  destruct d as [t|hd ds]; [cbn; lia|]. intros [_ (h & cs & _ & Hh & _)]%repr_br. cbn. rewrite (Hlv _ _ Hh). by apply lookup_lt_Some in Hh.
Qed.
Lemma repr_level d id : repr a d id → ∃ nl, ar_node_level a id = Some nl ∧ lvn nl = rank d.
Proof.
  unfold ar_node_level. destruct d as [t|hd ds].
  - intros [_ ->]%repr_leaf. by exists None.
  - intros [_ (h & cs & -> & Hh & _)]%repr_br. exists (Some (h_level hd)). by rewrite Hh.
Qed.
Lemma olt_rank nl l : olt nl l = (lvn nl <? lvn l).
Proof. destruct nl, l; done. Qed.

(** the table of headers by level is the identity *)
Lemma l2h_ok : l2h_table a = Some (seq 0 (length hs)).
Proof.
  unfold l2h_table.
  assert (Hgo : ∀ (hds : list header) i acc, i + length hds = length acc → (∀ j hd, hds !! j = Some hd → h_level hd = i + j) →
    (∀ j, j < i → acc !! j = Some j) → l2h_go i hds acc = Some (seq 0 (length acc))).
  { induction hds as [|hd hds IH]; intros i acc Hlen Hl Hacc; cbn [l2h_go].
    - f_equal. apply list_eq_same_length with (n := length acc); [by rewrite seq_length|done|].
      intros j x y Hj Hx Hy. cbn in Hlen. rewrite (Hacc j) in Hx by lia. rewrite lookup_seq_lt in Hy by done. cbn in Hy. congruence.
    - cbn in Hlen. rewrite (Hl 0 hd) by done. rewrite Nat.add_0_r. destruct (i <? length acc) eqn:Hi; [|apply Nat.ltb_ge in Hi; lia].
      apply Nat.ltb_lt in Hi. rewrite (IH (S i) (<[i:=i]> acc)); [by rewrite insert_length|rewrite insert_length; lia| |].
      + intros j hd' Hj. rewrite (Hl (S j) hd') by done. lia.
      + intros j Hj. destruct (decide (j = i)) as [->|]; [by rewrite list_lookup_insert|].
        rewrite list_lookup_insert_ne by done. apply Hacc. lia. }
  rewrite Hgo.
  - by rewrite replicate_length.
  - by rewrite replicate_length.
  - intros j hd Hj. by rewrite (Hlv _ _ Hj).
  - lia.
Qed.

(** ** value diagrams: the memo is keyed by node and level *)
Definition vcache (cache : gmap (nat * option nat) N) : Prop :=
  ∀ id l x, cache !! (id, l) = Some x → ∃ d, repr a d id ∧ x = cnt (lvn l) d.
Lemma vcount_spec n : ∀ d id level cache, repr a d id → rank d ≤ lvn level → lvn level ≤ length hs → lvn level < n → vcache cache →
  ∃ cache', ncount_f true hit n a (seq 0 (length hs)) level id cache = Some (cache', cnt (lvn level) d) ∧ vcache cache'.
Proof.
  induction n as [|n IH]; intros d id level cache Hr Hrk Hlen Hn Hca; [lia|]. cbn [ncount_f].
  destruct (cache !! (id, level)) as [x|] eqn:Hhit.
  { destruct (Hca _ _ _ Hhit) as (d' & Hd' & ->). rewrite (repr_fun _ _ _ _ Hr Hd'). by exists cache. }
  assert (Hins : ∀ c, vcache c → vcache (<[(id, level) := cnt (lvn level) d]> c)).
  { intros c Hc1 i l x. rewrite lookup_insert_Some. intros [[[= <- <-] <-]|[_ ?]]; [by exists d|by apply Hc1]. }
  destruct (repr_level _ _ Hr) as (nl & Hnl & Hlr). pose proof (repr_E _ _ Hr) as Ho.
  assert (Hskip : ∀ cache, vcache cache → rank d < lvn level → ∃ l hd, level = Some l ∧ seq 0 (length hs) !! l = Some l ∧ hs !! l = Some hd ∧
    ∃ cache' , ncount_f true hit n a (seq 0 (length hs)) (opred level) id cache = Some (cache', cnt (lvn (opred level)) d) ∧ vcache cache' ∧
    cnt (lvn level) d = (N.of_nat (h_edges hd) * cnt (lvn (opred level)) d)%N).
  { intros c Hc1 Hlt. destruct level as [l|]; [|cbn in Hlt; lia]. cbn [lvn] in *.
    destruct (lookup_lt_is_Some_2 hs l) as [hd Hhd]; [lia|]. exists l, hd. sp; [done|by rewrite lookup_seq_lt by lia|done|].
    destruct (IH d id (opred (Some l)) c Hr) as (c' & Heq & Hc'); [rewrite lvn_pred; cbn; lia..|done|].
    exists c'. sp; [done|done|]. rewrite lvn_pred. cbn [lvn pred]. rewrite cnt_low by lia. by rewrite (Ehs_at hs l hd). }
  destruct d as [t|hd ds].
  - pose proof Hr as [_ Hnd]%repr_leaf. rewrite Hnd. cbn [mbind option_bind]. rewrite Hnl. cbn [mbind option_bind].
    rewrite olt_rank, Hlr. cbn [undetermined].
    destruct (hit t) as [b|] eqn:Ht; cbn [negb andb].
    + destruct (rank (Leaf t) <? lvn level) eqn:Hlt.
      * apply Nat.ltb_lt in Hlt. destruct (Hskip cache Hca Hlt) as (l & hd & -> & Hseq & Hhd & c' & Heq & Hc' & Hcnt).
        cbn [mbind option_bind]. rewrite Hseq. cbn [mbind option_bind]. rewrite Hhd. cbn [mbind option_bind]. rewrite Heq. cbn [mbind option_bind].
        rewrite <- Hcnt. eexists. split; [done|]. by apply Hins.
      * apply Nat.ltb_ge in Hlt. cbn [rank] in Hlt. assert (H0 : lvn level = 0) by lia. cbn [mbind option_bind].
        assert (Hv : cnt (lvn level) (Leaf t) = match b with true => 1%N | false => 0%N end).
        { rewrite H0. unfold MssAlgProofs.cnt. cbn. rewrite Ht. by destruct b. }
        rewrite <- Hv. eexists. split; [done|]. by apply Hins.
    + cbn [mbind option_bind]. assert (Hv : cnt (lvn level) (Leaf t) = 0%N).
      { unfold MssAlgProofs.cnt. by rewrite enum_undet. }
      rewrite <- Hv. eexists. split; [done|]. by apply Hins.
  - pose proof Hr as [_ (h & cs & Hnd & Hh & Hf)]%repr_br. rewrite Hnd. cbn [mbind option_bind]. rewrite Hnl. cbn [mbind option_bind].
    rewrite olt_rank, Hlr. cbn [undetermined negb andb].
    destruct (rank (Br hd ds) <? lvn level) eqn:Hlt.
    + apply Nat.ltb_lt in Hlt. destruct (Hskip cache Hca Hlt) as (l & hd' & -> & Hseq & Hhd & c' & Heq & Hc' & Hcnt).
      cbn [mbind option_bind]. rewrite Hseq. cbn [mbind option_bind]. rewrite Hhd. cbn [mbind option_bind]. rewrite Heq. cbn [mbind option_bind].
      rewrite <- Hcnt. eexists. split; [done|]. by apply Hins.
    + apply Nat.ltb_ge in Hlt. cbn [rank] in *. assert (Hl0 : lvn level = S (h_level hd)) by lia.
      lazymatch goal with |- context [?g cs cache 0%N] => set (go := g) end.
      assert (Hgo : ∀ ds cs cache r, Forall2 (repr a) ds cs → Forall (λ d, rank d ≤ h_level hd) ds → vcache cache →
        ∃ cache', go cs cache r = Some (cache', (r + foldr N.add 0%N (cnt (h_level hd) <$> ds))%N) ∧ vcache cache').
      { clear Hnd Hf Hr Ho Hrk Hskip Hins Hlr Hlt ds cs cache Hca Hhit. intros ds cs cache r Hf. revert cache r.
        induction Hf as [|d c ds cs Hd _ IHf]; intros cache r Hrk Hca.
        - exists cache. cbn. by rewrite N.add_0_r.
        - apply Forall_cons in Hrk as [Hk Hrk]. cbn.
          destruct (IH d c (opred level) cache Hd) as (c1 & -> & Hc1); [rewrite lvn_pred, Hl0; cbn; lia..|done|].
          rewrite lvn_pred, Hl0. cbn [mbind option_bind pred]. destruct (IHf c1 (r + cnt (h_level hd) d)%N Hrk Hc1) as (c2 & -> & Hc2).
          exists c2. split; [|done]. do 2 f_equal. unfold fmap. lia. }
      destruct (Hgo ds cs cache 0%N Hf) as (c' & -> & Hc').
      { apply okdd_br in Ho as [_ Ho]. eapply Forall_impl; [exact Ho|]. by intros d [? _]. }
      { done. }
      cbn [mbind option_bind]. rewrite N.add_0_l.
      assert (Hv : cnt (lvn level) (Br hd ds) = foldr N.add 0%N (cnt (h_level hd) <$> ds)).
      { rewrite Hl0. by apply cnt_br. }
      rewrite <- Hv. eexists. split; [done|]. by apply Hins.
Qed.
Lemma vcount_ok d id l : repr a d id → ar_node_level a id = Some (Some l) → ncount true hit a id = Some (cnt (S l) d).
Proof.
  intros Hr Hl. unfold ncount. rewrite Hl. cbn [mbind option_bind]. rewrite l2h_ok. cbn [mbind option_bind].
  destruct (repr_level _ _ Hr) as (nl & Hnl & Hlr). rewrite Hl in Hnl. injection Hnl as <-. cbn [lvn] in Hlr.
  pose proof (repr_rank _ _ Hr). 
  destruct (vcount_spec (2 + length hs) d id (Some l) ∅ Hr) as (c & -> & _); [cbn [lvn]; lia..| |done].
  intros i l' x. by rewrite lookup_empty.
Qed.

(** ** boolean diagrams: the memo is keyed by node alone, so the count is right if every node is entered from one level *)
Section one_entry.
Context (root top : nat) (dr : dd T) (Hroot : repr a dr root) (Htop : rank dr = S top).
Definition arc (p : nat) (hd : header) (c : nat) : Prop :=
  ∃ h cs, reach a [root] p ∧ ar_nodes a !! p = Some (NT h cs) ∧ hs !! h = Some hd ∧ c ∈ cs.
Context (Hone : ∀ p hd p' hd' c, arc p hd c → arc p' hd' c → h_level hd = h_level hd').
Definition Ent (id lv : nat) : Prop := (id = root ∧ lv = S top) ∨ ∃ p hd, arc p hd id ∧ lv = h_level hd.

Lemma live_repr id : reach a [root] id → ∃ d, repr a d id.
Proof.
  intros Hre. eapply repr_exists; [exact Hwf|]. eapply reach_live; [exact Hwf| |exact Hre].
  intros r ->%elem_of_list_singleton. by eapply repr_live.
Qed.
Lemma reach_rank_n id d : reach a [root] id → repr a d id → rank d ≤ rank dr ∧ (id ≠ root → rank d < rank dr).
Proof.
  intros Hre. revert d. induction Hre as [r Hr|p h cs c Hre IH Hn Hin]; intros d Hd.
  - apply elem_of_list_singleton in Hr as ->. rewrite (repr_fun _ _ _ _ Hd Hroot). done.
  - destruct (live_repr p Hre) as [dp Hdp]. specialize (IH _ Hdp). destruct IH as [IH _].
    destruct dp as [t|hd ds]; [apply repr_leaf in Hdp as [_ ?]; congruence|].
    pose proof (repr_E _ _ Hdp) as [_ Hk]%okdd_br. apply repr_br in Hdp as [_ (h' & cs' & Hn' & Hh & Hf)].
    rewrite Hn in Hn'. injection Hn' as <- <-. apply elem_of_list_lookup in Hin as [i Hi].
    destruct (list.Forall2_lookup_r _ _ _ _ _ Hf Hi) as (dc & Hdc & Hrc). rewrite (repr_fun _ _ _ _ Hd Hrc).
    rewrite Forall_lookup in Hk. destruct (Hk _ _ Hdc) as [Hk1 _]. cbn [rank] in IH. lia.
Qed.
Lemma arc_ne p hd c : arc p hd c → c ≠ root.
Proof.
  intros (h & cs & Hre & Hn & Hh & Hin) ->. destruct (live_repr p Hre) as [dp Hdp].
  destruct (reach_rank_n p dp Hre Hdp) as [Hle _].
  destruct dp as [t|hd' ds]; [apply repr_leaf in Hdp as [_ ?]; congruence|].
  pose proof (repr_E _ _ Hdp) as [_ Hk]%okdd_br. apply repr_br in Hdp as [_ (h' & cs' & Hn' & Hh' & Hf)].
  rewrite Hn in Hn'. injection Hn' as <- <-. apply elem_of_list_lookup in Hin as [i Hi].
  destruct (list.Forall2_lookup_r _ _ _ _ _ Hf Hi) as (dc & Hdc & Hrc). rewrite (repr_fun _ _ _ _ Hrc Hroot) in Hdc.
  rewrite Forall_lookup in Hk. destruct (Hk _ _ Hdc) as [Hk1 _]. cbn [rank] in Hle. lia.
Qed.
Lemma Ent_fun id lv lv' : Ent id lv → Ent id lv' → lv = lv'.
Proof.
  intros [[-> ->]|(p & hd & Ha & ->)] [[Hr ->]|(p' & hd' & Ha' & ->)]; [done|by apply arc_ne in Ha'|by apply arc_ne in Ha|by eapply Hone].
Qed.

Definition bok (id : nat) (x : N) : Prop := ∃ d lv, Ent id lv ∧ repr a d id ∧ x = cnt lv d.
Definition bcache (cache : gmap (nat * option nat) N) : Prop := ∀ id x, cache !! (id, None) = Some x → bok id x.
Lemma bcount_spec n : ∀ d id level cache, repr a d id → reach a [root] id → rank d ≤ lvn level → lvn level ≤ length hs → lvn level < n →
  bcache cache → Ent id (lvn level) ∨ cache !! (id, None) = None →
  ∃ cache', ncount_f false hit n a (seq 0 (length hs)) level id cache = Some (cache', cnt (lvn level) d) ∧
    cache' !! (id, None) = Some (cnt (lvn level) d) ∧ ∀ i x, i ≠ id → cache' !! (i, None) = Some x → bok i x.
Proof.
  induction n as [|n IH]; intros d id level cache Hr Hre Hrk Hlen Hn Hca Hent; [lia|]. cbn [ncount_f].
  destruct (cache !! (id, None)) as [x|] eqn:Hhit.
  { destruct Hent as [Hent|?]; [|done]. destruct (Hca _ _ Hhit) as (d' & lv & He & Hd' & ->).
    rewrite (Ent_fun _ _ _ He Hent), (repr_fun _ _ _ _ Hd' Hr) in *. exists cache. sp; [done|done|]. intros i x _. by apply Hca. }
  assert (Hins : ∀ c : gmap (nat * option nat) N, (∀ i x, i ≠ id → c !! (i, None) = Some x → bok i x) →
    (<[(id, None) := cnt (lvn level) d]> c) !! (id, None) = Some (cnt (lvn level) d) ∧
    ∀ i x, i ≠ id → (<[(id, None) := cnt (lvn level) d]> c) !! (i, None) = Some x → bok i x).
  { intros c Hc1. split; [by rewrite lookup_insert|]. intros i x Hi. rewrite lookup_insert_ne by congruence. by apply Hc1. }
  destruct (repr_level _ _ Hr) as (nl & Hnl & Hlr). pose proof (repr_E _ _ Hr) as Ho.
  assert (Hskip : rank d < lvn level → ∃ l hd, level = Some l ∧ seq 0 (length hs) !! l = Some l ∧ hs !! l = Some hd ∧
    ∃ cache' , ncount_f false hit n a (seq 0 (length hs)) (opred level) id cache = Some (cache', cnt (lvn (opred level)) d) ∧
    (∀ i x, i ≠ id → cache' !! (i, None) = Some x → bok i x) ∧
    cnt (lvn level) d = (N.of_nat (h_edges hd) * cnt (lvn (opred level)) d)%N).
  { intros Hlt. destruct level as [l|]; [|cbn in Hlt; lia]. cbn [lvn] in *.
    destruct (lookup_lt_is_Some_2 hs l) as [hd Hhd]; [lia|]. exists l, hd. sp; [done|by rewrite lookup_seq_lt by lia|done|].
    destruct (IH d id (opred (Some l)) cache Hr Hre) as (c' & Heq & _ & Hc'); [rewrite lvn_pred; cbn; lia..|done|by right|].
    exists c'. sp; [done|done|]. rewrite lvn_pred. cbn [lvn pred]. rewrite cnt_low by lia. by rewrite (Ehs_at hs l hd). }
  destruct d as [t|hd ds].
  - pose proof Hr as [_ Hnd]%repr_leaf. rewrite Hnd. cbn [mbind option_bind]. rewrite Hnl. cbn [mbind option_bind].
    rewrite olt_rank, Hlr. cbn [undetermined].
    destruct (hit t) as [b|] eqn:Ht; cbn [negb andb].
    + destruct (rank (Leaf t) <? lvn level) eqn:Hlt.
      * apply Nat.ltb_lt in Hlt. destruct (Hskip Hlt) as (l & hd & -> & Hseq & Hhd & c' & Heq & Hc' & Hcnt).
        cbn [mbind option_bind]. rewrite Hseq. cbn [mbind option_bind]. rewrite Hhd. cbn [mbind option_bind]. rewrite Heq. cbn [mbind option_bind].
        rewrite <- Hcnt. eexists. split; [done|]. by apply Hins.
      * apply Nat.ltb_ge in Hlt. cbn [rank] in Hlt. assert (H0 : lvn level = 0) by lia. cbn [mbind option_bind].
        assert (Hv : cnt (lvn level) (Leaf t) = match b with true => 1%N | false => 0%N end).
        { rewrite H0. unfold MssAlgProofs.cnt. cbn. rewrite Ht. by destruct b. }
        rewrite <- Hv. eexists. split; [done|]. apply Hins. intros i x _. by apply Hca.
    + cbn [mbind option_bind]. assert (Hv : cnt (lvn level) (Leaf t) = 0%N).
      { unfold MssAlgProofs.cnt. by rewrite enum_undet. }
      rewrite <- Hv. eexists. split; [done|]. apply Hins. intros i x _. by apply Hca.
  - pose proof Hr as [_ (h & cs & Hnd & Hh & Hf)]%repr_br. rewrite Hnd. cbn [mbind option_bind]. rewrite Hnl. cbn [mbind option_bind].
    rewrite olt_rank, Hlr. cbn [undetermined negb andb].
    destruct (rank (Br hd ds) <? lvn level) eqn:Hlt.
    + apply Nat.ltb_lt in Hlt. destruct (Hskip Hlt) as (l & hd' & -> & Hseq & Hhd & c' & Heq & Hc' & Hcnt).
      cbn [mbind option_bind]. rewrite Hseq. cbn [mbind option_bind]. rewrite Hhd. cbn [mbind option_bind]. rewrite Heq. cbn [mbind option_bind].
      rewrite <- Hcnt. eexists. split; [done|]. by apply Hins.
    + apply Nat.ltb_ge in Hlt. cbn [rank] in *. assert (Hl0 : lvn level = S (h_level hd)) by lia.
      assert (Hkid : ∀ c, c ∈ cs → Ent c (h_level hd) ∧ reach a [root] c).
      { intros c Hin. split; [|by eapply reach_step]. right. exists id, hd. split; [|done]. by exists h, cs. }
      lazymatch goal with |- context [?g cs cache 0%N] => set (go := g) end.
      assert (Hgo : ∀ ds cs cache r, Forall2 (repr a) ds cs → Forall (λ d, rank d ≤ h_level hd) ds →
        (∀ c, c ∈ cs → Ent c (h_level hd) ∧ reach a [root] c) → bcache cache →
        ∃ cache', go cs cache r = Some (cache', (r + foldr N.add 0%N (cnt (h_level hd) <$> ds))%N) ∧ bcache cache').
      { clear Hkid Hnd Hf Hr Ho Hrk Hskip Hins Hlr Hlt ds cs cache Hca Hhit Hent. intros ds cs cache r Hf. revert cache r.
        induction Hf as [|d c ds cs Hd _ IHf]; intros cache r Hrk Hkid Hca.
        - exists cache. cbn. by rewrite N.add_0_r.
        - apply Forall_cons in Hrk as [Hk Hrk]. cbn. destruct (Hkid c) as [Hec Hrc]; [by left|].
          assert (Hlp : lvn (opred level) = h_level hd) by (rewrite lvn_pred, Hl0; done).
          destruct (IH d c (opred level) cache Hd Hrc) as (c1 & -> & Hc0 & Hc1); [rewrite Hlp; lia..|done|left; by rewrite Hlp|].
          rewrite Hlp in *. cbn [mbind option_bind]. destruct (IHf c1 (r + cnt (h_level hd) d)%N Hrk) as (c2 & -> & Hc2).
          { intros c' Hc'. apply Hkid. by right. }
          { intros i x Hx. destruct (decide (i = c)) as [->|Hne]; [|by eapply Hc1]. rewrite Hc0 in Hx. injection Hx as <-. by exists d, (h_level hd). }
          exists c2. split; [|done]. do 2 f_equal. unfold fmap. lia. }
      destruct (Hgo ds cs cache 0%N Hf) as (c' & -> & Hc').
      { apply okdd_br in Ho as [_ Ho]. eapply Forall_impl; [exact Ho|]. by intros d [? _]. }
      { done. }
      { done. }
      cbn [mbind option_bind]. rewrite N.add_0_l.
      assert (Hv : cnt (lvn level) (Br hd ds) = foldr N.add 0%N (cnt (h_level hd) <$> ds)).
      { rewrite Hl0. by apply cnt_br. }
      rewrite <- Hv. eexists. split; [done|]. apply Hins. intros i x _. by apply Hc'.
Qed.
Lemma bcount_ok : ncount false hit a root = Some (cnt (S top) dr).
Proof.
  destruct (repr_level _ _ Hroot) as (nl & Hnl & Hlr). rewrite Htop in Hlr. destruct nl as [l|]; [|done]. injection Hlr as ->.
  unfold ncount. rewrite Hnl. cbn [mbind option_bind]. rewrite l2h_ok. cbn [mbind option_bind].
  pose proof (repr_rank _ _ Hroot).
  destruct (bcount_spec (2 + length hs) dr root (Some top) ∅ Hroot) as (c & -> & _); [by constructor; left|cbn [lvn]; lia..| | |done].
  - intros i x. by rewrite lookup_empty.
  - left. by left.
Qed.
End one_entry.
End count.

(** ** Enumeration *)
Section paths.
Context {T : Type} (hit : T → option bool) (a : arena T) (Hwf : awf Rn a) (Hc : hcons (ar_headers a))
  (Hlv : ∀ i hd, ar_headers a !! i = Some hd → h_level hd = i) (Hnd : NoDup (h_label <$> ar_headers a)).
Notation hs := (ar_headers a).
Notation E := (Ehs hs).
Notation enum := (enum hit E).
Notation tab := ((λ hd, (h_label hd, h_edges hd)) <$> hs).
Implicit Types d : dd T.

Lemma tables_ok : path_tables (length hs) a = Some tab.
Proof.
  unfold path_tables. rewrite Nat.ltb_irrefl, firstn_all.
  assert (Hgo : ∀ (k hds : list header) acc, k ++ hds = hs → length acc = length hs →
    (∀ j hd, k !! j = Some hd → acc !! j = Some (h_label hd, h_edges hd)) → tables_go hds acc = Some tab).
  { intros k hds. revert k. induction hds as [|hd hds IH]; intros k acc Hk Hlen Hacc; cbn [tables_go].
    - rewrite app_nil_r in Hk. subst k. f_equal. apply list_eq_same_length with (n := length hs); [by rewrite fmap_length|done|].
      intros j x y Hj Hx Hy. rewrite list_lookup_fmap in Hy. destruct (hs !! j) as [hd|] eqn:Hh; [|done]. cbn in Hy.
      rewrite (Hacc _ _ Hh) in Hx. congruence.
    - assert (Hat : hs !! length k = Some hd) by (by rewrite <- Hk, lookup_app_r, Nat.sub_diag by lia).
      rewrite (Hlv _ _ Hat). pose proof (lookup_lt_Some _ _ _ Hat) as Hlt. destruct (length k <? length acc) eqn:Hi; [|apply Nat.ltb_ge in Hi; lia].
      apply (IH (k ++ [hd])); [by rewrite <- app_assoc|by rewrite insert_length|].
      intros j hd' [Hj|[Hge Hj]]%lookup_app_Some.
      + rewrite list_lookup_insert_ne; [by apply Hacc|]. apply lookup_lt_Some in Hj. lia.
      + apply list_lookup_singleton_Some in Hj as [Hj <-]. replace j with (length k) by lia. apply list_lookup_insert. lia. }
  apply (Hgo []); [done|by rewrite replicate_length|done].
Qed.

Lemma zip_snoc {A B} (ls : list A) (v : list B) s i : ls !! length v = Some s → zip ls (v ++ [i]) = zip ls v ++ [(s, i)].
Proof.
  revert ls. induction v as [|x v IH]; intros [|s' ls] Hl; try done; cbn in *.
  - injection Hl as ->. by destruct ls.
  - by rewrite IH.
Qed.
(** the entries of a vector *)
Definition dmap (v : list nat) : gmap string nat := list_to_map (zip (h_label <$> hs) v).
Lemma dmap_snoc v i hd : hs !! length v = Some hd → dmap (v ++ [i]) = <[h_label hd := i]> (dmap v).
Proof.
  intros Hh. assert (Hl : (h_label <$> hs) !! length v = Some (h_label hd)) by by rewrite list_lookup_fmap, Hh.
  unfold dmap. rewrite (zip_snoc _ _ _ _ Hl), list_to_map_snoc; [done|]. intros Hin.
  apply elem_of_list_fmap in Hin as ([s j] & Hs & (k & Hk)%elem_of_list_lookup). cbn in Hs. subst s.
  rewrite lookup_zip_with in Hk. destruct ((h_label <$> hs) !! k) as [s|] eqn:Hlk; [|done]. destruct (v !! k) as [x|] eqn:Hvk; [|done]. cbn in Hk.
  injection Hk as -> ->. pose proof (NoDup_lookup _ _ _ _ Hnd Hl Hlk). apply lookup_lt_Some in Hvk. lia.
Qed.
(** no variable below level [n] is set *)
Definition above (n : nat) (p : gmap string nat) : Prop := ∀ l hd, l < n → hs !! l = Some hd → p !! h_label hd = None.
Definition found (p : gmap string nat) (vs : list (list nat)) : list (gmap string nat) := (λ v, p ∪ dmap v) <$> vs.

Lemma mdstep_collect k x st p p' out : mdpath_step hit a tab (MDPath (x :: st) p) = Some (p', out) →
  mdpath_collect (S k) hit a tab (MDPath (x :: st) p) =
  rest ← mdpath_collect k hit a tab p'; Some (match out with Some x => x :: rest | None => rest end).
Proof. intros Hs. cbn [mdpath_collect dp_stack]. rewrite Hs. done. Qed.

Lemma collect_spec n : ∀ d id level st p, repr a d id → lvn level = n → rank d ≤ n → n ≤ length hs → above n p →
  ∃ k, ∀ fuel, mdpath_collect (k + fuel) hit a tab (MDPath (DSNode level id :: st) p) =
    rest ← mdpath_collect fuel hit a tab (MDPath st p); Some (found p (enum n d) ++ rest).
Proof.
  induction n as [|n IH]; intros d id level st p Hr Hlvl Hrk Hlen Hab.
  - destruct d as [t|]; [|cbn in Hrk; lia]. pose proof Hr as [_ Hn]%repr_leaf. exists 1. intros fuel. cbn [Nat.add].
    destruct level as [|]; [done|].
    assert (Hs : mdpath_step hit a tab (MDPath (DSNode None id :: st) p) =
      Some (MDPath st p, match hit t with Some true => Some p | _ => None end)).
    { unfold mdpath_step. cbn [dp_stack dp_path]. unfold ar_node_level. rewrite Hn. cbn [mbind option_bind olt]. by rewrite andb_false_r. }
    rewrite (mdstep_collect _ _ _ _ _ _ Hs). destruct (mdpath_collect fuel _ _ _ _) as [rest|]; [|done]. cbn [mbind option_bind MssAlgProofs.enum].
    destruct (hit t) as [[]|]; try done. unfold found, dmap. cbn. rewrite zip_with_nil_r. cbn. by rewrite (right_id_L ∅ (∪)).
  - destruct level as [l|]; [|done]. injection Hlvl as ->.
    destruct (lookup_lt_is_Some_2 hs n) as [hd Hhd]; [lia|].
    assert (Htab : tab !! n = Some (h_label hd, h_edges hd)) by by rewrite list_lookup_fmap, Hhd.
    pose proof (repr_E a Hwf Hc _ _ Hr) as Ho. pose proof (Ehs_at hs n hd Hc Hlv Hhd) as HE.
    (* the pushed entries *)
    assert (Hgo : ∀ ds cs i st, Forall2 (repr a) ds cs → Forall (λ d, rank d ≤ n) ds →
      ∃ k, ∀ fuel, mdpath_collect (k + fuel) hit a tab (MDPath (md_push (h_label hd) (opred (Some n)) i cs ++ st) p) =
        rest ← mdpath_collect fuel hit a tab (MDPath st p);
        Some (found p (ens hit E n i ds) ++ rest)).
    { clear Hr Hrk Ho d. intros ds cs i st' Hf. revert i. induction Hf as [|d c ds cs Hd _ IHf]; intros i Hrk.
      - exists 0. intros fuel. cbn. by destruct (mdpath_collect fuel _ _ _ _).
      - apply Forall_cons in Hrk as [Hk Hrk]. destruct (IHf (S i) Hrk) as [k2 Hk2]. cbn [md_push].
        destruct (IH d c (opred (Some n)) (DSPop (h_label hd) :: md_push (h_label hd) (opred (Some n)) (S i) cs ++ st')
          (<[h_label hd := i]> p) Hd) as [k1 Hk1]; [by rewrite lvn_pred|done|lia| |].
        { intros l hd' Hl Hh'. rewrite lookup_insert_ne; [apply (Hab l); [lia|done]|]. intros He.
          assert (l = n); [|lia]. eapply NoDup_lookup; [exact Hnd|rewrite list_lookup_fmap, Hh'; done|]. rewrite list_lookup_fmap, Hhd. cbn. by rewrite He. }
        exists (1 + (k1 + (1 + k2))). intros fuel.
        replace (1 + (k1 + (1 + k2)) + fuel) with (S (k1 + S (k2 + fuel))) by lia. cbn [app].
        rewrite (mdstep_collect _ _ _ _ (MDPath (DSNode (opred (Some n)) c :: DSPop (h_label hd) ::
            md_push (h_label hd) (opred (Some n)) (S i) cs ++ st') (<[h_label hd := i]> p)) None) by done.
        rewrite Hk1.
        rewrite (mdstep_collect _ _ _ _ (MDPath (md_push (h_label hd) (opred (Some n)) (S i) cs ++ st') p) None).
        2:{ unfold mdpath_step. cbn [dp_stack dp_path]. rewrite delete_insert; [done|]. apply (Hab n); [lia|done]. }
        rewrite Hk2. destruct (mdpath_collect fuel _ _ _ _) as [rest|]; [|done]. cbn [mbind option_bind ens].
        unfold found. rewrite fmap_app, <- app_assoc. f_equal. f_equal.
        rewrite <- list_fmap_compose. apply list_fmap_ext. intros j v Hv.
          apply elem_of_list_lookup_2, elem_of_enum in Hv as (Hlv' & _); [|by eapply repr_E|done]. unfold compose.
          rewrite (dmap_snoc v i hd) by by rewrite Hlv'. rewrite <- insert_union_l, insert_union_r; [done|]. apply (Hab n); [lia|done]. }
    assert (Hstep : ∀ ds cs, Forall2 (repr a) ds cs → Forall (λ d, rank d ≤ n) ds → enum (S n) d = ens hit E n 0 ds →
      mdpath_step hit a tab (MDPath (DSNode (Some n) id :: st) p) = Some (MDPath (md_push (h_label hd) (opred (Some n)) 0 cs ++ st) p, None) →
      ∃ k, ∀ fuel, mdpath_collect (k + fuel) hit a tab (MDPath (DSNode (Some n) id :: st) p) =
        rest ← mdpath_collect fuel hit a tab (MDPath st p); Some (found p (enum (S n) d) ++ rest)).
    { intros ds cs Hf Hk He Hs. destruct (Hgo ds cs 0 st Hf Hk) as [k Hk']. exists (S k). intros fuel. cbn [Nat.add].
      rewrite (mdstep_collect _ _ _ _ _ _ Hs), Hk', He. by destruct (mdpath_collect fuel _ _ _ _). }
    destruct (repr_level a d id Hr) as (nl & Hnl & Hlr).
    destruct (decide (rank d ≤ n)) as [Hle|Hgt].
    + destruct (undetermined hit match d with Leaf t => Term t | Br _ _ => NT 0 [] end) eqn:Hu.
      * destruct d as [t|]; [|done]. cbn in Hu. destruct (hit t) eqn:Ht; [done|]. pose proof Hr as [_ Hn]%repr_leaf.
        exists 1. intros fuel. cbn [Nat.add].
        assert (Hs : mdpath_step hit a tab (MDPath (DSNode (Some n) id :: st) p) = Some (MDPath st p, None)).
        { unfold mdpath_step. cbn [dp_stack dp_path]. rewrite Hn. cbn [mbind option_bind]. rewrite Hnl. cbn [mbind option_bind undetermined].
          by rewrite Ht. }
        rewrite (mdstep_collect _ _ _ _ _ _ Hs), enum_undet by done. by destruct (mdpath_collect fuel _ _ _ _).
      * apply (Hstep (replicate (h_edges hd) d) (replicate (h_edges hd) id)).
        -- clear -Hr. induction (h_edges hd); constructor; done.
        -- by apply Forall_replicate.
        -- rewrite <- HE. by apply enum_skip.
        -- unfold mdpath_step. cbn [dp_stack dp_path].
           assert (∃ nd, ar_nodes a !! id = Some nd ∧ undetermined hit nd = false) as (nd & -> & Hun).
           { destruct d as [t|hd' ds]; [apply repr_leaf in Hr as [_ ->]; eauto|]. apply repr_br in Hr as [_ (h & cs & -> & _)]. eauto. }
           cbn [mbind option_bind]. rewrite Hnl. cbn [mbind option_bind]. rewrite Hun, olt_rank, Hlr. cbn [negb andb lvn].
           destruct (rank d <? S n) eqn:Hb; [|apply Nat.ltb_ge in Hb; lia]. cbn [mbind option_bind]. by rewrite Htab.
    + destruct d as [t|hd' ds]; [cbn in Hgt; lia|]. cbn [rank] in Hrk, Hgt, Hlr.
      pose proof Hr as [_ (h & cs & Hn & Hh & Hf)]%repr_br. assert (Hl' : h_level hd' = n) by lia.
      apply (Hstep ds cs).
      * done.
      * apply okdd_br in Ho as [_ Hk]. rewrite Hl' in Hk. eapply Forall_impl; [exact Hk|]. by intros ? [? _].
      * rewrite <- Hl'. by apply enum_br.
      * unfold mdpath_step. cbn [dp_stack dp_path]. rewrite Hn. cbn [mbind option_bind]. rewrite Hnl. cbn [mbind option_bind undetermined].
        rewrite olt_rank, Hlr. cbn [negb andb lvn]. destruct (S (h_level hd') <? S n) eqn:Hb; [apply Nat.ltb_lt in Hb; lia|].
        cbn [mbind option_bind]. by rewrite Htab.
Qed.

Lemma extract_ok d id : repr a d id → ∃ k, ∀ fuel, k ≤ fuel →
  nextract fuel hit (length hs) a id = Some (dmap <$> enum (rank d) d).
Proof.
  intros Hr. destruct (repr_level a d id Hr) as (nl & Hnl & Hlr).
  destruct (collect_spec (rank d) d id nl [] ∅ Hr Hlr) as [k Hk]; [done|by eapply repr_rank|by intros ? ? ? ?|].
  exists k. intros fuel Hf. unfold nextract. rewrite tables_ok. cbn [mbind option_bind]. unfold nlevel. rewrite Hnl. cbn [mjoin option_join].
  replace fuel with (k + (fuel - k)) by lia. rewrite Hk.
  assert (∀ k p, mdpath_collect k hit a tab (MDPath [] p) = Some []) as -> by (intros k0 ?; by destruct k0).
  cbn [mbind option_bind]. rewrite app_nil_r. f_equal. apply list_fmap_ext. intros i v _. by rewrite (left_id_L ∅ (∪)).
Qed.
End paths.
