(** * Selection, iteration and reopening of the block store *)
From Coq Require Import Lia NArith List.
From stdpp Require Import prelude numbers list gmap sorting.
From Verif Require Import MultiverseModel MultiverseSpec MultiverseProofs MultiverseHistProofs.

Local Open Scope N_scope.

(** ** The block numbers in use *)
Lemma sorted_keys_elem {A} (o : gmap N A) n : n ∈ sorted_keys o <-> is_Some (o !! n).
Proof.
  unfold sorted_keys. rewrite merge_sort_Permutation, elem_of_list_fmap. split.
  - intros ([n' x] & -> & H). apply elem_of_map_to_list in H. cbn. eauto.
  - intros [x H]. exists (n, x). split; [done|]. by apply elem_of_map_to_list.
Qed.

Lemma sorted_keys_sorted {A} (o : gmap N A) : StronglySorted N.lt (sorted_keys o).
Proof.
  assert (StronglySorted N.le (sorted_keys o)) as Hs.
  { apply StronglySorted_merge_sort; apply _. }
  assert (NoDup (sorted_keys o)) as Hn.
  { unfold sorted_keys. rewrite merge_sort_Permutation. apply NoDup_fst_map_to_list. }
  induction Hs as [|n l Hs IH Hf]; [constructor|]. apply NoDup_cons in Hn as [Hx Hn].
  constructor; [by apply IH|]. apply Forall_forall. intros x Hin.
  eapply Forall_forall in Hf; [|exact Hin]. assert (x <> n) by (intros ->; done). lia.
Qed.

Lemma rel_numbers m s n : rel m s ->
  n ∈ sorted_keys (m_ordered m) <-> exists b, b ∈ s_blocks s /\ b_num b = n.
Proof.
  intros R. destruct (r_mem _ _ R) as (L & M & <-). rewrite sorted_keys_elem. split.
  - intros [X E]. assert (X <> ∅) as Hne by (intros ->; by eapply mo_ne).
    apply set_choose_L in Hne as [k Hk].
    assert (k ∈ bucket m n) as Hb by (unfold bucket; by rewrite E).
    apply (mo_ord _ _ M) in Hb as (a & b & Hin & _ & Hnum). exists b. split; [|done].
    apply elem_of_list_fmap. by exists (a, b).
  - intros (b & Hb & <-). destruct (mo_elem _ _ _ M Hb) as [a Ha].
    assert (b_id b ∈ bucket m (b_num b)) as Hk by (apply (mo_ord _ _ M); eauto).
    unfold bucket in Hk. destruct (m_ordered m !! b_num b); [done|]. cbn in Hk. set_solver.
Qed.

Lemma rel_bucket m s n k : rel m s ->
  k ∈ bucket m n <-> exists b, b ∈ s_blocks s /\ b_id b = k /\ b_num b = n.
Proof.
  intros R. destruct (r_mem _ _ R) as (L & M & <-). rewrite (mo_ord _ _ M). split.
  - intros (a & b & H & ?). exists b. split; [|done]. apply elem_of_list_fmap. by exists (a, b).
  - intros (b & H & ?). destruct (mo_elem _ _ _ M H) as [a Ha]. eauto.
Qed.

Lemma last_sorted_max (l : list N) n : StronglySorted N.lt l -> last l = Some n ->
  forall x, x ∈ l -> x <= n.
Proof.
  induction 1 as [|y l Hs IH Hf]; [done|]. destruct l as [|z l].
  - cbn. intros [= ->] x Hx. apply elem_of_list_singleton in Hx as ->. lia.
  - rewrite last_cons_cons. intros Hl x Hx. apply elem_of_cons in Hx as [->|Hx]; [|by apply IH].
    eapply Forall_forall in Hf; [|by apply last_Some_elem_of in Hl]. lia.
Qed.

Lemma rel_older m s max k : rel m s ->
  k ∈ mv_older m max <-> exists b, b ∈ s_blocks s /\ b_id b = k /\ b_num b < max.
Proof.
  intros R. unfold mv_older. rewrite elem_of_union_list. split.
  - intros (X & HX & Hk). apply elem_of_list_omap in HX as (n & Hn & E).
    destruct (N.ltb_spec n max) as [Hlt|]; [|done].
    assert (k ∈ bucket m n) as Hb by (unfold bucket; by rewrite E).
    apply (rel_bucket _ _ _ _ R) in Hb as (b & ? & ? & <-). eauto.
  - intros (b & Hb & Hid & Hlt).
    assert (k ∈ bucket m (b_num b)) as Hk by (apply (rel_bucket _ _ _ _ R); eauto).
    unfold bucket in Hk. destruct (m_ordered m !! b_num b) as [X|] eqn:E; [|cbn in Hk; set_solver].
    exists X. split; [|done]. apply elem_of_list_omap. exists (b_num b). split.
    + apply (rel_numbers _ _ _ R). eauto.
    + rewrite (proj2 (N.ltb_lt _ _) Hlt). done.
Qed.

(** ** Selection *)
Lemma fair_head enum X k l : fair enum -> enum X = k :: l -> k ∈ X.
Proof. intros Hf E. apply elem_of_elements. rewrite <- (Hf X), E. by left. Qed.

Lemma fair_nil enum X : fair enum -> enum X = [] -> X = ∅.
Proof.
  intros Hf E. pose proof (Hf X) as H. rewrite E in H. apply Permutation_nil_l in H.
  symmetry in H. by apply elements_empty_inv, leibniz_equiv in H.
Qed.

(** A stored block of the greatest number. *)
Definition highest (S : list block) (b : block) : Prop :=
  b ∈ S /\ forall x, x ∈ S -> b_num x <= b_num b.

Lemma rel_select m s enum held depth gap : rel m s -> fair enum -> current_refs m held ->
  (forall k a, (k, a) ∈ held -> is_Some (m_all m !! k)) ->
  exists r disc, mv_select enum m held depth gap = Done (r, disc) /\
  (s_blocks s = [] -> r = None /\ disc = ∅) /\
  (s_blocks s <> [] -> exists tip, highest (s_blocks s) tip /\
     match r with
     | Some k => exists a, nth_ancestor (s_blocks s) depth tip a /\ b_id a = k /\
         (forall k', k' ∈ disc <-> exists b, b ∈ s_blocks s /\ b_id b = k' /\ b_num b < b_num a - gap)
     | None => (forall a, ~ nth_ancestor (s_blocks s) depth tip a) /\ disc = ∅
     end).
Proof.
  intros R Hf Hh Hpres. unfold mv_select.
  destruct (last (sorted_keys (m_ordered m))) as [n|] eqn:El.
  - pose proof (last_sorted_max _ _ (sorted_keys_sorted _) El) as Hmax.
    apply last_Some_elem_of in El. pose proof El as Hn.
    apply (rel_numbers _ _ _ R) in El as (b0 & Hb0 & Hnum0).
    destruct (enum (default ∅ (m_ordered m !! n))) as [|t l] eqn:Ee.
    { exfalso. apply fair_nil in Ee; [|done]. fold (bucket m n) in Ee.
      assert (b_id b0 ∈ bucket m n) as H by (apply (rel_bucket _ _ _ _ R); eauto).
      rewrite Ee in H. set_solver. }
    apply fair_head in Ee; [|done]. fold (bucket m n) in Ee.
    apply (rel_bucket _ _ _ _ R) in Ee as (tip & Htip & <- & Hnum).
    assert (highest (s_blocks s) tip) as Hhi.
    { split; [done|]. intros x Hx. rewrite Hnum. apply Hmax, (rel_numbers _ _ _ R). eauto. }
    destruct (rel_ancestor m s held depth R Hh Hpres tip Htip) as (r & -> & Hr).
    destruct r as [k|].
    + destruct Hr as (a & Ha & <-).
      assert (a ∈ s_blocks s) as Hain.
      { clear -Ha. induction Ha; done. }
      pose proof (rel_get _ _ (b_id a) R) as Hg. unfold mv_get in Hg.
      rewrite (proj2 (lookup_block_some _ _ a (rel_nodup _ _ R))) in Hg by done.
      destruct (m_all m !! b_id a) as [e|]; [|done]. cbn in Hg. injection Hg as Hg.
      eexists _, _. split; [reflexivity|]. split; [intros E; rewrite E in Htip; by apply elem_of_nil in Htip|].
      intros _. exists tip. split; [done|]. exists a. split; [done|]. split; [done|].
      intros k'. rewrite (rel_older _ _ _ _ R), Hg. done.
    + eexists _, _. split; [reflexivity|]. split; [done|]. intros _. exists tip. done.
  - assert (s_blocks s = []) as E.
    { destruct (s_blocks s) as [|b l] eqn:Es; [done|]. exfalso.
      apply last_None in El. assert (b_num b ∈ sorted_keys (m_ordered m)) as H.
      { apply (rel_numbers _ _ _ R). exists b. rewrite Es. split; [by left|done]. }
      rewrite El in H. by apply elem_of_nil in H. }
    eexists _, _. split; [reflexivity|]. split; [done|]. done.
Qed.

(** Selection when blocks are numbered contiguously: the height is determined. *)
Lemma nth_ancestor_num S n b a :
  (forall p c, child_of S p c -> b_num c = b_num p + 1) -> nth_ancestor S n b a ->
  b_num a + N.of_nat n = b_num b.
Proof.
  intros H. induction 1 as [|n b p a Hc _ IH]; [lia|]. apply H in Hc. lia.
Qed.

Lemma nth_ancestor_in S n b a : nth_ancestor S n b a -> a ∈ S /\ b ∈ S.
Proof.
  induction 1 as [|n b p a Hc _ IH]; [done|]. apply child_of_in in Hc as [_ ?]. naive_solver.
Qed.

(** ** The preferred fork *)
Lemma mv_longest_ok m s tips : rel m s -> forall r, r ∈ s_blocks s ->
  (forall t, t ∈ tips -> t ∈ mv_tips m) -> b_id r ∈ mv_tips m ->
  exists r', mv_longest m (b_id r) (b_num r) tips = Done (b_id r') /\ r' ∈ s_blocks s /\
    b_id r' ∈ mv_tips m /\ b_num r <= b_num r' /\
    forall t b, t ∈ tips -> b ∈ s_blocks s -> b_id b = t -> b_num b <= b_num r'.
Proof.
  intros R. induction tips as [|t tips IH]; intros r Hr Ht Hrt; cbn [mv_longest].
  - exists r. split; [done|]. split; [done|]. split; [done|]. split; [lia|].
    intros t b H. by apply elem_of_nil in H.
  - assert (t ∈ mv_tips m) as Htt by (apply Ht; by left).
    apply (rel_tips _ _ _ R) in Htt as (b & Hb & <- & _).
    pose proof (rel_get _ _ (b_id b) R) as Hg. unfold mv_get in Hg.
    rewrite (proj2 (lookup_block_some _ _ b (rel_nodup _ _ R))) in Hg by done.
    destruct (m_all m !! b_id b) as [e|]; [|done]. cbn in Hg. injection Hg as ->.
    assert (forall b', b' ∈ s_blocks s -> b_id b' = b_id b -> b' = b) as Hu.
    { intros. eapply nodup_id_inj; eauto. by eapply rel_nodup. }
    destruct (N.ltb_spec (b_num r) (b_num b)) as [Hl|Hl].
    + destruct (IH b Hb) as (r' & E & H1 & H2 & H3 & H4).
      { intros. apply Ht. by right. } { apply Ht. by left. }
      exists r'. split; [done|]. split; [done|]. split; [done|]. split; [lia|].
      intros t' b' Hin Hb' Hid. apply elem_of_cons in Hin as [->|Hin]; [|by eapply H4].
      rewrite (Hu b') by done. done.
    + destruct (IH r Hr) as (r' & E & H1 & H2 & H3 & H4); [|done|].
      { intros. apply Ht. by right. }
      exists r'. split; [done|]. split; [done|]. split; [done|]. split; [lia|].
      intros t' b' Hin Hb' Hid. apply elem_of_cons in Hin as [->|Hin]; [|by eapply H4].
      rewrite (Hu b') by done. lia.
Qed.

Lemma rel_preferred m s enum : rel m s -> fair enum ->
  exists r, mv_preferred_fork_tip enum m = Done r /\
  match r with
  | None => s_blocks s = []
  | Some k => exists b, b ∈ s_blocks s /\ b_id b = k /\ k ∈ mv_tips m /\
      forall b', b' ∈ s_blocks s -> b_id b' ∈ mv_tips m -> b_num b' <= b_num b
  end.
Proof.
  intros R Hf. unfold mv_preferred_fork_tip. destruct (enum (m_tips m)) as [|t l] eqn:E.
  - exists None. split; [done|]. apply fair_nil in E; [|done].
    destruct (s_blocks s) as [|b S] eqn:Es; [done|]. exfalso.
    apply (rel_has_tip _ _ R); [by rewrite Es|done].
  - assert (forall x, x ∈ mv_tips m <-> x ∈ t :: l) as Hall.
    { intros x. rewrite <- E. rewrite (Hf (m_tips m)). by rewrite elem_of_elements. }
    assert (t ∈ mv_tips m) as Ht by (apply Hall; by left).
    pose proof Ht as Ht0.
    apply (rel_tips _ _ _ R) in Ht as (b & Hb & <- & _).
    pose proof (rel_get _ _ (b_id b) R) as Hg. unfold mv_get in Hg.
    rewrite (proj2 (lookup_block_some _ _ b (rel_nodup _ _ R))) in Hg by done.
    destruct (m_all m !! b_id b) as [e|]; [|done]. cbn in Hg. injection Hg as ->.
    destruct (mv_longest_ok m s l R b Hb) as (r' & -> & H1 & H2 & H3 & H4); [|done|].
    { intros. apply Hall. by right. }
    exists (Some (b_id r')). split; [done|]. exists r'. split; [done|]. split; [done|].
    split; [done|]. intros b' Hb' Hin. apply Hall, elem_of_cons in Hin as [Hin|Hin].
    + assert (b' = b) as ->; [|done]. eapply nodup_id_inj; eauto. by eapply rel_nodup.
    + by eapply H4.
Qed.

(** ** Iteration *)
Lemma mv_iter_keys_ok m s enum ns : rel m s -> fair enum ->
  (forall n, n ∈ ns -> exists b, b ∈ s_blocks s /\ b_num b = n) ->
  b_num <$> mv_iter_keys enum m ns = ns /\
  (forall b, b ∈ mv_iter_keys enum m ns -> b ∈ s_blocks s).
Proof.
  intros R Hf. induction ns as [|n ns IH]; intros H; cbn [mv_iter_keys].
  - split; [done|]. intros b Hb. by apply elem_of_nil in Hb.
  - destruct (IH (fun x Hx => H x (elem_of_list_further _ _ _ Hx))) as [IH1 IH2].
    destruct (enum (default ∅ (m_ordered m !! n))) as [|k l] eqn:E.
    { exfalso. apply fair_nil in E; [|done]. fold (bucket m n) in E.
      destruct (H n) as (b & Hb & Hn); [by left|].
      assert (b_id b ∈ bucket m n) as Hk by (apply (rel_bucket _ _ _ _ R); eauto).
      rewrite E in Hk. set_solver. }
    apply fair_head in E; [|done]. fold (bucket m n) in E.
    apply (rel_bucket _ _ _ _ R) in E as (b & Hb & <- & Hn).
    pose proof (rel_get _ _ (b_id b) R) as Hg. unfold mv_get in Hg.
    rewrite (proj2 (lookup_block_some _ _ b (rel_nodup _ _ R))) in Hg by done.
    destruct (m_all m !! b_id b) as [e|]; [|done]. cbn in Hg. injection Hg as ->.
    cbn. rewrite IH1, Hn. split; [done|]. intros x Hx.
    apply elem_of_cons in Hx as [->|Hx]; [done|by apply IH2].
Qed.

Lemma rel_iter m s enum : rel m s -> fair enum ->
  StronglySorted N.lt (b_num <$> mv_iter enum m) /\
  (forall b, b ∈ mv_iter enum m -> b ∈ s_blocks s) /\
  (forall b, b ∈ s_blocks s -> exists b', b' ∈ mv_iter enum m /\ b_num b' = b_num b).
Proof.
  intros R Hf. destruct (mv_iter_keys_ok m s enum (sorted_keys (m_ordered m)) R Hf) as [H1 H2].
  { intros n Hn. by apply (rel_numbers _ _ _ R). }
  unfold mv_iter. split; [rewrite H1; apply sorted_keys_sorted|]. split; [done|].
  intros b Hb. assert (b_num b ∈ sorted_keys (m_ordered m)) as Hn
    by (apply (rel_numbers _ _ _ R); eauto).
  rewrite <- H1 in Hn. apply elem_of_list_fmap in Hn as (b' & ? & ?). eauto.
Qed.

(** ** Stores with the same blocks and links answer alike *)
(** Every stored block whose parent is stored came after it. *)
Definition parents_first (S : list block) : Prop :=
  forall p c, p ∈ S -> c ∈ S -> b_parent c = b_id p -> child_of S p c.

(** Block numbers increase along parent links. *)
Definition numbers_increase (S : list block) : Prop :=
  forall p c, p ∈ S -> c ∈ S -> b_parent c = b_id p -> b_num p < b_num c.

Lemma sorted_parents_first S : StronglySorted block_le S -> numbers_increase S -> parents_first S.
Proof.
  intros Hs Hi p c Hp Hc E. split; [done|]. pose proof (Hi _ _ Hp Hc E) as Hl.
  apply elem_of_list_split in Hp as (S1 & S2 & ->). apply elem_of_app in Hc as [Hc|Hc].
  - exfalso. assert (block_le c p) as [H|[H _]]; [|lia|lia].
    eapply elem_of_StronglySorted_app; [exact Hs|done|by left].
  - apply elem_of_cons in Hc as [->|Hc]; [lia|].
    apply elem_of_list_split in Hc as (S3 & S4 & ->). eauto.
Qed.

Lemma parents_first_child S S' : S ≡ₚ S' -> parents_first S -> parents_first S' ->
  forall p c, child_of S p c <-> child_of S' p c.
Proof.
  intros Hp H1 H2 p c. split; intros Hc; pose proof (child_of_in _ _ _ Hc) as [? ?];
    destruct Hc as [E _].
  - apply H2; [by rewrite <- Hp|by rewrite <- Hp|done].
  - apply H1; [by rewrite Hp|by rewrite Hp|done].
Qed.

Lemma nth_ancestor_ext S S' : (forall b, b ∈ S -> b ∈ S') ->
  (forall p c, child_of S p c -> child_of S' p c) ->
  forall n b a, nth_ancestor S n b a -> nth_ancestor S' n b a.
Proof.
  intros H1 H2 n b a. induction 1; [constructor; auto|]. eapply anc_parent; eauto.
Qed.

Lemma numbers_increase_perm S S' : S ≡ₚ S' -> numbers_increase S -> numbers_increase S'.
Proof. intros Hp H p c Hin1 Hin2. apply H; by rewrite Hp. Qed.

Lemma lookup_block_perm S S' k : NoDup (b_id <$> S) -> S ≡ₚ S' ->
  lookup_block S k = lookup_block S' k.
Proof.
  intros Hn Hp. apply option_eq. intros b.
  rewrite !lookup_block_some; [by rewrite Hp| |done]. by rewrite <- Hp.
Qed.
