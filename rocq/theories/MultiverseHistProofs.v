(** * Histories of the block store *)
From Coq Require Import Lia NArith List.
From stdpp Require Import prelude numbers list gmap sorting.
From Verif Require Import MultiverseModel MultiverseSpec MultiverseProofs.

Local Open Scope N_scope.

(** ** Reopening *)
Global Instance key_le_trans : Transitive key_le.
Proof. intros x y z. unfold key_le. apply bytes_le_trans. Qed.
Global Instance key_le_total : Total key_le.
Proof. intros x y. unfold key_le. apply bytes_le_total. Qed.
Global Instance block_le_trans : Transitive block_le.
Proof.
  intros x y z [H1|[H1 H1']] [H2|[H2 H2']].
  - left. lia.
  - left. lia.
  - left. lia.
  - right. split; [lia|]. by etrans.
Qed.
Global Instance block_le_total : Total block_le.
Proof.
  intros x y. unfold block_le. destruct (N.lt_trichotomy (b_num x) (b_num y)) as [H|[H|H]].
  - left. by left.
  - rewrite H. destruct (bytes_le_total (b_id x) (b_id y)); [left|right]; right; done.
  - right. by left.
Qed.

Lemma block_le_antisym S x y : NoDup (b_id <$> S) -> x ∈ S -> y ∈ S ->
  block_le x y -> block_le y x -> x = y.
Proof.
  intros Hn Hx Hy [H1|[H1 H1']] [H2|[H2 H2']]; try lia.
  eapply nodup_id_inj; eauto. by apply (anti_symm bytes_le).
Qed.

Lemma key_sorted_block_sorted (l : list (bytes * block)) :
  StronglySorted key_le l ->
  (forall x, x ∈ l -> x.1 = sled_key x.2 /\ b_num x.2 < 2 ^ 64) ->
  StronglySorted block_le l.*2.
Proof.
  induction 1 as [|x l Hs IH Hf]; intros H; [constructor|]. cbn. constructor.
  - apply IH. intros. apply H. by right.
  - apply Forall_forall. intros y Hy. apply elem_of_list_fmap in Hy as (z & -> & Hz).
    eapply Forall_forall in Hf; [|exact Hz]. unfold key_le in Hf.
    destruct (H x) as [E1 B1]; [by left|]. destruct (H z) as [E2 B2]; [by right|].
    rewrite E1, E2 in Hf. by apply sled_key_le in Hf.
Qed.

Lemma tree_values_spec t D : NoDup (b_id <$> D) -> (forall b, b ∈ D -> b_num b < 2 ^ 64) ->
  (forall kk b, t !! kk = Some b <-> b ∈ D /\ kk = sled_key b) ->
  tree_values t = merge_sort block_le D.
Proof.
  intros Hn Hsm Ht.
  assert (NoDup D) as HnD by (by apply NoDup_fmap_1 in Hn).
  assert (NoDup (((fun b => (sled_key b, b)) <$> D).*1)) as Hk.
  { rewrite <- list_fmap_compose. apply NoDup_fmap_2_strong; [|done].
    intros x y Hx Hy E. cbn in E. eapply nodup_id_inj; eauto. apply sled_key_inj'; auto. }
  assert (t = list_to_map ((fun b => (sled_key b, b)) <$> D)) as E.
  { apply map_eq. intros kk. apply option_eq. intros b. rewrite Ht.
    rewrite <- elem_of_list_to_map by exact Hk. rewrite elem_of_list_fmap. naive_solver. }
  assert ((map_to_list t).*2 ≡ₚ D) as Hp.
  { rewrite E, map_to_list_to_map by exact Hk. rewrite <- list_fmap_compose.
    cbn. rewrite list_fmap_id. done. }
  assert (tree_values t ≡ₚ D) as Hp2.
  { unfold tree_values. rewrite merge_sort_Permutation. done. }
  eapply ssorted_unique with (R := block_le).
  - unfold tree_values. apply key_sorted_block_sorted.
    + apply StronglySorted_merge_sort; apply _.
    + intros [kk b] Hx. rewrite merge_sort_Permutation in Hx.
      apply elem_of_map_to_list, Ht in Hx as [Hb ->]. split; [done|]. by apply Hsm.
  - apply StronglySorted_merge_sort; apply _.
  - rewrite Hp2. by rewrite merge_sort_Permutation.
  - intros x y Hx Hy. rewrite Hp2 in Hx, Hy. by eapply block_le_antisym.
Qed.

Lemma mv_load_ok bs : forall m L, mem_ok m L -> NoDup (b_id <$> (L.*2 ++ bs)) ->
  exists m' L', mv_load m bs = Done m' /\ mem_ok m' L' /\ L'.*2 = L.*2 ++ bs /\
    m_tree m' = m_tree m /\ m_from m' = m_from m.
Proof.
  induction bs as [|b bs IH]; intros m L M Hn.
  - exists m, L. rewrite app_nil_r. done.
  - destruct (mem_ok_insert m L b M) as (m1 & E & M1 & Et & Ef).
    { rewrite fmap_app in Hn. apply NoDup_app in Hn as (_ & H & _). intros Hh.
      eapply H; [exact Hh|]. cbn. by left. }
    destruct (IH m1 _ M1) as (m' & L' & E' & M' & EL & Et' & Ef').
    { rewrite (fmap_app snd), <- app_assoc. exact Hn. }
    exists m', L'. cbn [mv_load]. rewrite E, E'. split; [done|]. split; [done|].
    split; [|split; congruence]. rewrite EL, (fmap_app snd), <- app_assoc. done.
Qed.

Lemma rel_reopen m s f : rel m s ->
  exists m', mv_load_from (m_tree m) f = Done m' /\
    rel m' (Store (merge_sort block_le (s_disk s)) (s_disk s) f).
Proof.
  intros R. unfold mv_load_from.
  assert (tree_values (m_tree m) = merge_sort block_le (s_disk s)) as ->.
  { apply tree_values_spec; [apply R| |apply R]. intros b Hb. by apply R, R. }
  destruct (mv_load_ok (merge_sort block_le (s_disk s)) (mv_new_with (m_tree m) f) []
              (mem_ok_empty _ _)) as (m' & L & E & M & EL & Et & Ef).
  { cbn. rewrite merge_sort_Permutation. apply R. }
  exists m'. split; [done|]. split; cbn.
  - exists L. done.
  - done.
  - rewrite Et. apply R.
  - intros b. by rewrite merge_sort_Permutation.
  - apply R.
  - intros b. by rewrite merge_sort_Permutation.
  - intros b. rewrite merge_sort_Permutation. intros. by apply R, R.
Qed.

(** ** Whole histories *)
Lemma rel_empty f : rel (mv_new_with ∅ f) (empty_store f).
Proof.
  split; cbn.
  - exists []. split; [apply mem_ok_empty|done].
  - done.
  - intros kk b. rewrite lookup_empty. split; [done|]. intros [H _]. by apply elem_of_nil in H.
  - done.
  - constructor.
  - intros b H. by apply elem_of_nil in H.
  - intros b H. by apply elem_of_nil in H.
Qed.

Lemma rel_step m s o : rel m s ->
  (forall b, o = OInsert b -> b_num b < 2 ^ 64 /\
     forall b', b' ∈ s_blocks s -> b_id b' = b_id b -> b' = b) ->
  (forall k held, o = ORemove k held -> current_refs m held) ->
  exists m', mv_step m o = Done (m', (spec_step s o).2) /\ rel m' (spec_step s o).1.
Proof.
  intros R Hi Hr. destruct o as [b|k held| |f]; cbn [mv_step].
  - destruct (Hi b eq_refl) as [Hb Hs].
    destruct (rel_insert m s b R Hb Hs) as (m' & -> & R'). by exists m'.
  - pose proof (rel_remove m s k held R (Hr _ _ eq_refl)) as H. cbn [spec_step].
    destruct (lookup_block (s_blocks s) k) as [b|].
    + destruct H as (m' & -> & R'). by exists m'.
    + rewrite H. by exists m.
  - exists (mv_clear m). split; [done|]. destruct (r_mem _ _ R) as (L & M & _). split; cbn.
    + exists []. split; [by eapply mem_ok_clear|done].
    + apply R.
    + intros kk b. rewrite lookup_empty. split; [done|]. intros [H _]. by apply elem_of_nil in H.
    + done.
    + constructor.
    + intros b H. by apply elem_of_nil in H.
    + intros b H. by apply elem_of_nil in H.
  - destruct (rel_reopen m s f R) as (m' & -> & R'). by exists m'.
Qed.

Lemma spec_blocks_inserted s o : s_blocks (spec_step s o).1 ⊆
  s_blocks s ++ s_disk s ++ inserted [o].
Proof.
  destruct o as [b|k held| |f]; cbn.
  - intros x Hx. destruct (decide (has (s_blocks s) (b_id b))).
    + set_solver.
    + set_solver.
  - destruct (lookup_block (s_blocks s) k); cbn; [|set_solver].
    intros x Hx. apply elem_of_without in Hx as [Hx _]. set_solver.
  - set_solver.
  - intros x Hx. rewrite merge_sort_Permutation in Hx. set_solver.
Qed.

Lemma rel_run os : forall m s, rel m s ->
  (forall b1 b2, b1 ∈ s_blocks s ++ inserted os -> b2 ∈ s_blocks s ++ inserted os ->
     b_id b1 = b_id b2 -> b1 = b2) ->
  (forall b, b ∈ inserted os -> b_num b < 2 ^ 64) ->
  refs_current m os ->
  exists m', mv_run m os = Done (m', (spec_run s os).2) /\ rel m' (spec_run s os).1 /\
    forall b, b ∈ s_blocks (spec_run s os).1 -> b ∈ s_blocks s ++ inserted os.
Proof.
  induction os as [|o os IH]; intros m s R H1 H2 H3.
  - exists m. split; [done|]. split; [done|]. cbn. intros b Hb. by rewrite app_nil_r.
  - assert (inserted (o :: os) = inserted [o] ++ inserted os) as Ei.
    { unfold inserted. cbn. by destruct o. }
    rewrite Ei in H1, H2 |- *.
    destruct (rel_step m s o R) as (m1 & E & R1).
    { intros b ->. cbn in *. split; [apply H2; set_solver|].
      intros b' Hb' E. apply H1; set_solver. }
    { intros k held ->. eapply (H3 [] k held os m []); done. }
    destruct (spec_step s o) as [s1 r] eqn:Es. cbn [fst snd] in *.
    assert (s_blocks s1 ⊆ s_blocks s ++ inserted [o]) as Hsub.
    { pose proof (spec_blocks_inserted s o) as Hs. rewrite Es in Hs. cbn in Hs.
      intros x Hx. apply Hs in Hx. pose proof (r_disk _ _ R x). set_solver. }
    assert (forall x, x ∈ s_blocks s1 ++ inserted os ->
        x ∈ s_blocks s ++ inserted [o] ++ inserted os) as Hx.
      { intros x Hx. rewrite app_assoc. apply elem_of_app in Hx as [Hx|Hx];
          apply elem_of_app; [left; by apply Hsub|by right]. }
    destruct (IH m1 s1 R1) as (m' & E' & R' & Hin').
    { intros b1 b2 Hb1 Hb2. apply H1; auto. }
    { intros b Hb. apply H2, elem_of_app. by right. }
    { intros os1 k held os2 m' rs -> Hrun.
      eapply (H3 (o :: os1) k held os2 m' (r :: rs)); [done|]. cbn. by rewrite E, Hrun. }
    cbn [mv_run spec_run]. rewrite E, E', Es.
    destruct (spec_run s1 os) as [s2 rs]. exists m'. split; [done|]. split; [done|].
    cbn in *. intros b Hb. by apply Hx, Hin'.
Qed.

Lemma run_rel f os : one_block_per_id os -> refs_current (mv_new_with ∅ f) os ->
  exists m, mv_run (mv_new_with ∅ f) os = Done (m, (spec_run (empty_store f) os).2) /\
    rel m (spec_run (empty_store f) os).1.
Proof.
  intros [H1 H2] H3. destruct (rel_run os _ _ (rel_empty f) H1 H2 H3) as (m & ? & ? & _). eauto.
Qed.

Lemma run_inserted f os b : one_block_per_id os -> refs_current (mv_new_with ∅ f) os ->
  b ∈ s_blocks (spec_run (empty_store f) os).1 -> b ∈ inserted os.
Proof.
  intros [H1 H2] H3 Hb.
  destruct (rel_run os _ _ (rel_empty f) H1 H2 H3) as (m & ? & ? & Hin). by apply Hin in Hb.
Qed.

(** ** What the queries answer *)
Lemma rel_get m s k : rel m s -> mv_get m k = lookup_block (s_blocks s) k.
Proof. intros R. destruct (r_mem _ _ R) as (L & M & <-). by apply mo_lookup. Qed.

Lemma rel_contains m s k : rel m s -> mv_contains m k = true <-> has (s_blocks s) k.
Proof.
  intros R. destruct (r_mem _ _ R) as (L & M & <-). unfold mv_contains.
  rewrite bool_decide_eq_true. rewrite <- not_eq_None_Some, (mo_none _ _ _ M).
  split; [|naive_solver]. apply dec_stable.
Qed.

Lemma rel_dom m s : rel m s -> dom (m_all m) = list_to_set (b_id <$> s_blocks s).
Proof.
  intros R. apply set_eq. intros k. rewrite elem_of_dom, elem_of_list_to_set.
  rewrite <- (rel_contains m s k R). unfold mv_contains. by rewrite bool_decide_eq_true.
Qed.

Lemma rel_len m s : rel m s -> mv_len m = length (s_blocks s).
Proof.
  intros R. unfold mv_len. rewrite <- size_dom, (rel_dom _ _ R).
  rewrite size_list_to_set by by eapply rel_nodup. by rewrite fmap_length.
Qed.

Lemma rel_is_empty m s : rel m s -> mv_is_empty m = true <-> s_blocks s = [].
Proof.
  intros R. unfold mv_is_empty. rewrite bool_decide_eq_true.
  rewrite <- map_size_empty_iff. change (size (m_all m)) with (mv_len m).
  rewrite (rel_len _ _ R). apply nil_length_inv_iff || (split; [apply nil_length_inv|by intros ->]).
Qed.

Lemma sorted_split (L : ins) a1 b1 a2 b2 : StronglySorted lt L.*1 ->
  (a1, b1) ∈ L -> (a2, b2) ∈ L -> (a1 < a2)%nat ->
  exists L1 L2 L3, L = L1 ++ (a1, b1) :: L2 ++ (a2, b2) :: L3.
Proof.
  intros Hs H1 H2 Hl. apply elem_of_list_split in H1 as (L1 & L2 & ->).
  apply elem_of_app in H2 as [H2|H2].
  - exfalso. rewrite fmap_app in Hs. cbn in Hs.
    assert (a2 < a1)%nat; [|lia].
    eapply elem_of_StronglySorted_app; [exact Hs| |by left].
    apply elem_of_list_fmap. by exists (a2, b2).
  - apply elem_of_cons in H2 as [[= -> ->]|H2]; [lia|].
    apply elem_of_list_split in H2 as (L3 & L4 & ->). eauto.
Qed.

Lemma linkL_child (L : ins) p c : StronglySorted lt L.*1 -> NoDup (b_id <$> L.*2) ->
  p ∈ L.*2 -> c ∈ L.*2 ->
  linkL L (b_id p) (b_id c) <-> child_of L.*2 p c.
Proof.
  intros Hs Hn Hp Hc. unfold child_of. split.
  - intros (a1 & b1 & a2 & b2 & H1 & H2 & Hl & E1 & E2 & E3).
    assert (b1 = p) as ->.
    { eapply nodup_id_inj; eauto. apply elem_of_list_fmap. by exists (a1, b1). }
    assert (b2 = c) as ->.
    { eapply nodup_id_inj; eauto. apply elem_of_list_fmap. by exists (a2, b2). }
    split; [done|]. destruct (sorted_split L a1 p a2 c) as (L1 & L2 & L3 & ->); auto.
    exists L1.*2, L2.*2, L3.*2. rewrite fmap_app. cbn. by rewrite fmap_app.
  - intros (Hpar & S1 & S2 & S3 & E).
    apply fmap_app_inv in E as (L1 & L2 & E1 & E2 & ->).
    symmetry in E2. apply fmap_cons_inv in E2 as ([a1 b1] & L3 & E3 & E4 & ->).
    symmetry in E4. apply fmap_app_inv in E4 as (L4 & L5 & E5 & E6 & ->).
    symmetry in E6. apply fmap_cons_inv in E6 as ([a2 b2] & L6 & E7 & E8 & ->).
    cbn in E3, E7. subst b1 b2.
    exists a1, p, a2, c. split; [set_solver|]. split; [set_solver|]. split; [|done].
    rewrite fmap_app in Hs. apply StronglySorted_app_inv_r in Hs. cbn in Hs.
    apply StronglySorted_inv in Hs as [_ Hf]. eapply Forall_forall in Hf; [exact Hf|].
    apply elem_of_list_fmap. exists (a2, c). split; [done|]. set_solver.
Qed.

Lemma child_of_in S p c : child_of S p c -> p ∈ S /\ c ∈ S.
Proof. intros (_ & S1 & S2 & S3 & ->). set_solver. Qed.

Lemma mo_elem m L b : mem_ok m L -> b ∈ L.*2 -> exists a, (a, b) ∈ L.
Proof. intros _ H. apply elem_of_list_fmap in H as ([a b'] & -> & H). eauto. Qed.

Lemma rel_tips m s k : rel m s ->
  k ∈ mv_tips m <-> exists b, b ∈ s_blocks s /\ b_id b = k /\
    forall c, ~ child_of (s_blocks s) b c.
Proof.
  intros R. destruct (r_mem _ _ R) as (L & M & <-). unfold mv_tips.
  rewrite (mo_tips _ _ M). split.
  - intros (e & E & Hch). destruct (mo_all _ _ M _ _ E) as [Hin Hid].
    exists (e_value e). assert (e_value e ∈ L.*2) as Hb
      by (apply elem_of_list_fmap; by eexists (_, _)).
    split; [done|]. split; [done|]. intros c Hc.
    destruct (child_of_in _ _ _ Hc) as [_ Hcin].
    apply linkL_child in Hc; [|apply M|apply M|done|done].
    destruct (linkL_entry _ _ _ _ M Hc) as (pe & ce & E1 & _ & _ & _ & _ & Hm & _).
    rewrite Hid, E in E1. injection E1 as <-. set_solver.
  - intros (b & Hb & <- & Hno). destruct (mo_elem _ _ _ M Hb) as [a Ha].
    destruct (mo_in _ _ M _ _ Ha) as (pf & ch & E & Hch & _).
    exists (Entry a pf ch b). split; [done|]. cbn. apply set_eq. intros c.
    split; [|set_solver]. intros Hc. apply Hch in Hc. exfalso.
    pose proof Hc as Hc'. destruct Hc as (a1 & b1 & a2 & b2 & H1 & H2 & _ & _ & <- & _).
    assert (b2 ∈ L.*2) by (apply elem_of_list_fmap; by exists (a2, b2)).
    apply (Hno b2). apply linkL_child; [apply M|apply M|done|done|done].
Qed.

(** The block inserted last has no child, so it is a tip. *)
Lemma rel_has_tip m s : rel m s -> s_blocks s <> [] -> mv_tips m <> ∅.
Proof.
  intros R Hne. destruct (exists_last Hne) as (S & b & E).
  assert (b_id b ∈ mv_tips m); [|set_solver].
  apply (rel_tips _ _ _ R). exists b.
  split; [rewrite E; apply elem_of_app; right; by left|]. split; [done|].
  intros c (_ & S1 & S2 & S3 & E'). pose proof (rel_nodup _ _ R) as Hn.
  rewrite E' in E. assert (last (S1 ++ b :: S2 ++ c :: S3) = Some b) as Hl
    by (rewrite E; apply last_snoc).
  rewrite E' in Hn. rewrite fmap_app in Hn. apply NoDup_app in Hn as (_ & _ & Hn).
  cbn in Hn. apply NoDup_cons in Hn as [Hn _]. apply Hn.
  rewrite last_app_cons in Hl. cbn in Hl.
  assert (b ∈ S2 ++ c :: S3) as Hin.
  { destruct (S2 ++ c :: S3) as [|x l] eqn:Ex; [by destruct S2|].
    rewrite last_cons_cons in Hl. by apply last_Some_elem_of in Hl. }
  apply elem_of_list_fmap. eauto.
Qed.

(** ** Ancestors *)
Lemma rel_parent m s b : rel m s -> b ∈ s_blocks s ->
  exists e, m_all m !! b_id b = Some e /\ e_value e = b /\
  forall held, current_refs m held -> (forall k a, (k, a) ∈ held -> is_Some (m_all m !! k)) ->
  match mv_upgrade m held (e_parent e) with
  | Some (k, _) => exists p, child_of (s_blocks s) p b /\ b_id p = k
  | None => forall p, ~ child_of (s_blocks s) p b
  end.
Proof.
  intros R. destruct (r_mem _ _ R) as (L & M & <-). intros Hb.
  destruct (mo_elem _ _ _ M Hb) as [a Ha].
  destruct (mo_in _ _ M _ _ Ha) as (pf & ch & E & Hch & Hpf1 & Hpf2).
  exists (Entry a pf ch b). split; [done|]. split; [done|]. intros held Hh Hpres. cbn.
  destruct (mv_upgrade m held pf) as [[k x]|] eqn:Eup.
  - assert (pf = Some (k, x) /\ (e_arc <$> m_all m !! k = Some x)) as [-> Hal].
    { unfold mv_upgrade in Eup. destruct pf as [[p' x']|]; [|done].
      destruct (bool_decide (e_arc <$> m_all m !! p' = Some x')) eqn:D1.
      - cbn in Eup. injection Eup as -> ->. split; [done|]. by apply bool_decide_eq_true in D1.
      - destruct (bool_decide ((p', x') ∈ held)) eqn:D2; cbn in Eup; [|done].
        injection Eup as -> ->. split; [done|]. apply bool_decide_eq_true in D2.
        destruct (Hpres _ _ D2) as [pe Ep]. rewrite Ep. cbn. f_equal. by eapply Hh. }
    destruct (Hpf1 _ _ eq_refl) as [-> Hlt].
    destruct (m_all m !! b_parent b) as [pe|] eqn:Ep; [|done]. injection Hal as Hal.
    destruct (mo_all _ _ M _ _ Ep) as [Hpin Hpid].
    exists (e_value pe). split; [|done].
    assert (e_value pe ∈ L.*2) by (apply elem_of_list_fmap; by eexists (_, _)).
    apply linkL_child; [apply M|apply M|done|done|].
    exists (e_arc pe), (e_value pe), a, b. rewrite Hal, Hpid. rewrite Hal in Hpin. done.
  - intros p Hc. destruct (child_of_in _ _ _ Hc) as [Hp _].
    apply linkL_child in Hc; [|apply M|apply M|done|done].
    destruct (linkL_entry _ _ _ _ M Hc) as (pe & ce & E1 & E2 & E3 & _).
    rewrite E in E2. injection E2 as <-. cbn in E3. subst pf. cbn in Eup.
    rewrite E1 in Eup. cbn in Eup. rewrite bool_decide_true in Eup by done. done.
Qed.

Lemma child_of_unique S p p' c : NoDup (b_id <$> S) -> child_of S p c -> child_of S p' c -> p = p'.
Proof.
  intros Hn H1 H2. pose proof (child_of_in _ _ _ H1) as [Hp _].
  pose proof (child_of_in _ _ _ H2) as [Hp' _].
  destruct H1 as [E1 _], H2 as [E2 _]. eapply nodup_id_inj; eauto. congruence.
Qed.

Lemma rel_ancestor m s held n : rel m s -> current_refs m held ->
  (forall k a, (k, a) ∈ held -> is_Some (m_all m !! k)) ->
  forall b, b ∈ s_blocks s -> exists r, mv_ancestor m held (b_id b) n = Done r /\
    match r with
    | Some k => exists a, nth_ancestor (s_blocks s) n b a /\ b_id a = k
    | None => forall a, ~ nth_ancestor (s_blocks s) n b a
    end.
Proof.
  intros R Hh Hpres. induction n as [|n IH]; intros b Hb; cbn [mv_ancestor].
  - eexists. split; [done|]. exists b. split; [by constructor|done].
  - destruct (rel_parent m s b R Hb) as (e & E & _ & Hpar). specialize (Hpar held Hh Hpres).
    rewrite E. destruct (mv_upgrade m held (e_parent e)) as [[k x]|].
    + destruct Hpar as (p & Hc & <-). destruct (child_of_in _ _ _ Hc) as [Hp _].
      destruct (IH p Hp) as (r & -> & Hr). exists r. split; [done|].
      destruct r as [k|].
      * destruct Hr as (a & Ha & <-). exists a. split; [|done]. by eapply anc_parent.
      * intros a Ha. inversion Ha as [|? ? p' ? Hc' Ha']; subst.
        assert (p' = p) as -> by (eapply child_of_unique; eauto; by eapply rel_nodup).
        by eapply Hr.
    + eexists. split; [done|]. intros a Ha. inversion Ha as [|? ? p' ? Hc' Ha']; subst.
      by eapply Hpar.
Qed.
