(** * C67: what the block store is after a crash *)
From Coq Require Import Lia NArith List.
From stdpp Require Import prelude numbers gmap sorting list.
From Verif Require Import MultiverseModel MultiverseSpec MultiverseProofs
  MultiverseHistProofs MultiverseQueryProofs MultiverseProps MultiverseCrashModel.

Local Open Scope N_scope.

(** ** The writes are what the calls do to the tree *)
Lemma apply_writes_app t ws1 ws2 :
  apply_writes t (ws1 ++ ws2) = apply_writes (apply_writes t ws1) ws2.
Proof. apply foldl_app. Qed.

Lemma apply_dels ks : forall t kk, apply_writes t (WDel <$> ks) !! kk =
  if decide (kk ∈ ks) then None else t !! kk.
Proof.
  induction ks as [|k ks IH]; intros t kk; [done|]. cbn [fmap list_fmap apply_writes foldl].
  fold (apply_writes (apply_write t (WDel k)) (WDel <$> ks)). rewrite IH. cbn [apply_write].
  destruct (decide (kk ∈ ks)) as [H|H], (decide (kk ∈ k :: ks)) as [H'|H']; try done.
  - exfalso. apply H'. by right.
  - apply elem_of_cons in H' as [->|H']; [|done]. by rewrite lookup_delete.
  - rewrite lookup_delete_ne; [done|]. intros ->. apply H'. by left.
Qed.

Lemma insert_in_memory_tree m b m' : mv_insert_in_memory m b = Done m' -> m_tree m' = m_tree m.
Proof.
  unfold mv_insert_in_memory. destruct (m_all m !! b_parent b); [by intros [= <-]|].
  destruct (decide _); [done|]. by intros [= <-].
Qed.

Lemma load_tree bs : forall m m', mv_load m bs = Done m' -> m_tree m' = m_tree m.
Proof.
  induction bs as [|b bs IH]; intros m m'; cbn [mv_load]; [by intros [= <-]|].
  destruct (mv_insert_in_memory m b) as [m1| |] eqn:E; try done.
  intros H. rewrite (IH _ _ H). by eapply insert_in_memory_tree.
Qed.

Lemma unlink_tree m held p k m' : mv_unlink m held p k = Done m' -> m_tree m' = m_tree m.
Proof.
  unfold mv_unlink. destruct (mv_upgrade m held p) as [[q a]|]; [|by intros [= <-]].
  destruct (m_all m !! q); [|by intros [= <-]].
  destruct (decide _); [|done]. destruct (decide _); [|by intros [= <-]].
  destruct (decide _); [done|]. by intros [= <-].
Qed.

(** Every call changes the tree by its writes, whatever the state. *)
Theorem C67_call_writes m o m' r : mv_step m o = Done (m', r) ->
  m_tree m' = apply_writes (m_tree m) (call_writes m o).
Proof.
  destruct o as [b|k held| |f]; cbn [mv_step call_writes].
  - destruct (mv_insert m b) as [m1| |] eqn:E; try done. intros [= <- <-].
    unfold mv_insert, mv_db_insert in E. destruct (N.leb (m_from m) (b_num b)).
    + cbn [negb] in E. destruct (negb _ && _); [by injection E as <-|].
      apply insert_in_memory_tree in E. by rewrite E.
    + destruct (negb _ && _); [by injection E as <-|]. by apply insert_in_memory_tree in E.
  - pose proof (C28_remove_absent held m k) as Hab. unfold mv_get in Hab.
    destruct (mv_remove held m k) as [[m1 b1]| |] eqn:Erm; [| |done].
    2: { intros [= <- <-]. destruct Hab as [_ Hab]. specialize (Hab eq_refl).
      by destruct (m_all m !! k). }
    clear Hab. intros [= <- <-]. revert Erm.
    unfold mv_remove. destruct (m_all m !! k) as [e|]; [|done].
    match goal with |- match ?x with _ => _ end = _ -> _ =>
      destruct x as [m2| |] eqn:E2; try done end.
    destruct (mv_unlink m2 held (e_parent e) k) as [m3| |] eqn:E3; try done.
    intros [= <- <-]. cbn. apply unlink_tree in E3. rewrite E3.
    destruct (decide (k ∈ m_roots m)).
    + destruct (decide _); [|done]. by injection E2 as <-.
    + by injection E2 as <-.
  - intros [= <- <-]. cbn. apply map_eq. intros kk. rewrite lookup_empty, apply_dels.
    destruct (decide _) as [|H]; [done|]. destruct (m_tree m !! kk) as [b|] eqn:E; [|done].
    exfalso. apply H. apply elem_of_list_fmap. exists (kk, b). split; [done|].
    rewrite merge_sort_Permutation. by apply elem_of_map_to_list.
  - unfold mv_load_from. destruct (mv_load _ _) as [m1| |] eqn:E; try done. intros [= <- <-].
    by apply load_tree in E.
Qed.

(** Removing stored blocks one after the other. *)
Definition removals (ks : list bytes) : list mv_op := (fun k => ORemove k []) <$> ks.

Lemma removals_run bs : forall m s, rel m s -> (forall b, b ∈ bs -> b ∈ s_blocks s) ->
  NoDup (b_id <$> bs) ->
  exists m' rs, mv_run m (removals (b_id <$> bs)) = Done (m', rs) /\
    m_tree m' = apply_writes (m_tree m) (WDel <$> (sled_key <$> bs)).
Proof.
  induction bs as [|b bs IH]; intros m s R Hb Hn.
  - by exists m, [].
  - apply NoDup_cons in Hn as [Hni Hn].
    assert (current_refs m []) as Hc by by intros ? ? ? ?%elem_of_nil.
    assert (b ∈ s_blocks s) as Hbs by (apply Hb; by left).
    pose proof (rel_remove m s (b_id b) [] R Hc) as H.
    assert (lookup_block (s_blocks s) (b_id b) = Some b) as El.
    { apply lookup_block_some; [by eapply rel_nodup|done]. }
    rewrite El in H. destruct H as (m1 & E & R1).
    assert (mv_step m (ORemove (b_id b) []) = Done (m1, RBlock b)) as Es by (cbn; by rewrite E).
    destruct (IH m1 _ R1) as (m' & rs & Er & Et).
    { intros x Hx. cbn. apply elem_of_without. split; [apply Hb; by right|].
      intros Ex. apply Hni. rewrite <- Ex. apply elem_of_list_fmap. by exists x. }
    { done. }
    exists m', (RBlock b :: rs). split.
    + cbn [fmap list_fmap removals mv_run]. fold (removals (b_id <$> bs)). by rewrite Es, Er.
    + rewrite Et. cbn [fmap list_fmap]. rewrite (C67_call_writes _ _ _ _ Es). cbn [call_writes].
      pose proof (rel_get m s (b_id b) R) as Hg. rewrite El in Hg. unfold mv_get in Hg.
      destruct (m_all m !! b_id b) as [e|]; [|done]. injection Hg as ->. done.
Qed.

Lemma run_app os1 : forall m os2 m1 rs1, mv_run m os1 = Done (m1, rs1) ->
  mv_run m (os1 ++ os2) = match mv_run m1 os2 with
    | Done (m2, rs2) => Done (m2, rs1 ++ rs2) | NotFound => NotFound | Panic => Panic end.
Proof.
  induction os1 as [|o os1 IH]; intros m os2 m1 rs1 E; cbn [mv_run app] in *.
  - injection E as <- <-. destruct (mv_run m os2) as [[]| |]; done.
  - destruct (mv_step m o) as [[m' r]| |]; try done.
    destruct (mv_run m' os1) as [[m'' rs]| |] eqn:E'; try done. injection E as <- <-.
    rewrite (IH _ os2 _ _ E'). by destruct (mv_run m'' os2) as [[]| |].
Qed.

Lemma crash_run os : forall m s n, rel m s ->
  (forall b1 b2, b1 ∈ s_blocks s ++ inserted os -> b2 ∈ s_blocks s ++ inserted os ->
     b_id b1 = b_id b2 -> b1 = b2) ->
  (forall b, b ∈ inserted os -> b_num b < 2 ^ 64) ->
  refs_current m os ->
  exists os1 os2 ks m' rs, os = os1 ++ os2 /\
    (ks = [] \/ exists os3, os2 = OClear :: os3) /\
    mv_run m (os1 ++ removals ks) = Done (m', rs) /\
    m_tree m' = apply_writes (m_tree m) (take n (writes m os)).
Proof.
  induction os as [|o os IH]; intros m s n R H1 H2 H3.
  - exists [], [], [], m, []. cbn. rewrite take_nil. split; [done|]. split; [by left|done].
  - destruct (decide (n < length (call_writes m o))%nat) as [Hn|Hn].
    + exists [], (o :: os). cbn [writes]. rewrite take_app_le by lia. cbn [app].
      destruct o as [b|k held| |f]; cbn [call_writes] in *.
      * exists [], m, []. split; [done|]. split; [by left|]. split; [done|].
        destruct (N.leb _ _); [|cbn in Hn; lia]. by destruct n; [|cbn in Hn; lia].
      * exists [], m, []. split; [done|]. split; [by left|]. split; [done|].
        destruct (m_all m !! k); [|cbn in Hn; lia]. by destruct n; [|cbn in Hn; lia].
      * set (l := merge_sort key_le (map_to_list (m_tree m))) in *.
        assert (forall kk b, (kk, b) ∈ l -> b ∈ s_disk s /\ kk = sled_key b) as Hl.
        { intros kk b Hin. subst l. rewrite merge_sort_Permutation in Hin.
          by apply elem_of_map_to_list, (r_tree _ _ R) in Hin. }
        assert (NoDup l.*1) as Hk.
        { subst l. rewrite merge_sort_Permutation. apply NoDup_fst_map_to_list. }
        destruct (removals_run (take n l.*2) m s R) as (m' & rs & E & Et).
        { intros b Hb.
          assert (b ∈ l.*2) as Hb' by (rewrite <- (take_drop n l.*2); apply elem_of_app; by left).
          apply elem_of_list_fmap in Hb' as ([kk b'] & -> & Hin). by apply R, (Hl kk). }
        { assert (NoDup (b_id <$> l.*2)) as Hd.
          { rewrite <- list_fmap_compose. apply NoDup_fmap_2_strong.
            - intros [k1 b1] [k2 b2] Hx Hy Ex. cbn in Ex. destruct (Hl _ _ Hx) as [Hb1 ->].
              destruct (Hl _ _ Hy) as [Hb2 ->].
              assert (b1 = b2) as -> by (eapply nodup_id_inj; eauto; apply R). done.
            - by eapply NoDup_fmap_1. }
          rewrite <- (take_drop n l.*2), fmap_app in Hd. by apply NoDup_app in Hd as [? _]. }
        exists (b_id <$> take n l.*2), m', rs. split; [done|]. split; [right; by exists os|].
        split; [done|]. rewrite Et.
        assert (take n l.*1 = sled_key <$> take n l.*2) as Ek.
        { rewrite <- !fmap_take, <- list_fmap_compose. apply list_fmap_ext.
          intros i [kk b] Hi. cbn. apply Hl. apply elem_of_list_lookup_2 in Hi.
          rewrite <- (take_drop n l). apply elem_of_app. by left. }
        rewrite <- Ek. f_equal. apply fmap_take.
      * cbn in Hn. lia.
    + assert (inserted (o :: os) = inserted [o] ++ inserted os) as Ei.
      { unfold inserted. cbn. by destruct o. }
      rewrite Ei in H1, H2.
      destruct (rel_step m s o R) as (m1 & E & R1).
      { intros b ->. cbn in *. split; [apply H2; set_solver|].
        intros b' Hb' Eb. apply H1; set_solver. }
      { intros k held ->. eapply (H3 [] k held os m []); done. }
      destruct (spec_step s o) as [s1 r] eqn:Es. cbn [fst snd] in *.
      assert (s_blocks s1 ⊆ s_blocks s ++ inserted [o]) as Hsub.
      { pose proof (spec_blocks_inserted s o) as Hs. rewrite Es in Hs. cbn in Hs.
        intros x Hx. apply Hs in Hx. pose proof (r_disk _ _ R x). set_solver. }
      assert (forall x, x ∈ s_blocks s1 ++ inserted os ->
          x ∈ s_blocks s ++ inserted [o] ++ inserted os) as Hx.
      { intros x Hx. rewrite app_assoc. apply elem_of_app in Hx as [Hx|Hx];
          apply elem_of_app; [left; by apply Hsub|by right]. }
      destruct (IH m1 s1 (n - length (call_writes m o))%nat R1)
        as (os1 & os2 & ks & m' & rs & Eo & Hc & Er & Et).
      { intros b1 b2 Hb1 Hb2. apply H1; auto. }
      { intros b Hb. apply H2, elem_of_app. by right. }
      { intros os1 k held os2 m' rs -> Hrun.
        eapply (H3 (o :: os1) k held os2 m' (r :: rs)); [done|]. cbn. by rewrite E, Hrun. }
      exists (o :: os1), os2, ks, m', (r :: rs). split; [by rewrite Eo|]. split; [done|]. split.
      * cbn [app mv_run]. by rewrite E, Er.
      * rewrite Et. cbn [writes]. rewrite E, take_app_ge by lia.
        rewrite apply_writes_app. by rewrite (C67_call_writes _ _ _ _ E).
Qed.

(** ** C67 *)
(** After a crash at any point of any history, the store opens, and it is the store that a
    history without a crash leaves on the disk: the calls up to some point, and, if the next
    call was a [clear], the removal of some blocks.  So all that C28-C33 state about
    histories holds for the store after the crash. *)
Theorem C67_crash f os t g : one_block_per_id os -> refs_current (mv_new_with ∅ f) os ->
  crash_leaves f os t ->
  exists os1 os2 ks m m', os = os1 ++ os2 /\ (ks = [] \/ exists os3, os2 = OClear :: os3) /\
    one_block_per_id (os1 ++ removals ks) /\
    refs_current (mv_new_with ∅ f) (os1 ++ removals ks) /\
    after f (os1 ++ removals ks) m /\ m_tree m = t /\ mv_load_from t g = Done m' /\
    (forall k, mv_get m' k =
       lookup_block (s_disk (spec_run (empty_store f) (os1 ++ removals ks)).1) k).
Proof.
  intros [H1 H2] H3 [n ->].
  destruct (crash_run os _ _ n (rel_empty f) H1 H2 H3) as (os1 & os2 & ks & m & rs & E & Hc & Er & Et).
  exists os1, os2, ks, m.
  assert (inserted (os1 ++ removals ks) = inserted os1) as Ei.
  { unfold inserted. rewrite omap_app. unfold removals.
    assert (forall l, omap (fun o => match o with OInsert b => Some b | _ => None end)
      ((fun k => ORemove k []) <$> l) = ([] : list block)) as ->.
    { intros l. induction l; done. } by rewrite app_nil_r. }
  assert (inserted os1 ⊆ inserted os) as Hsub.
  { rewrite E. unfold inserted. rewrite omap_app. intros x Hx. apply elem_of_app. by left. }
  assert (one_block_per_id (os1 ++ removals ks)) as G1.
  { split; rewrite Ei; [intros b1 b2 Hb1 Hb2; apply H1; by apply Hsub|].
    intros b Hb. by apply H2, Hsub. }
  assert (refs_current (mv_new_with ∅ f) (os1 ++ removals ks)) as G2.
  { intros p1 k held p2 m0 rs0 Ep Hrun k0 a0 e0 Hin Hl.
    destruct held as [|h held]; [by apply elem_of_nil in Hin|].
    assert (exists q, os1 = p1 ++ ORemove k (h :: held) :: q) as [q Eq].
    { clear -Ep. revert p1 Ep. induction os1 as [|o os1 IH]; intros p1 Ep; cbn in Ep.
      - exfalso. assert (ORemove k (h :: held) ∈ removals ks) as Hin
          by (rewrite Ep; apply elem_of_app; right; by left).
        apply elem_of_list_fmap in Hin as (? & ? & _). done.
      - destruct p1 as [|o' p1]; cbn in Ep; injection Ep as -> Ep; [by exists os1|].
        destruct (IH _ Ep) as [q ->]. by exists q. }
    eapply (H3 p1 k (h :: held) (q ++ os2)); [by rewrite E, Eq, <- app_assoc|done|done|done]. }
  assert (after f (os1 ++ removals ks) m) as G3 by by exists rs.
  destruct (C32_reopen f g _ m G1 G2 G3) as (m' & El & Hg & _).
  exists m'. split; [done|]. split; [done|]. do 3 (split; [done|]). cbn in Et. rewrite <- Et.
  done.
Qed.

(** Every state a call can be interrupted at is one of those: the clean state after any
    part of the history is among them. *)
Theorem C67_no_loss_possible f os m rs os1 os2 : os = os1 ++ os2 ->
  mv_run (mv_new_with ∅ f) os1 = Done (m, rs) -> crash_leaves f os (m_tree m).
Proof.
  intros -> E. exists (length (writes (mv_new_with ∅ f) os1)).
  assert (forall m0 m1 rs1, mv_run m0 os1 = Done (m1, rs1) ->
    m_tree m1 = apply_writes (m_tree m0) (take (length (writes m0 os1)) (writes m0 (os1 ++ os2)))) as H.
  { clear. induction os1 as [|o os1 IH]; intros m0 m1 rs1 E; cbn [mv_run] in E.
    - injection E as <- <-. done.
    - cbn [writes app]. destruct (mv_step m0 o) as [[m' r]| |] eqn:Es; try done.
      destruct (mv_run m' os1) as [[m'' rs]| |] eqn:Er; try done. injection E as <- <-.
      rewrite app_length, take_app_ge, apply_writes_app by lia.
      replace (length (call_writes m0 o) + length (writes m' os1) - length (call_writes m0 o))%nat
        with (length (writes m' os1)) by lia. rewrite (IH _ _ _ Er).
      by rewrite (C67_call_writes _ _ _ _ Es). }
  by rewrite (H _ _ _ E).
Qed.

(** A crash in the middle of a [clear] leaves blocks of the store, and none that is below a
    block that is gone: the lowest go first. *)
Theorem C67_half_clear f os m n k1 b1 k2 b2 : one_block_per_id os ->
  refs_current (mv_new_with ∅ f) os -> after f os m ->
  let t := apply_writes (m_tree m) (take n (call_writes m OClear)) in
  m_tree m !! k1 = Some b1 -> t !! k1 = None -> t !! k2 = Some b2 ->
  m_tree m !! k2 = Some b2 /\ b_num b1 <= b_num b2.
Proof.
  intros H1 H2 H3 t E1 E2 E3. pose proof (after_rel _ _ _ H1 H2 H3) as R. subst t.
  cbn [call_writes] in E2, E3. rewrite <- fmap_take, apply_dels in E2, E3.
  set (l := merge_sort key_le (map_to_list (m_tree m))) in *.
  destruct (decide (k2 ∈ take n l.*1)) as [|Hk2]; [done|]. split; [done|].
  destruct (decide (k1 ∈ take n l.*1)) as [Hk1|]; [|congruence].
  assert (tree_values (m_tree m) = merge_sort block_le (s_disk (spec_run (empty_store f) os).1)) as Ev.
  { apply tree_values_spec; [apply R| |apply R]. intros b Hb. by apply R, R. }
  assert (l.*2 = merge_sort block_le (s_disk (spec_run (empty_store f) os).1)) as El by exact Ev.
  assert (forall k b, m_tree m !! k = Some b -> (k, b) ∈ l) as Hl.
  { intros k b E. subst l. rewrite merge_sort_Permutation. by apply elem_of_map_to_list. }
  assert (forall k b, (k, b) ∈ l -> m_tree m !! k = Some b) as Hl'.
  { intros k b E. subst l. rewrite merge_sort_Permutation in E. by apply elem_of_map_to_list in E. }
  assert ((k1, b1) ∈ take n l) as G1.
  { rewrite <- fmap_take in Hk1. apply elem_of_list_fmap in Hk1 as ([k b] & -> & Hin).
    assert ((k, b) ∈ l) as Hin' by (rewrite <- (take_drop n l); apply elem_of_app; by left).
    apply Hl' in Hin'. cbn in E1. rewrite Hin' in E1. injection E1 as ->. done. }
  assert ((k2, b2) ∈ drop n l) as G2.
  { pose proof (Hl _ _ E3) as Hin. rewrite <- (take_drop n l) in Hin.
    apply elem_of_app in Hin as [Hin|Hin]; [|done]. exfalso. apply Hk2.
    rewrite <- fmap_take. apply elem_of_list_fmap. by exists (k2, b2). }
  assert (Sorted block_le l.*2) as Hs.
  { rewrite El. apply Sorted_merge_sort. intros x y. unfold block_le, total.
    destruct (N.lt_trichotomy (b_num x) (b_num y)) as [?|[?|?]]; [by left; left| |by right; left].
    unfold bytes_le. destruct (bytes_cmp (b_id x) (b_id y)) eqn:Ec.
    - left. by right.
    - left. by right.
    - right. right. split; [done|]. by rewrite (bytes_cmp_antisym (b_id x)), Ec. }
  assert (Sorted (fun x y => b_num x <= b_num y) l.*2) as Hs'.
  { clear -Hs. induction Hs as [|x l' Hs IH Hd]; constructor; [done|].
    destruct Hd as [|y l'' Hle]; constructor. unfold block_le in Hle. lia. }
  apply Sorted_StronglySorted in Hs'; [|intros x y z; lia].
  rewrite <- (take_drop n l), fmap_app in Hs'.
  assert (b1 ∈ (take n l).*2) as B1 by (apply elem_of_list_fmap; by exists (k1, b1)).
  assert (b2 ∈ (drop n l).*2) as B2 by (apply elem_of_list_fmap; by exists (k2, b2)).
  clear -Hs' B1 B2. induction ((take n l).*2) as [|x q IH]; [by apply elem_of_nil in B1|].
  cbn in Hs'. apply StronglySorted_inv in Hs' as [Hs' Hf].
  apply elem_of_cons in B1 as [->|B1]; [|auto].
  rewrite Forall_forall in Hf. apply Hf. apply elem_of_app. by right.
Qed.

(** Neither is a call atomic nor does its success mean that it lasts. *)
Definition cr_a : block := Block [10] [9] 5 0.
Definition cr_b : block := Block [11] [10] 6 0.

Theorem C67_half_clear_refuted : exists os t m k, crash_leaves 0 os t /\
  last os = Some OClear /\ mv_load_from t 0 = Done m /\
  mv_get m k = Some cr_b /\ mv_get m (b_parent cr_b) = None.
Proof.
  set (os := [OInsert cr_a; OInsert cr_b; OClear]).
  exists os. set (t := apply_writes ∅ (take 3 (writes (mv_new_with ∅ 0) os))).
  exists t. destruct (mv_load_from t 0) as [m| |] eqn:E; [|exfalso; by vm_compute in E..].
  exists m, [11]. split; [by exists 3%nat|]. split; [done|]. split; [done|].
  assert (match mv_load_from t 0 with
    | Done m => mv_get m [11] = Some cr_b /\ mv_get m (b_parent cr_b) = None
    | _ => True end) as H by (by vm_compute). by rewrite E in H.
Qed.

Theorem C67_acknowledged_refuted : exists os t m, after 0 os m /\
  mv_get m (b_id cr_a) = Some cr_a /\ crash_leaves 0 os t /\
  match mv_load_from t 0 with Done m' => mv_get m' (b_id cr_a) = None | _ => False end.
Proof.
  exists [OInsert cr_a], ∅.
  destruct (mv_run (mv_new_with ∅ 0) [OInsert cr_a]) as [[m rs]| |] eqn:E; [|exfalso; by vm_compute in E..].
  exists m. split; [by exists rs|]. split.
  - assert (match mv_run (mv_new_with ∅ 0) [OInsert cr_a] with
      | Done (m, _) => mv_get m (b_id cr_a) = Some cr_a | _ => True end) as H by (by vm_compute).
    by rewrite E in H.
  - split; [by exists 0%nat|]. by vm_compute.
Qed.

(** ** A case: two blocks, the removal of one, a third block, a clear; every crash point *)
Definition cr_c : block := Block [12] [11] 7 0.
Definition cr_os : list mv_op :=
  [OInsert cr_a; OInsert cr_b; ORemove [10] []; OInsert cr_c; OClear].

Example C67_case : one_block_per_id cr_os /\ refs_current (mv_new_with ∅ 0) cr_os /\
  length (writes (mv_new_with ∅ 0) cr_os) = 6%nat /\
  (fun n => tree_values (apply_writes ∅ (take n (writes (mv_new_with ∅ 0) cr_os)))) <$> seq 0 7 =
  [[]; [cr_a]; [cr_a; cr_b]; [cr_b]; [cr_b; cr_c]; [cr_c]; []].
Proof.
  split; [|split; [|split; by vm_compute]].
  - split.
    + intros b1 b2 Hb1 Hb2. cbn in Hb1, Hb2.
      repeat match goal with
      | H : _ ∈ _ :: _ |- _ => apply elem_of_cons in H as [->|H]
      | H : _ ∈ [] |- _ => by apply elem_of_nil in H
      end; done.
    + intros b Hb. cbn in Hb.
      repeat match goal with
      | H : _ ∈ _ :: _ |- _ => apply elem_of_cons in H as [->|H]
      | H : _ ∈ [] |- _ => by apply elem_of_nil in H
      end; done.
  - intros os1 k held os2 m rs E _ k' a e Hin.
    assert (ORemove k held ∈ cr_os) as Hk by (rewrite E; apply elem_of_app; right; by left).
    unfold cr_os in Hk. repeat (apply elem_of_cons in Hk as [Hk|Hk]; [try done|]);
      [|by apply elem_of_nil in Hk]. injection Hk as -> ->. by apply elem_of_nil in Hin.
Qed.

Definition all_MultiverseCrashProps := (@C67_call_writes, @C67_crash, @C67_no_loss_possible,
  @C67_half_clear, @C67_half_clear_refuted, @C67_acknowledged_refuted, @C67_case).
Print Assumptions all_MultiverseCrashProps.
