(** * Properties C27-C33 of the block store (multiverse crate) *)
From Coq Require Import Lia NArith List.
From stdpp Require Import prelude numbers list gmap sorting.
From Verif Require Import MultiverseModel MultiverseSpec MultiverseProofs
  MultiverseHistProofs MultiverseQueryProofs.

Local Open Scope N_scope.

(** A history that keeps no reference across its removals. *)
Definition no_refs (os : list mv_op) : Prop := forall k h, ORemove k h ∈ os -> h = [].

Lemma no_refs_current m os : no_refs os -> refs_current m os.
Proof.
  intros H os1 k held os2 m' rs -> _ k' a e Hin. rewrite (H k held) in Hin.
  - by apply elem_of_nil in Hin.
  - apply elem_of_app. right. by left.
Qed.

(** The store after a history on a fresh database, and the specified blocks. *)
Definition after (f : N) (os : list mv_op) (m : mv) : Prop :=
  exists rs, mv_run (mv_new_with ∅ f) os = Done (m, rs).

Definition blocks_after (f : N) (os : list mv_op) : list block :=
  s_blocks (spec_run (empty_store f) os).1.

Lemma after_rel f os m : one_block_per_id os -> refs_current (mv_new_with ∅ f) os ->
  after f os m -> rel m (spec_run (empty_store f) os).1.
Proof.
  intros H1 H2 [rs E]. destruct (run_rel f os H1 H2) as (m' & E' & R).
  rewrite E in E'. injection E' as -> _. done.
Qed.

(** Evaluating an observation of a concrete history. *)
Lemma run_obs {A} f os (P : mv -> A) x :
  match mv_run (mv_new_with ∅ f) os with Done (m, _) => Some (P m) | _ => None end = Some x ->
  exists m, after f os m /\ P m = x.
Proof.
  unfold after. destruct (mv_run _ os) as [[m rs]| |]; try discriminate. intros H.
  exists m. split; [by exists rs|]. congruence.
Qed.

(** ** C27 *)
Theorem C27_order n n' k k' : n < 2 ^ 64 -> n' < 2 ^ 64 ->
  bytes_cmp (mk_sled_key n k) (mk_sled_key n' k') =
    match N.compare n n' with Eq => bytes_cmp k k' | c => c end.
Proof. apply sled_key_cmp. Qed.

Theorem C27_injective n n' k k' : n < 2 ^ 64 -> n' < 2 ^ 64 ->
  mk_sled_key n k = mk_sled_key n' k' -> n = n' /\ k = k'.
Proof. apply sled_key_inj. Qed.

(** The byte order is a total order, so the iteration order of the tree is determined. *)
Theorem C27_total_order :
  (forall x, bytes_le x x) /\ (forall x y z, bytes_le x y -> bytes_le y z -> bytes_le x z) /\
  (forall x y, bytes_le x y -> bytes_le y x -> x = y) /\
  (forall x y, bytes_le x y \/ bytes_le y x).
Proof.
  split; [intros x; unfold bytes_le; by rewrite bytes_cmp_refl|].
  split; [apply bytes_le_trans|]. split; [apply bytes_le_antisym|apply bytes_le_total].
Qed.

Example C27_case :
  bytes_cmp (mk_sled_key 255 [9; 9]) (mk_sled_key 256 [1]) = Lt /\
  bytes_cmp (mk_sled_key 256 [1]) (mk_sled_key 256 [1; 0]) = Lt.
Proof. done. Qed.

(** ** C28 *)
(** No history panics, and every call answers what the list of blocks says. *)
Theorem C28_any_history f os : one_block_per_id os -> refs_current (mv_new_with ∅ f) os ->
  exists m, mv_run (mv_new_with ∅ f) os = Done (m, (spec_run (empty_store f) os).2).
Proof. intros H1 H2. destruct (run_rel f os H1 H2) as (m & E & _). eauto. Qed.

Theorem C28_queries f os m k : one_block_per_id os -> refs_current (mv_new_with ∅ f) os ->
  after f os m ->
  mv_get m k = lookup_block (blocks_after f os) k /\
  (mv_contains m k = true <-> has (blocks_after f os) k) /\
  mv_len m = length (blocks_after f os) /\
  (mv_is_empty m = true <-> blocks_after f os = []).
Proof.
  intros H1 H2 H3. pose proof (after_rel _ _ _ H1 H2 H3) as R. unfold blocks_after.
  split; [by apply rel_get|]. split; [by apply rel_contains|].
  split; [by apply rel_len|by apply rel_is_empty].
Qed.

(** The blocks of the list are those inserted and not removed or cleared since. *)
Definition live (os : list mv_op) (b : block) : Prop :=
  exists os1 os2, os = os1 ++ OInsert b :: os2 /\
    (forall k h, ORemove k h ∈ os2 -> k <> b_id b) /\ OClear ∉ os2.

Lemma spec_run_snoc os : forall s o,
  (spec_run s (os ++ [o])).1 = (spec_step (spec_run s os).1 o).1.
Proof.
  induction os as [|x os IH]; intros s o; cbn.
  - by destruct (spec_step s o).
  - destruct (spec_step s x) as [s1 r]. specialize (IH s1 o).
    destruct (spec_run s1 (os ++ [o])), (spec_run s1 os). done.
Qed.

Lemma live_snoc os o b : live (os ++ [o]) b <->
  o = OInsert b \/ (live os b /\ (forall h, o <> ORemove (b_id b) h) /\ o <> OClear).
Proof.
  split.
  - intros (os1 & os2 & E & H1 & H2). destruct (decide (os2 = [])) as [->|Hne].
    + apply app_inj_tail in E as [_ ->]. by left.
    + destruct (exists_last Hne) as (os3 & x & ->). right.
      rewrite app_comm_cons, app_assoc in E. apply app_inj_tail in E as [-> ->].
      split; [|split].
      * exists os1, os3. split; [done|]. split.
        -- intros k h Hk. eapply H1. apply elem_of_app. by left.
        -- intros Hc. apply H2, elem_of_app. by left.
      * intros h ->. eapply H1; [|done]. apply elem_of_app. right. by left.
      * intros ->. apply H2, elem_of_app. right. by left.
  - intros [->|((os1 & os2 & -> & H1 & H2) & H3 & H4)].
    + exists os, []. split; [done|]. split; [intros k h H|intros H]; by apply elem_of_nil in H.
    + exists os1, (os2 ++ [o]). split; [by rewrite <- app_assoc|]. split.
      * intros k h Hk. apply elem_of_app in Hk as [Hk|Hk]; [by eapply H1|].
        apply elem_of_list_singleton in Hk as <-. intros ->. by eapply H3.
      * rewrite elem_of_app, elem_of_list_singleton. naive_solver.
Qed.

Theorem C28_contents f os m b : one_block_per_id os -> refs_current (mv_new_with ∅ f) os ->
  (forall g, OReopen g ∉ os) -> after f os m ->
  mv_get m (b_id b) = Some b <-> live os b.
Proof.
  intros H1 H2 H3 H4. pose proof (after_rel _ _ _ H1 H2 H4) as R.
  rewrite (rel_get _ _ _ R), (lookup_block_some _ _ _ (rel_nodup _ _ R)).
  assert (forall os', (exists os'', os = os' ++ os'') ->
    forall b, b ∈ s_blocks (spec_run (empty_store f) os').1 <-> live os' b) as H.
  2: { rewrite (H os) by (exists []; by rewrite app_nil_r). naive_solver. }
  clear m H4 R b. intros os'. induction os' as [|o os' IH] using rev_ind; intros [os'' E] b.
  { cbn. split; [intros H; by apply elem_of_nil in H|].
    intros (os1 & os2 & H & _). by destruct os1. }
  rewrite live_snoc, spec_run_snoc.
  assert (forall b, b ∈ s_blocks (spec_run (empty_store f) os').1 <-> live os' b) as IH'.
  { apply IH. exists (o :: os''). by rewrite E, <- app_assoc. }
  clear IH. set (s := (spec_run (empty_store f) os').1) in *.
  assert (forall x, live os' x -> x ∈ inserted os) as Hins.
  { intros x (os1 & os2 & E' & _). rewrite E, E'. unfold inserted. apply elem_of_list_omap.
    exists (OInsert x). split; [|done]. rewrite !elem_of_app. left. left. right. by left. }
  destruct o as [x|k h| |g]; cbn [spec_step fst s_blocks].
  - assert (x ∈ inserted os) as Hx.
    { rewrite E. unfold inserted. apply elem_of_list_omap. exists (OInsert x).
      split; [|done]. rewrite !elem_of_app. left. right. by left. }
    destruct (decide (has (s_blocks s) (b_id x))) as [Hh|Hh].
    + rewrite IH'. split; [intros H; right; split; [done|done]|].
      intros [[= <-]|[H _]]; [|done]. apply has_elem in Hh as (y & Hy & Hid).
      apply IH' in Hy. assert (y = x) as <-; [|done]. apply H1; auto.
    + rewrite elem_of_app, elem_of_list_singleton, IH'. split.
      * intros [H| -> ]; [right; split; [done|done]|by left].
      * intros [[= <-]|[H _]]; auto.
  - destruct (lookup_block (s_blocks s) k) as [y|] eqn:Ek; cbn [fst s_blocks].
    + rewrite elem_of_without, IH'. split.
      * intros [H Hne]. right. split; [done|]. split; [|done]. intros h' [= -> ->]. done.
      * intros [?|(H & Hne & _)]; [done|]. split; [done|]. intros <-. by eapply Hne.
    + apply lookup_block_none in Ek. rewrite IH'. split.
      * intros H. right. split; [done|]. split; [|done]. intros h' [= -> ->]. apply Ek, has_elem.
        exists b. split; [by apply IH'|done].
      * intros [?|(H & _)]; done.
  - split; [intros H; by apply elem_of_nil in H|]. intros [?|(_ & _ & ?)]; done.
  - exfalso. apply (H3 g). rewrite E, !elem_of_app. left. right. by left.
Qed.

(** Inserting a stored block again changes nothing at all. *)
Theorem C28_reinsert f os m b : one_block_per_id (os ++ [OInsert b]) ->
  refs_current (mv_new_with ∅ f) os -> after f os m ->
  mv_get m (b_id b) <> None -> mv_insert m b = Done m.
Proof.
  intros [H1 H1'] H2 H3 Hg. assert (one_block_per_id os) as Ho.
  { unfold inserted in *. split; [intros; apply H1|intros; apply H1'; rewrite omap_app, elem_of_app; by left];
      rewrite ?omap_app, ?elem_of_app; try by left. done. }
  pose proof (after_rel _ _ _ Ho H2 H3) as R.
  rewrite (rel_get _ _ _ R) in Hg. destruct (lookup_block _ _) as [b'|] eqn:El; [|done].
  apply (lookup_block_some _ _ _ (rel_nodup _ _ R)) in El as [Hb' Hid].
  assert (b' = b) as ->.
  { apply H1; [| |done].
    - unfold inserted. rewrite omap_app, elem_of_app. left.
      by apply (run_inserted f os b' Ho H2).
    - unfold inserted. rewrite omap_app, elem_of_app. right. by left. }
  destruct (r_mem _ _ R) as (L & M & EL).
  unfold mv_insert, mv_db_insert. fold (sled_key b).
  assert (is_Some (m_all m !! b_id b)) as Hs.
  { destruct (m_all m !! b_id b) eqn:Ea; [done|]. exfalso.
    apply (mo_none _ _ _ M) in Ea. apply Ea. rewrite EL. apply has_elem. eauto. }
  destruct (N.leb_spec (m_from m) (b_num b)) as [Hf|Hf].
  - assert (m_tree m !! sled_key b = Some b) as Ht.
    { apply R. split; [|done]. apply R; [done|]. by rewrite <- (r_from _ _ R). }
    rewrite Ht, insert_id by done. cbn. rewrite bool_decide_true by done. by destruct m.
  - cbn. rewrite bool_decide_true by done. done.
Qed.

(** Removing an absent block fails and changes nothing. *)
Theorem C28_remove_absent held m k : mv_get m k = None <-> mv_remove held m k = NotFound.
Proof.
  assert (forall m' p, mv_unlink m' held p k <> NotFound) as Hu.
  { intros m' p. unfold mv_unlink. destruct (mv_upgrade m' held p) as [[q x]|]; [|done].
    destruct (m_all m' !! q) as [pe|]; [|done].
    destruct (decide (k ∈ e_children pe)); [|done].
    destruct (decide (e_children pe ∖ {[k]} = ∅)); [|done].
    by destruct (decide (q ∈ m_tips m')). }
  unfold mv_get, mv_remove. destruct (m_all m !! k) as [e|]; cbn [fmap option_fmap option_map];
    [|done].
  split; [done|]. cbv zeta. intros H. exfalso. revert H.
  match goal with |- context [decide (k ∈ m_roots m)] => destruct (decide (k ∈ m_roots m)) end.
  - match goal with |- context [decide (e_children e ## ?X)] =>
      destruct (decide (e_children e ## X)) end; [|done].
    match goal with |- context [mv_unlink ?a ?b ?c ?d] =>
      generalize (Hu a c); destruct (mv_unlink a b c d) end; done.
  - match goal with |- context [mv_unlink ?a ?b ?c ?d] =>
      generalize (Hu a c); destruct (mv_unlink a b c d) end; done.
Qed.

(** A check of the hypothesis for concrete histories. *)
Lemma one_block_check os :
  forallb (fun b1 => (b_num b1 <? 2 ^ 64) &&
    forallb (fun b2 => negb (bool_decide (b_id b1 = b_id b2)) || bool_decide (b1 = b2))
      (inserted os)) (inserted os) = true -> one_block_per_id os.
Proof.
  intros H. rewrite forallb_forall in H. split.
  - intros b1 b2 H1 H2 E. apply elem_of_list_In in H1, H2. specialize (H b1 H1).
    apply andb_prop in H as [_ H]. rewrite forallb_forall in H. specialize (H b2 H2).
    rewrite bool_decide_true in H by done. by apply bool_decide_eq_true in H.
  - intros b Hb. apply elem_of_list_In in Hb. specialize (H b Hb).
    apply andb_prop in H as [H _]. by apply N.ltb_lt.
Qed.

(** Concrete runs are only evaluated with [vm_compute]. *)
Local Opaque mv_run.

(** A small tree with a fork: A(5) - B(6) - C(7), D(7) a second child of B. *)
Definition bA := Block [1] [0] 5 10.
Definition bB := Block [2] [1] 6 11.
Definition bC := Block [3] [2] 7 12.
Definition bD := Block [4] [2] 7 13.
Definition ex_hist : list mv_op :=
  [OInsert bA; OInsert bB; OInsert bC; OInsert bD; OInsert bB; ORemove [4] [];
   ORemove [9] []; OInsert bD; OReopen 0].

Lemma ex_one : one_block_per_id ex_hist.
Proof. apply one_block_check. by vm_compute. Qed.

Lemma ex_no_refs : no_refs ex_hist.
Proof.
  intros k h H. unfold ex_hist in H.
  repeat (apply elem_of_cons in H as [H|H]; [try done; by injection H as -> ->|]).
  by apply elem_of_nil in H.
Qed.

Lemma ex_refs m : refs_current m ex_hist.
Proof. apply no_refs_current, ex_no_refs. Qed.

Example C28_case : exists m, after 0 ex_hist m /\ one_block_per_id ex_hist /\
  refs_current (mv_new_with ∅ 0) ex_hist /\
  (spec_run (empty_store 0) ex_hist).2 =
    [RUnit; RUnit; RUnit; RUnit; RUnit; RBlock bD; RNotFound; RUnit; RUnit] /\
  mv_len m = 4%nat.
Proof.
  destruct (run_rel 0 ex_hist ex_one (ex_refs _)) as (m & E & R). exists m.
  split; [by eexists|]. split; [apply ex_one|]. split; [apply ex_refs|]. split; [done|].
  by rewrite (rel_len _ _ R).
Qed.

(** Two blocks with one identifier and different numbers abort the program. *)
Theorem C28_same_id_refuted : exists b1 b2, b_id b1 = b_id b2 /\ b_parent b1 = b_parent b2 /\
  mv_run (mv_new_with ∅ 0) [OInsert b1; OInsert b2] = Panic.
Proof. exists bA, (Block [1] [0] 6 10). split; [done|]. split; [done|]. by vm_compute. Qed.

(** A caller that keeps the reference of a removed block and inserts the block again
    cannot remove its child: the history panics although every identifier denotes one
    block. *)
Theorem C28_held_reference_refuted : exists os, one_block_per_id os /\
  mv_run (mv_new_with ∅ 0) os = Panic.
Proof.
  exists [OInsert bA; OInsert bB; ORemove [1] [([1], 0%nat)]; OInsert bA; ORemove [2] [([1], 0%nat)]].
  split; [apply one_block_check; by vm_compute|by vm_compute].
Qed.

(** Re-inserting an identifier with another payload is accepted silently: the memory keeps
    the old block and the database the new one, so reopening changes the answer. *)
Theorem C28_payload_refuted : exists b1 b2 m1 rs1 m2 rs2, b_id b1 = b_id b2 /\ b1 <> b2 /\
  mv_run (mv_new_with ∅ 0) [OInsert b1; OInsert b2] = Done (m1, rs1) /\
  mv_run (mv_new_with ∅ 0) [OInsert b1; OInsert b2; OReopen 0] = Done (m2, rs2) /\
  mv_get m1 (b_id b1) = Some b1 /\ mv_get m2 (b_id b1) = Some b2.
Proof.
  exists bA, (Block [1] [0] 5 99).
  destruct (mv_run (mv_new_with ∅ 0) [OInsert bA; OInsert (Block [1] [0] 5 99)])
    as [[m1 rs1]| |] eqn:E1; [|by vm_compute in E1|by vm_compute in E1].
  destruct (mv_run (mv_new_with ∅ 0) [OInsert bA; OInsert (Block [1] [0] 5 99); OReopen 0])
    as [[m2 rs2]| |] eqn:E2; [|by vm_compute in E2|by vm_compute in E2].
  exists m1, rs1, m2, rs2. split; [done|]. split; [done|]. split; [done|]. split; [done|].
  split.
  - assert (match mv_run (mv_new_with ∅ 0) [OInsert bA; OInsert (Block [1] [0] 5 99)] with
      Done (m, _) => mv_get m (b_id bA) | _ => None end = Some bA) as H by by vm_compute.
    by rewrite E1 in H.
  - assert (match mv_run (mv_new_with ∅ 0) [OInsert bA; OInsert (Block [1] [0] 5 99); OReopen 0] with
      Done (m, _) => mv_get m (b_id bA) | _ => None end = Some (Block [1] [0] 5 99)) as H
      by by vm_compute.
    by rewrite E2 in H.
Qed.

(** ** C29 *)
Theorem C29_tips f os m k : one_block_per_id os -> refs_current (mv_new_with ∅ f) os ->
  after f os m ->
  k ∈ mv_tips m <-> exists b, b ∈ blocks_after f os /\ b_id b = k /\
    forall c, ~ child_of (blocks_after f os) b c.
Proof. intros H1 H2 H3. apply rel_tips. by apply after_rel. Qed.

Theorem C29_non_empty f os m : one_block_per_id os -> refs_current (mv_new_with ∅ f) os ->
  after f os m -> blocks_after f os <> [] -> mv_tips m <> ∅.
Proof. intros H1 H2 H3. apply rel_has_tip. by apply after_rel. Qed.

(** When every block arrived after its parent, the tips are the stored blocks without a
    stored child. *)
Theorem C29_tips_parents_first f os m k : one_block_per_id os ->
  refs_current (mv_new_with ∅ f) os -> after f os m -> parents_first (blocks_after f os) ->
  k ∈ mv_tips m <-> has (blocks_after f os) k /\
    forall c, c ∈ blocks_after f os -> b_parent c <> k.
Proof.
  intros H1 H2 H3 Hp. rewrite (C29_tips _ _ _ _ H1 H2 H3), has_elem. split.
  - intros (b & Hb & <- & Hno). split; [eauto|]. intros c Hc E. by apply (Hno c), Hp.
  - intros [(b & Hb & <-) Hno]. exists b. split; [done|]. split; [done|].
    intros c Hc. pose proof (child_of_in _ _ _ Hc) as [_ Hin]. destruct Hc as [E _].
    by eapply Hno.
Qed.

(** The blocks of the example, in the order of the list. *)
Lemma ex_blocks : blocks_after 0 ex_hist = [bA; bB; bC; bD].
Proof. reflexivity. Qed.

Lemma increase_check S :
  forallb (fun p => forallb (fun c => negb (bool_decide (b_parent c = b_id p)) ||
    (b_num p <? b_num c)) S) S = true -> numbers_increase S.
Proof.
  intros H p c Hp Hc E. rewrite forallb_forall in H. apply elem_of_list_In in Hp, Hc.
  specialize (H p Hp). rewrite forallb_forall in H. specialize (H c Hc).
  rewrite bool_decide_true in H by done. by apply N.ltb_lt.
Qed.

Lemma ex_increase : numbers_increase (blocks_after 0 ex_hist).
Proof. apply increase_check. by vm_compute. Qed.

Lemma ex_parents_first : parents_first (blocks_after 0 ex_hist).
Proof.
  apply sorted_parents_first; [|apply ex_increase].
  apply (bool_decide_unpack _). by vm_compute.
Qed.

Example C29_case : exists m, after 0 ex_hist m /\
  (forall k, k ∈ mv_tips m <-> k = [3] \/ k = [4]).
Proof.
  destruct C28_case as (m & H & _). exists m. split; [done|]. intros k.
  rewrite (C29_tips_parents_first 0 ex_hist m k ex_one (ex_refs _) H ex_parents_first).
  rewrite ex_blocks, has_elem. split.
  - intros [(b & Hb & <-) Hno].
    repeat (apply elem_of_cons in Hb as [->|Hb]; [|]); try by apply elem_of_nil in Hb; auto.
    + exfalso. apply (Hno bB); [|done]. right. by left.
    + exfalso. apply (Hno bC); [|done]. right. right. by left.
    + by left.
    + by right.
  - intros [->| ->].
    + split; [exists bC; split; [right; right; by left|done]|].
      intros c Hc. repeat (apply elem_of_cons in Hc as [->|Hc]; [done|]). by apply elem_of_nil in Hc.
    + split; [exists bD; split; [right; right; right; by left|done]|].
      intros c Hc. repeat (apply elem_of_cons in Hc as [->|Hc]; [done|]). by apply elem_of_nil in Hc.
Qed.

(** A block that arrives before its parent is never linked to it: the parent counts as a
    tip although its child is stored. *)
Theorem C29_child_first_refuted : exists os m p c, one_block_per_id os /\ no_refs os /\
  after 0 os m /\ mv_get m (b_id p) = Some p /\ mv_get m (b_id c) = Some c /\
  b_parent c = b_id p /\ b_id p ∈ mv_tips m.
Proof.
  assert (one_block_per_id [OInsert bB; OInsert bA]) as Ho.
  { apply one_block_check. by vm_compute. }
  assert (no_refs [OInsert bB; OInsert bA]) as Hn.
  { intros k h H. repeat (apply elem_of_cons in H as [H|H]; [done|]). by apply elem_of_nil in H. }
  destruct (C28_any_history 0 _ Ho (no_refs_current _ _ Hn)) as [m E].
  exists [OInsert bB; OInsert bA], m, bA, bB.
  split; [done|]. split; [done|]. split; [by eexists|].
  pose proof (after_rel 0 _ m Ho (no_refs_current _ _ Hn) (ex_intro _ _ E)) as R.
  split; [by rewrite (rel_get _ _ _ R)|]. split; [by rewrite (rel_get _ _ _ R)|].
  split; [done|]. apply (rel_tips _ _ _ R). exists bA. split; [right; by left|]. split; [done|].
  intros c (E1 & S1 & S2 & S3 & E2). cbn in E2.
  destruct S1 as [|x [|y [|z S1]]]; try discriminate.
  - injection E2 as E3 E4. destruct S2 as [|? S2]; [discriminate|]. by destruct S2.
Qed.

(** ** C30 *)
(** [held] are the references that exist while the lookup runs; all are of stored blocks. *)
Definition stored_refs (m : mv) (held : list ref) : Prop :=
  forall k a, (k, a) ∈ held -> exists e, m_all m !! k = Some e /\ e_arc e = a.

Lemma stored_current m held : stored_refs m held -> current_refs m held.
Proof. intros H k a e Hin E. destruct (H _ _ Hin) as (e' & E' & <-). congruence. Qed.

Theorem C30_ancestor f os m held b n : one_block_per_id os ->
  refs_current (mv_new_with ∅ f) os -> after f os m -> stored_refs m held ->
  b ∈ blocks_after f os ->
  exists r, mv_ancestor m held (b_id b) n = Done r /\
    match r with
    | Some k => exists a, nth_ancestor (blocks_after f os) n b a /\ b_id a = k
    | None => forall a, ~ nth_ancestor (blocks_after f os) n b a
    end.
Proof.
  intros H1 H2 H3 H4 Hb. pose proof (after_rel _ _ _ H1 H2 H3) as R.
  apply (rel_ancestor m _ held n R); [by apply stored_current| |done].
  intros k a Hin. destruct (H4 _ _ Hin) as (e & -> & _). done.
Qed.

(** There is at most one n-th ancestor, and the chains compose. *)
Theorem C30_unique f os b n a a' : one_block_per_id os -> refs_current (mv_new_with ∅ f) os ->
  nth_ancestor (blocks_after f os) n b a -> nth_ancestor (blocks_after f os) n b a' -> a = a'.
Proof.
  intros H1 H2 Ha. destruct (run_rel f os H1 H2) as (m & _ & R).
  pose proof (rel_nodup _ _ R) as Hn. fold (blocks_after f os) in Hn. revert a'.
  induction Ha as [|n b p a Hc _ IH]; intros a' Ha'; inversion Ha'; subst; [done|].
  apply IH. assert (p0 = p) as -> by by eapply child_of_unique. done.
Qed.

Example C30_case : exists m, after 0 ex_hist m /\ mv_ancestor m [] [4] 2 = Done (Some [1]) /\
  mv_ancestor m [] [4] 3 = Done None.
Proof.
  destruct C28_case as (m & H & _). exists m. split; [done|]. destruct H as [rs H].
  assert (match mv_run (mv_new_with ∅ 0) ex_hist with
    | Done (m, _) => (mv_ancestor m [] [4] 2, mv_ancestor m [] [4] 3)
    | _ => (Panic, Panic) end = (Done (Some [1]), Done None)) as H' by by vm_compute.
  rewrite H in H'. clear H. injection H' as H1 H2. split; assumption.
Qed.

(** A reference to a removed block that somebody keeps makes it reappear as an ancestor,
    and one step further the lookup panics. *)
Theorem C30_removed_ancestor_refuted : exists os m held, one_block_per_id os /\ after 0 os m /\
  mv_get m [1] = None /\ mv_ancestor m held [2] 1 = Done (Some [1]) /\
  mv_ancestor m held [2] 2 = Panic.
Proof.
  destruct (run_obs 0 [OInsert bA; OInsert bB; ORemove [1] [([1], 0%nat)]]
    (fun m => (mv_get m [1], mv_ancestor m [([1], 0%nat)] [2] 1,
               mv_ancestor m [([1], 0%nat)] [2] 2))
    (None, Done (Some [1]), Panic)) as (m & Hm & H); [by vm_compute|].
  exists [OInsert bA; OInsert bB; ORemove [1] [([1], 0%nat)]], m, [([1], 0%nat)].
  injection H as H1 H2 H3. split; [apply one_block_check; by vm_compute|].
  split; [exact Hm|]. split; [exact H1|]. split; [exact H2|exact H3].
Qed.

(** ** C31 *)
Theorem C31_select f os m enum held depth gap : one_block_per_id os ->
  refs_current (mv_new_with ∅ f) os -> after f os m -> stored_refs m held -> fair enum ->
  exists r disc, mv_select enum m held depth gap = Done (r, disc) /\
  (blocks_after f os = [] -> r = None /\ disc = ∅) /\
  (blocks_after f os <> [] -> exists tip, highest (blocks_after f os) tip /\
     match r with
     | Some k => exists a, nth_ancestor (blocks_after f os) depth tip a /\ b_id a = k /\
         (forall k', k' ∈ disc <-> exists b, b ∈ blocks_after f os /\ b_id b = k' /\
                                     b_num b < b_num a - gap)
     | None => (forall a, ~ nth_ancestor (blocks_after f os) depth tip a) /\ disc = ∅
     end).
Proof.
  intros H1 H2 H3 H4 Hf. pose proof (after_rel _ _ _ H1 H2 H3) as R.
  apply (rel_select m _ enum held depth gap R Hf); [by apply stored_current|].
  intros k a Hin. destruct (H4 _ _ Hin) as (e & -> & _). done.
Qed.

(** The selected block and the blocks at or above it are never discarded. *)
Theorem C31_keeps_selected f os m enum held depth gap k disc : one_block_per_id os ->
  refs_current (mv_new_with ∅ f) os -> after f os m -> stored_refs m held -> fair enum ->
  mv_select enum m held depth gap = Done (Some k, disc) ->
  exists a, mv_get m k = Some a /\
    forall b, b ∈ blocks_after f os -> b_num a <= b_num b -> b_id b ∉ disc.
Proof.
  intros H1 H2 H3 H4 Hf E. pose proof (after_rel _ _ _ H1 H2 H3) as R.
  destruct (C31_select f os m enum held depth gap H1 H2 H3 H4 Hf) as (r & d & E' & Hz & Hs).
  rewrite E in E'. injection E' as <- <-.
  destruct (decide (blocks_after f os = [])) as [Hb|Hb]; [by destruct (Hz Hb)|].
  destruct (Hs Hb) as (tip & _ & a & Ha & <- & Hd). exists a. split.
  - rewrite (rel_get _ _ _ R). apply (lookup_block_some _ _ _ (rel_nodup _ _ R)).
    split; [apply (nth_ancestor_in _ _ _ _ Ha)|done].
  - intros b Hbin Hle Hin. apply Hd in Hin as (b' & Hb' & Hid & Hlt).
    assert (b' = b) as -> by (eapply nodup_id_inj; eauto; by eapply rel_nodup). lia.
Qed.

(** When blocks are numbered one by one along the chain, the number of the selected block
    is the greatest number minus the depth, whatever the hash order. *)
Theorem C31_height f os m enum held depth gap k disc : one_block_per_id os ->
  refs_current (mv_new_with ∅ f) os -> after f os m -> stored_refs m held -> fair enum ->
  (forall p c, child_of (blocks_after f os) p c -> b_num c = b_num p + 1) ->
  mv_select enum m held depth gap = Done (Some k, disc) ->
  exists a tip, mv_get m k = Some a /\ highest (blocks_after f os) tip /\
    b_num a + N.of_nat depth = b_num tip.
Proof.
  intros H1 H2 H3 H4 Hf Hc E. pose proof (after_rel _ _ _ H1 H2 H3) as R.
  destruct (C31_select f os m enum held depth gap H1 H2 H3 H4 Hf) as (r & d & E' & Hz & Hs).
  rewrite E in E'. injection E' as <- <-.
  destruct (decide (blocks_after f os = [])) as [Hb|Hb]; [by destruct (Hz Hb)|].
  destruct (Hs Hb) as (tip & Ht & a & Ha & <- & Hd). exists a, tip. split.
  - rewrite (rel_get _ _ _ R). apply (lookup_block_some _ _ _ (rel_nodup _ _ R)).
    split; [apply (nth_ancestor_in _ _ _ _ Ha)|done].
  - split; [done|]. by eapply nth_ancestor_num.
Qed.

(** The preferred fork is a tip of the greatest number among the tips. *)
Theorem C31_preferred_fork f os m enum : one_block_per_id os ->
  refs_current (mv_new_with ∅ f) os -> after f os m -> fair enum ->
  exists r, mv_preferred_fork_tip enum m = Done r /\
  match r with
  | None => blocks_after f os = []
  | Some k => exists b, mv_get m k = Some b /\ k ∈ mv_tips m /\
      forall b', b' ∈ blocks_after f os -> b_id b' ∈ mv_tips m -> b_num b' <= b_num b
  end.
Proof.
  intros H1 H2 H3 Hf. pose proof (after_rel _ _ _ H1 H2 H3) as R.
  destruct (rel_preferred m _ enum R Hf) as (r & E & Hr). exists r. split; [done|].
  destruct r as [k|]; [|done]. destruct Hr as (b & Hb & Hid & Ht & Hmax). exists b.
  split; [|done]. rewrite (rel_get _ _ _ R).
  by apply (lookup_block_some _ _ _ (rel_nodup _ _ R)).
Qed.

Lemma elements_fair : fair elements.
Proof. intros X. done. Qed.

Lemma rev_fair : fair (fun X => rev (elements X)).
Proof. intros X. symmetry. apply Permutation_rev. Qed.

Example C31_case : exists m, after 0 ex_hist m /\ stored_refs m [] /\
  mv_select elements m [] 1 0 = Done (Some [2], {[ [1] ]}).
Proof.
  destruct C28_case as (m & H & _). exists m. split; [done|].
  split; [intros k a Hin; by apply elem_of_nil in Hin|].
  destruct (C31_select 0 ex_hist m elements [] 1 0 ex_one (ex_refs _) H) as (r & d & E & _ & Hs);
    [intros k a Hin; by apply elem_of_nil in Hin|apply elements_fair|].
  destruct H as [rs H].
  assert (match mv_run (mv_new_with ∅ 0) ex_hist with
    | Done (m, _) => match mv_select elements m [] 1 0 with
                     | Done (r, d) => (r, elements d) | _ => (None, []) end
    | _ => (None, []) end = (Some [2], [ [1] ])) as H' by by vm_compute.
  rewrite H, E in H'. injection H' as -> Hd. rewrite E. do 2 f_equal.
  apply set_eq. intros x. rewrite <- elem_of_elements, Hd, elem_of_list_singleton.
  by rewrite elem_of_singleton.
Qed.

(** The documentation says that of two chains of one length the first one selected keeps
    its place. It does not: the answer on one and the same store depends on the hash
    order. *)
Theorem C31_first_selected_refuted : exists os m enum1 enum2 k1 k2, one_block_per_id os /\
  no_refs os /\ after 0 os m /\ fair enum1 /\ fair enum2 /\ k1 <> k2 /\
  (exists d1, mv_select enum1 m [] 0 0 = Done (Some k1, d1)) /\
  (exists d2, mv_select enum2 m [] 0 0 = Done (Some k2, d2)).
Proof.
  exists ex_hist. destruct C28_case as (m & H & _).
  exists m, elements, (fun X => rev (elements X)).
  destruct H as [rs H].
  assert (exists k1 k2, k1 <> k2 /\ match mv_run (mv_new_with ∅ 0) ex_hist with
    | Done (m, _) => (match mv_select elements m [] 0 0 with Done (r, _) => r | _ => None end,
       match mv_select (fun X => rev (elements X)) m [] 0 0 with Done (r, _) => r | _ => None end)
    | _ => (None, None) end = (Some k1, Some k2)) as (k1 & k2 & Hne & H').
  { eexists _, _. split; [|by vm_compute]. done. }
  exists k1, k2. rewrite H in H'. pose proof (ex_intro _ rs H : after 0 ex_hist m) as Haf.
  clear H. injection H' as H1 H2.
  split; [apply ex_one|]. split; [apply ex_no_refs|].
  split; [exact Haf|]. split; [apply elements_fair|]. split; [apply rev_fair|].
  split; [done|]. split.
  - destruct (mv_select elements m [] 0 0) as [[r d]| |]; try done.
    subst r. by exists d.
  - destruct (mv_select (fun X => rev (elements X)) m [] 0 0) as [[r d]| |]; try done.
    subst r. by exists d.
Qed.

(** ** C32 *)
(** Reopening gives the blocks on disk, in the order of number and identifier. *)
Theorem C32_reopen f g os m : one_block_per_id os -> refs_current (mv_new_with ∅ f) os ->
  after f os m ->
  exists m', mv_load_from (m_tree m) g = Done m' /\
    (forall k, mv_get m' k = lookup_block (s_disk (spec_run (empty_store f) os).1) k) /\
    blocks_after f (os ++ [OReopen g]) =
      merge_sort block_le (s_disk (spec_run (empty_store f) os).1).
Proof.
  intros H1 H2 H3. pose proof (after_rel _ _ _ H1 H2 H3) as R.
  destruct (rel_reopen m _ g R) as (m' & E & R'). exists m'. split; [done|]. split.
  - intros k. rewrite (rel_get _ _ _ R'). cbn [s_blocks]. symmetry.
    apply lookup_block_perm; [apply R|]. by rewrite merge_sort_Permutation.
  - unfold blocks_after. by rewrite spec_run_snoc.
Qed.

(** What a caller can tell of a store. *)
Record same_store (m m' : mv) (S : list block) : Prop := {
  ss_get : forall k, mv_get m' k = mv_get m k;
  ss_len : mv_len m' = mv_len m;
  ss_tips : mv_tips m' = mv_tips m;
  ss_ancestor : forall b n, b ∈ S -> mv_ancestor m' [] (b_id b) n = mv_ancestor m [] (b_id b) n;
  ss_numbers : sorted_keys (m_ordered m') = sorted_keys (m_ordered m) }.

Theorem C32_reopen_same f g os m : one_block_per_id os -> refs_current (mv_new_with ∅ f) os ->
  after f os m ->
  parents_first (blocks_after f os) -> numbers_increase (blocks_after f os) ->
  (forall b, b ∈ blocks_after f os -> s_from (spec_run (empty_store f) os).1 <= b_num b) ->
  exists m', mv_load_from (m_tree m) g = Done m' /\ same_store m m' (blocks_after f os).
Proof.
  intros H1 H2 H3 Hp Hi Hk. pose proof (after_rel _ _ _ H1 H2 H3) as R.
  destruct (rel_reopen m _ g R) as (m' & E & R'). exists m'. split; [done|].
  set (s := (spec_run (empty_store f) os).1) in *. fold (blocks_after f os) in *.
  assert (s_blocks s ≡ₚ merge_sort block_le (s_disk s)) as Hperm.
  { rewrite merge_sort_Permutation. apply NoDup_Permutation.
    - pose proof (rel_nodup _ _ R) as Hn. by apply NoDup_fmap_1 in Hn.
    - pose proof (r_dnodup _ _ R) as Hn. by apply NoDup_fmap_1 in Hn.
    - intros b. split; [|by apply R]. intros Hb. apply R; [done|]. by apply Hk. }
  assert (parents_first (merge_sort block_le (s_disk s))) as Hp'.
  { apply sorted_parents_first; [apply StronglySorted_merge_sort; apply _|].
    by eapply numbers_increase_perm. }
  pose proof (parents_first_child _ _ Hperm Hp Hp') as Hch.
  assert (forall b, b ∈ s_blocks s <-> b ∈ merge_sort block_le (s_disk s)) as Hel
    by (intros b; by rewrite Hperm).
  split.
  - intros k. rewrite (rel_get _ _ _ R'), (rel_get _ _ _ R). cbn [s_blocks]. symmetry.
    apply lookup_block_perm; [by eapply rel_nodup|done].
  - rewrite (rel_len _ _ R'), (rel_len _ _ R). cbn [s_blocks]. by rewrite Hperm.
  - apply set_eq. intros k. rewrite (rel_tips _ _ _ R'), (rel_tips _ _ _ R). cbn [s_blocks].
    split; intros (b & Hb & Hid & Hno); exists b.
    + split; [by apply Hel|]. split; [done|]. intros c Hc. by apply (Hno c), Hch.
    + split; [by apply Hel|]. split; [done|]. intros c Hc. by apply (Hno c), Hch.
  - intros b n Hb.
    assert (forall k a, (k, a) ∈ ([] : list ref) -> is_Some (m_all m !! k)) as P1
      by (intros ? ? Hin; by apply elem_of_nil in Hin).
    assert (forall k a, (k, a) ∈ ([] : list ref) -> is_Some (m_all m' !! k)) as P2
      by (intros ? ? Hin; by apply elem_of_nil in Hin).
    assert (forall m, current_refs m []) as P3
      by (intros ? ? ? ? Hin; by apply elem_of_nil in Hin).
    destruct (rel_ancestor m s [] n R (P3 m) P1 b Hb) as (r & -> & Hr).
    destruct (rel_ancestor m' _ [] n R' (P3 m') P2 b (proj1 (Hel b) Hb)) as (r' & -> & Hr').
    cbn [s_blocks] in Hr'. f_equal.
    destruct r as [k|], r' as [k'|]; try done.
    + destruct Hr as (a & Ha & <-), Hr' as (a' & Ha' & <-). do 2 f_equal.
      eapply (C30_unique f os b n); [done|done| |exact Ha].
      eapply nth_ancestor_ext; [| |exact Ha']; [intros; by apply Hel|intros; by apply Hch].
    + destruct Hr as (a & Ha & <-). exfalso. apply (Hr' a).
      eapply nth_ancestor_ext; [| |exact Ha]; [intros; by apply Hel|intros; by apply Hch].
    + destruct Hr' as (a & Ha & <-). exfalso. apply (Hr a).
      eapply nth_ancestor_ext; [| |exact Ha]; [intros; by apply Hel|intros; by apply Hch].
  - eapply ssorted_unique with (R := N.lt).
    + apply sorted_keys_sorted.
    + apply sorted_keys_sorted.
    + apply NoDup_Permutation.
      * unfold sorted_keys. rewrite merge_sort_Permutation. apply NoDup_fst_map_to_list.
      * unfold sorted_keys. rewrite merge_sort_Permutation. apply NoDup_fst_map_to_list.
      * intros n. rewrite (rel_numbers _ _ _ R'), (rel_numbers _ _ _ R). cbn [s_blocks].
        split; intros (b & Hb & ?); exists b; (split; [by apply Hel|done]).
    + intros x y _ _ ? ?. lia.
Qed.

Example C32_case : exists m, after 0 ex_hist m /\ one_block_per_id ex_hist /\
  refs_current (mv_new_with ∅ 0) ex_hist /\ parents_first (blocks_after 0 ex_hist) /\
  numbers_increase (blocks_after 0 ex_hist) /\ blocks_after 0 ex_hist <> [].
Proof.
  destruct C28_case as (m & H & _). exists m. split; [done|]. split; [apply ex_one|].
  split; [apply ex_refs|]. split; [apply ex_parents_first|]. rewrite ex_blocks.
  split; [|done]. rewrite <- ex_blocks. apply ex_increase.
Qed.

(** A store opened with a higher starting number forgets older blocks on reopening. *)
Theorem C32_store_from_refuted : exists f os m m', one_block_per_id os /\ no_refs os /\
  after f os m /\ mv_load_from (m_tree m) f = Done m' /\
  mv_get m (b_id bA) = Some bA /\ mv_get m' (b_id bA) = None /\
  mv_get m' (b_id bB) = Some bB.
Proof.
  exists 6, [OInsert bA; OInsert bB].
  assert (one_block_per_id [OInsert bA; OInsert bB]) as Ho.
  { apply one_block_check. by vm_compute. }
  assert (no_refs [OInsert bA; OInsert bB]) as Hn.
  { intros k h H. repeat (apply elem_of_cons in H as [H|H]; [done|]). by apply elem_of_nil in H. }
  destruct (run_rel 6 _ Ho (no_refs_current _ _ Hn)) as (m & E & R).
  destruct (C32_reopen 6 6 _ m Ho (no_refs_current _ _ Hn)) as (m' & E' & Hg & _); [by eexists|].
  exists m, m'. split; [done|]. split; [done|]. split; [by eexists|]. split; [done|].
  split; [by rewrite (rel_get _ _ _ R)|]. split; by rewrite Hg.
Qed.

(** ** C33 *)
(** The iteration yields stored blocks in strictly ascending block number, one for each
    block number in use. *)
Theorem C33_one_per_number f os m enum : one_block_per_id os ->
  refs_current (mv_new_with ∅ f) os -> after f os m -> fair enum ->
  StronglySorted N.lt (b_num <$> mv_iter enum m) /\
  (forall b, b ∈ mv_iter enum m -> b ∈ blocks_after f os) /\
  (forall b, b ∈ blocks_after f os -> exists b', b' ∈ mv_iter enum m /\ b_num b' = b_num b).
Proof. intros H1 H2 H3 Hf. apply rel_iter; [by apply after_rel|done]. Qed.

(** Without forks the iteration is complete. *)
Theorem C33_no_forks f os m enum : one_block_per_id os ->
  refs_current (mv_new_with ∅ f) os -> after f os m -> fair enum ->
  NoDup (b_num <$> blocks_after f os) -> mv_iter enum m ≡ₚ blocks_after f os.
Proof.
  intros H1 H2 H3 Hf Hn.
  destruct (C33_one_per_number f os m enum H1 H2 H3 Hf) as (Hs & Hin & Hall).
  assert (NoDup (b_num <$> mv_iter enum m)) as Hn'.
  { clear -Hs. induction Hs as [|x l Hs IH Hf]; [constructor|]. constructor; [|done].
    intros Hx. eapply Forall_forall in Hf; [|exact Hx]. lia. }
  apply NoDup_Permutation; [by apply NoDup_fmap_1 in Hn'|by apply NoDup_fmap_1 in Hn|].
  intros b. split; [apply Hin|]. intros Hb. destruct (Hall b Hb) as (b' & Hb' & E).
  assert (b' = b) as ->; [|done]. apply Hin in Hb'.
  clear -Hn Hb Hb' E. revert Hn Hb Hb'. generalize (blocks_after f os) as S.
  induction S as [|x S IH]; intros Hn H1 H2; [by apply elem_of_nil in H1|].
  cbn in Hn. apply NoDup_cons in Hn as [Hx Hn].
  apply elem_of_cons in H1 as [->|H1]; apply elem_of_cons in H2 as [->|H2]; auto; exfalso; apply Hx.
  - rewrite <- E. apply elem_of_list_fmap. eauto.
  - rewrite E. apply elem_of_list_fmap. eauto.
Qed.

(** The iteration is complete exactly when no two stored blocks share a number: every fork,
    whatever the history and the hash order, hides a stored block. *)
Theorem C33_complete_iff f os m enum : one_block_per_id os ->
  refs_current (mv_new_with ∅ f) os -> after f os m -> fair enum ->
  ((forall b, b ∈ blocks_after f os -> b ∈ mv_iter enum m) <->
   (forall b b', b ∈ blocks_after f os -> b' ∈ blocks_after f os -> b_num b = b_num b' -> b = b')).
Proof.
  intros H1 H2 H3 Hf.
  destruct (C33_one_per_number f os m enum H1 H2 H3 Hf) as (Hs & Hin & Hall). split.
  - intros Hc b b' Hb Hb' E. apply Hc in Hb. apply Hc in Hb'. clear -Hs Hb Hb' E.
    revert Hs Hb Hb'. generalize (mv_iter enum m) as S.
    induction S as [|x S IH]; intros Hs H1 H2; [by apply elem_of_nil in H1|].
    cbn in Hs. apply StronglySorted_inv in Hs as [Hs Hx]. rewrite Forall_forall in Hx.
    apply elem_of_cons in H1 as [->|H1]; apply elem_of_cons in H2 as [->|H2]; auto; exfalso.
    + specialize (Hx (b_num b')). rewrite E in Hx.
      assert (b_num b' ∈ b_num <$> S) as Hm by (apply elem_of_list_fmap; eauto). apply Hx in Hm. lia.
    + specialize (Hx (b_num b)). rewrite <- E in Hx.
      assert (b_num b ∈ b_num <$> S) as Hm by (apply elem_of_list_fmap; eauto). apply Hx in Hm. lia.
  - intros Hu b Hb. destruct (Hall b Hb) as (b' & Hb' & E).
    assert (b' = b) as <-; [|done]. apply Hu; auto.
Qed.

(** With a fork, whatever the hash order, a stored block is missing. *)
Theorem C33_forks_skipped_refuted : exists os m, one_block_per_id os /\ no_refs os /\
  after 0 os m /\ forall enum, fair enum ->
    exists b, b ∈ blocks_after 0 os /\ b ∉ mv_iter enum m.
Proof.
  exists ex_hist. destruct C28_case as (m & H & _). exists m. split; [apply ex_one|]. split; [apply ex_no_refs|].
  split; [done|]. intros enum Hf.
  destruct (C33_one_per_number 0 ex_hist m enum ex_one (ex_refs _) H Hf) as (Hs & Hin & _).
  destruct (decide (bC ∈ mv_iter enum m)) as [HC|HC].
  - exists bD. split; [rewrite ex_blocks; right; right; right; by left|]. intros HD.
    assert (NoDup (b_num <$> mv_iter enum m)) as Hn'.
    { clear -Hs. induction Hs as [|x l Hs IH Hf]; [constructor|]. constructor; [|done].
      intros Hx. eapply Forall_forall in Hf; [|exact Hx]. lia. }
    clear -Hn' HC HD. revert Hn' HC HD. generalize (mv_iter enum m) as S.
    induction S as [|x S IH]; intros Hn H1 H2; [by apply elem_of_nil in H1|].
    cbn in Hn. apply NoDup_cons in Hn as [Hx Hn].
    apply elem_of_cons in H1 as [<-|H1]; apply elem_of_cons in H2 as [E|H2]; auto.
    + discriminate.
    + apply Hx. apply elem_of_list_fmap. by exists bD.
    + subst x. apply Hx. apply elem_of_list_fmap. by exists bC.
  - exists bC. split; [rewrite ex_blocks; right; right; by left|done].
Qed.

Example C33_case : exists m, after 0 ex_hist m /\ length (mv_iter elements m) = 3%nat /\
  length (blocks_after 0 ex_hist) = 4%nat.
Proof.
  destruct C28_case as (m & [rs H] & _). exists m. split; [by eexists|].
  assert (match mv_run (mv_new_with ∅ 0) ex_hist with
    | Done (m, _) => length (mv_iter elements m) | _ => 0%nat end = 3%nat) as H' by by vm_compute.
  rewrite H in H'. split; [exact H'|reflexivity].
Qed.

(** one traversal for all theorems of this file: what the tuple assumes is what any of them assumes *)
Definition all_MultiverseProps := (@C27_order, @C27_injective, @C27_total_order, @C28_any_history, @C28_queries, @C28_contents, @C28_reinsert, @C28_remove_absent, @C28_same_id_refuted, @C28_held_reference_refuted, @C28_payload_refuted, @C29_tips, @C29_non_empty, @C29_tips_parents_first, @C29_child_first_refuted, @C30_ancestor, @C30_unique, @C30_removed_ancestor_refuted, @C31_select, @C31_keeps_selected, @C31_height, @C31_preferred_fork, @C31_first_selected_refuted, @C32_reopen, @C32_reopen_same, @C32_store_from_refuted, @C33_one_per_number, @C33_no_forks, @C33_complete_iff, @C33_forks_skipped_refuted).
Print Assumptions all_MultiverseProps.
