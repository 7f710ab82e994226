(** * The example program of the multiverse crate, for every pair of arguments

    The example fills a store with a fixed tree of blocks and prints what the selection rule
    answers.  Its output is stated for all arguments and every hash order, and the tree is
    the concrete case for the theorems on the store. *)
From Coq Require Import Lia NArith List Ascii String.
From stdpp Require Import prelude numbers gmap sorting list.
From Verif Require Import MultiverseModel MultiverseSpec MultiverseProofs
  MultiverseHistProofs MultiverseQueryProofs MultiverseProps.

Local Open Scope N_scope.

(** The bytes of a text, by which the store keeps a block with a text identifier. *)
Fixpoint text (s : string) : bytes :=
  match s with EmptyString => [] | String c s => N_of_ascii c :: text s end.

(** multiverse/examples/multiverse.rs:13-30: a node; the store keeps it under its identifier.
    Simplification: the node has no other contents. *)
Definition node (id : string) (num : N) (parent : string) : block :=
  Block (text id) (text parent) num 0.

(** multiverse/examples/multiverse.rs:81-107 [populate_multiverse]. *)
Definition example_nodes : list block :=
  [ node "0-aaa0" 0 ""; node "1-abc0" 1 "0-aaa0"; node "2-bcd0" 2 "1-abc0";
    node "3-cde0" 3 "2-bcd0"; node "4-def0" 4 "3-cde0"; node "5-efg0" 5 "4-def0";
    node "2-bcd1" 2 "1-abc0"; node "3-cde1" 3 "2-bcd1"; node "4-def1" 4 "3-cde1";
    node "3-cde2" 3 "2-bcd1";
    node "4-def3" 4 "3-cde2"; node "5-efg3" 5 "4-def3"; node "6-fgh3" 6 "5-efg3" ].
Definition example_history : list mv_op := OInsert <$> example_nodes.

(** multiverse/examples/multiverse.rs:47-76 [main] with the two arguments already read as
    numbers: the identifier it prints as best block and those it prints as discarded;
    [None] when it panics (the [unwrap] of line 70, or a panic of the store). *)
Definition example_main (enum : gset bytes -> list bytes) (depth : nat) (gap : N) :
    option (bytes * gset bytes) :=
  match mv_run (mv_new_with ∅ 0) example_history with
  | Done (m, _) =>
      match mv_select enum m [] depth gap with
      | Done (Some k, disc) => Some (k, disc)
      | _ => None
      end
  | _ => None
  end.

Local Opaque mv_run.

Lemma example_one : one_block_per_id example_history.
Proof. apply one_block_check. by vm_compute. Qed.
Lemma example_no_refs : no_refs example_history.
Proof.
  intros k h H. unfold example_history in H. apply elem_of_list_fmap in H as (b & E & _). done.
Qed.
Lemma example_refs m : refs_current m example_history.
Proof. apply no_refs_current, example_no_refs. Qed.
Lemma example_blocks : blocks_after 0 example_history = example_nodes.
Proof. by vm_compute. Qed.
Lemma example_after : exists m, after 0 example_history m.
Proof.
  destruct (C28_any_history 0 example_history example_one (example_refs _)) as (m & E).
  exists m. by eexists.
Qed.

(** The chain that leads to the only block numbered 6, newest first. *)
Definition longest : list string :=
  ["6-fgh3"; "5-efg3"; "4-def3"; "3-cde2"; "2-bcd1"; "1-abc0"; "0-aaa0"]%string.

Lemma child_in (S : list block) p c : child_of S p c -> p ∈ S /\ c ∈ S /\ b_parent c = b_id p.
Proof.
  intros (E & S1 & S2 & S3 & ->). repeat split; [| |done].
  - rewrite elem_of_app, elem_of_cons. auto.
  - rewrite elem_of_app, elem_of_cons, elem_of_app, elem_of_cons. auto.
Qed.

Lemma child_at (S : list block) i j p c : S !! i = Some p -> S !! j = Some c -> (i < j)%nat ->
  b_parent c = b_id p -> child_of S p c.
Proof.
  intros Hi Hj Hlt E. split; [done|].
  exists (take i S), (take (j - i - 1) (drop (1 + i) S)), (drop (1 + j) S).
  assert (drop (1 + i) S !! (j - i - 1)%nat = Some c) as H.
  { rewrite lookup_drop. rewrite <- Hj. f_equal. lia. }
  etrans; [symmetry; apply (take_drop_middle S i p Hi)|]. do 2 f_equal.
  etrans; [symmetry; apply (take_drop_middle _ _ _ H)|]. do 2 f_equal.
  rewrite drop_drop. apply (f_equal (fun n => drop n S)). lia.
Qed.

Local Ltac in_cases H :=
  repeat (apply elem_of_cons in H as [H|H]; [subst|]); try by apply elem_of_nil in H.

Lemma example_parent c p d : child_of example_nodes p c ->
  child_of example_nodes d c -> p = d.
Proof.
  intros H1 H2. apply child_in in H1 as (Hp & _ & E1), H2 as (Hd & _ & E2).
  rewrite E1 in E2. revert Hp Hd E2. clear.
  assert (forallb (fun p => forallb (fun d => negb (bool_decide (b_id p = b_id d)) ||
    bool_decide (p = d)) example_nodes) example_nodes = true) as H by by vm_compute.
  rewrite forallb_forall in H. intros Hp Hd E. apply elem_of_list_In in Hp, Hd.
  specialize (H _ Hp). rewrite forallb_forall in H. specialize (H _ Hd).
  rewrite (bool_decide_true _ E) in H. by apply bool_decide_eq_true in H.
Qed.

(** The ancestors of the block numbered 6. *)
Definition path : list block :=
  [ node "6-fgh3" 6 "5-efg3"; node "5-efg3" 5 "4-def3"; node "4-def3" 4 "3-cde2";
    node "3-cde2" 3 "2-bcd1"; node "2-bcd1" 2 "1-abc0"; node "1-abc0" 1 "0-aaa0";
    node "0-aaa0" 0 "" ].

Lemma path_ancestor n a : forall i b, path !! i = Some b ->
  nth_ancestor example_nodes n b a -> path !! (i + n)%nat = Some a.
Proof.
  induction n as [|n IH]; intros i b Hb H.
  - inversion H; subst. by rewrite Nat.add_0_r.
  - inversion H as [|? ? p ? Hc Hr]; subst.
    assert (path !! (1 + i)%nat = Some p) as Hp.
    { apply child_in in Hc as (Hp & _ & E). revert Hb.
      destruct i as [|[|[|[|[|[|[|i]]]]]]]; cbn; intros Hb; try done; injection Hb as <-;
        unfold example_nodes in Hp; in_cases Hp; solve [done | by vm_compute in E]. }
    replace (i + Datatypes.S n)%nat with (1 + i + n)%nat by lia. by eapply IH.
Qed.

Lemma path_has n : forall i b a, path !! i = Some b -> path !! (i + n)%nat = Some a ->
  nth_ancestor example_nodes n b a.
Proof.
  induction n as [|n IH]; intros i b a Hb Ha.
  - rewrite Nat.add_0_r, Hb in Ha. injection Ha as ->. constructor.
    revert Hb. destruct i as [|[|[|[|[|[|[|i]]]]]]]; cbn; intros Hb; try done; injection Hb as <-;
      apply elem_of_list_In; cbn; tauto.
  - replace (i + Datatypes.S n)%nat with (1 + i + n)%nat in Ha by lia.
    destruct (path !! (1 + i)%nat) as [p|] eqn:Hp.
    + apply anc_parent with p; [|by eapply IH].
      revert Hb Hp. destruct i as [|[|[|[|[|[|[|i]]]]]]]; cbn; intros Hb Hp; try done;
        injection Hb as <-; injection Hp as <-.
      * apply (child_at _ 11 12); [reflexivity|reflexivity|lia|reflexivity].
      * apply (child_at _ 10 11); [reflexivity|reflexivity|lia|reflexivity].
      * apply (child_at _ 9 10); [reflexivity|reflexivity|lia|reflexivity].
      * apply (child_at _ 6 9); [reflexivity|reflexivity|lia|reflexivity].
      * apply (child_at _ 1 6); [reflexivity|reflexivity|lia|reflexivity].
      * apply (child_at _ 0 1); [reflexivity|reflexivity|lia|reflexivity].
    + apply lookup_ge_None in Hp. rewrite lookup_ge_None_2 in Ha by lia. done.
Qed.

Lemma example_highest t : highest example_nodes t -> t = node "6-fgh3" 6 "5-efg3".
Proof.
  intros [Hin H]. specialize (H (node "6-fgh3" 6 "5-efg3") ltac:(apply elem_of_list_In; cbn; tauto)).
  unfold example_nodes in Hin. in_cases Hin; try done; vm_compute in H; by destruct H.
Qed.

(** ** C31: what the example prints *)
(** For every pair of arguments and every hash order: a depth of at most six selects the
    block that many steps below the only block numbered 6 and discards the blocks whose
    number is more than the age gap below it; a greater depth makes the program panic. *)
Theorem C31_example_program enum depth gap : fair enum ->
  match longest !! depth with
  | Some id => exists disc, example_main enum depth gap = Some (text id, disc) /\
      forall k, k ∈ disc <->
        exists b, b ∈ example_nodes /\ b_id b = k /\ b_num b + gap + N.of_nat depth < 6
  | None => example_main enum depth gap = None
  end.
Proof.
  intros Hf. destruct example_after as (m & H).
  destruct (C31_select 0 example_history m enum [] depth gap example_one (example_refs _)
    H) as (r & disc & Es & _ & Hs); [by intros ? ? ?%elem_of_nil|exact Hf|].
  destruct H as [rs E].
  rewrite example_blocks in Hs. destruct (Hs ltac:(done)) as (tip & Ht & Hr). clear Hs.
  apply example_highest in Ht as ->. unfold example_main. rewrite E. clear E. rewrite Es. clear Es.
  assert (forall i, match path !! i with Some b => longest !! i <> None /\
      (forall id, longest !! i = Some id -> text id = b_id b) /\ b_num b + N.of_nat i = 6
      | None => longest !! i = None end) as Hpl.
  { intros i. destruct i as [|[|[|[|[|[|[|i]]]]]]]; cbn; try done;
      (split; [done|split; [intros id Hid; by injection Hid as <-|done]]). }
  specialize (Hpl depth). destruct r as [k|].
  - destruct Hr as (a & Ha & <- & Hd). apply (path_ancestor _ _ 0 _ eq_refl) in Ha.
    cbn [Nat.add] in Ha. rewrite Ha in Hpl. destruct Hpl as (Hne & Hid & Hnum).
    destruct (longest !! depth) as [id|]; [|done]. exists disc. rewrite (Hid id eq_refl).
    split; [done|]. intros k. rewrite Hd. split; intros (b & Hb & Hk & Hl); exists b;
      (split; [done|split; [done|lia]]).
  - destruct Hr as [Hno _]. destruct (path !! depth) as [a|] eqn:Ep.
    + exfalso. apply (Hno a). by apply (path_has _ 0).
    + by rewrite Hpl.
Qed.

(** It prints something exactly for depths up to six. *)
Theorem C31_example_panics enum depth gap : fair enum ->
  (example_main enum depth gap = None <-> (6 < depth)%nat).
Proof.
  intros Hf. pose proof (C31_example_program enum depth gap Hf) as H.
  destruct (longest !! depth) eqn:El.
  - destruct H as (d & -> & _). apply lookup_lt_Some in El. cbn in El. split; [done|lia].
  - rewrite H. apply lookup_ge_None in El. cbn in El. split; [lia|done].
Qed.

Example C31_example_case : fair elements /\
  (fst <$> example_main elements 2 1) = Some (text "4-def3") /\
  (elements ∘ snd <$> example_main elements 5 0) = Some [text "0-aaa0"] /\
  example_main elements 7 0 = None.
Proof. split; [apply elements_fair|]. by vm_compute. Qed.

(** ** The other theorems on this tree *)
Lemma example_child_at p c : child_of example_nodes p c -> b_num c = b_num p + 1.
Proof.
  intros H. apply child_in in H as (Hp & Hc & E).
  assert (forallb (fun p => forallb (fun c => negb (bool_decide (b_parent c = b_id p)) ||
    (b_num c =? b_num p + 1)) example_nodes) example_nodes = true) as H by by vm_compute.
  rewrite forallb_forall in H. apply elem_of_list_In in Hp, Hc.
  specialize (H _ Hp). rewrite forallb_forall in H. specialize (H _ Hc).
  rewrite (bool_decide_true _ E) in H. by apply N.eqb_eq in H.
Qed.

Example C28_queries_case : exists m, after 0 example_history m /\
  mv_get m (text "4-def3") = Some (node "4-def3" 4 "3-cde2") /\ mv_get m (text "9") = None /\
  mv_len m = 13%nat /\ mv_is_empty m = false.
Proof.
  destruct example_after as (m & H). exists m. split; [done|].
  pose proof (fun k => C28_queries 0 _ m k example_one (example_refs _) H) as Q.
  split; [rewrite (proj1 (Q _)), example_blocks; by vm_compute|].
  split; [rewrite (proj1 (Q _)), example_blocks; by vm_compute|].
  destruct (Q (text "9")) as (_ & _ & Hl & He). rewrite Hl, example_blocks.
  split; [done|]. destruct (mv_is_empty m); [|done].
  rewrite example_blocks in He. by destruct He as [He _]; specialize (He eq_refl).
Qed.

Example C28_reinsert_case : exists m, after 0 example_history m /\
  mv_insert m (node "3-cde1" 3 "2-bcd1") = Done m.
Proof.
  destruct example_after as (m & H). exists m. split; [done|].
  apply (C28_reinsert 0 example_history).
  - apply one_block_check. by vm_compute.
  - apply example_refs.
  - done.
  - rewrite (proj1 (C28_queries 0 _ m _ example_one (example_refs _) H)), example_blocks.
    by vm_compute.
Qed.

Example C28_contents_case : exists m, after 0 example_history m /\
  forall b, mv_get m (b_id b) = Some b <-> live example_history b.
Proof.
  destruct example_after as (m & H). exists m. split; [done|]. intros b.
  apply (C28_contents 0 example_history); [apply example_one|apply example_refs| |done].
  intros g Hg. unfold example_history in Hg. apply elem_of_list_fmap in Hg as (? & ? & _). done.
Qed.

Example C30_ancestor_case : exists m, after 0 example_history m /\
  exists r, mv_ancestor m [] (text "5-efg0") 4 = Done r.
Proof.
  destruct example_after as (m & H). exists m. split; [done|].
  destruct (C30_ancestor 0 example_history m [] (node "5-efg0" 5 "4-def0") 4 example_one
    (example_refs _) H) as (r & E & _).
  - by intros ? ? ?%elem_of_nil.
  - rewrite example_blocks. apply elem_of_list_In. cbn. tauto.
  - by exists r.
Qed.

Example C31_height_case : exists m disc, after 0 example_history m /\
  mv_select elements m [] 3 1 = Done (Some (text "3-cde2"), disc) /\
  (forall b, b ∈ example_nodes -> 3 <= b_num b -> b_id b ∉ disc).
Proof.
  destruct example_after as (m & H). pose proof H as [rs E].
  pose proof (C31_example_program elements 3 1 elements_fair) as P. change (longest !! 3%nat) with (Some "3-cde2"%string) in P.
  destruct P as (disc & P & _). unfold example_main in P. rewrite E in P. clear E.
  destruct (mv_select elements m [] 3 1) as [[[k|] d]| |] eqn:Es; try done.
  injection P as -> ->. exists m, disc. split; [done|]. split; [done|].
  destruct (C31_keeps_selected 0 example_history m elements [] 3 1 _ _ example_one
    (example_refs _) H ltac:(by intros ? ? ?%elem_of_nil) elements_fair Es) as (a & Ha & Hk).
  assert (forall p c, child_of (blocks_after 0 example_history) p c -> b_num c = b_num p + 1)
    as Hch by (rewrite example_blocks; apply example_child_at).
  destruct (C31_height 0 example_history m elements [] 3 1 _ _ example_one
    (example_refs _) H ltac:(by intros ? ? ?%elem_of_nil) elements_fair Hch Es)
    as (a' & t & Ha' & Ht & Hn).
  rewrite Ha in Ha'. injection Ha' as <-. rewrite example_blocks in Ht, Hk.
  apply example_highest in Ht as ->. cbn in Hn. intros b Hb Hle. apply Hk; [done|lia].
Qed.

Example C31_preferred_fork_case : exists m, after 0 example_history m /\
  mv_preferred_fork_tip elements m = Done (Some (text "6-fgh3")).
Proof.
  destruct example_after as (m & H). exists m. split; [done|].
  destruct (C31_preferred_fork 0 example_history m elements example_one (example_refs _) H
    elements_fair) as (r & E & Hr). rewrite E. do 2 f_equal.
  destruct H as [rs H].
  assert (match mv_run (mv_new_with ∅ 0) example_history with
    | Done (m, _) => match mv_preferred_fork_tip elements m with Done r => r | _ => None end
    | _ => None end = Some (text "6-fgh3")) as H' by by vm_compute.
  rewrite H, E in H'. done.
Qed.

Lemma example_parents_first : parents_first example_nodes.
Proof.
  intros p c Hp Hc E. apply elem_of_list_lookup in Hp as [j Hj], Hc as [i Hi].
  apply (child_at _ j i); [done|done| |done].
  pose proof (lookup_lt_Some _ _ _ Hi) as Li. pose proof (lookup_lt_Some _ _ _ Hj) as Lj.
  cbn in Li, Lj.
  assert (forallb (fun i => forallb (fun j =>
    match example_nodes !! i, example_nodes !! j with
    | Some c, Some p => negb (bool_decide (b_parent c = b_id p)) || (j <? i)%nat
    | _, _ => false end) (seq 0 13)) (seq 0 13) = true) as F by by vm_compute.
  rewrite forallb_forall in F. specialize (F i ltac:(apply in_seq; lia)).
  rewrite forallb_forall in F. specialize (F j ltac:(apply in_seq; lia)).
  rewrite Hi, Hj, (bool_decide_true _ E) in F. cbn in F. by apply Nat.ltb_lt.
Qed.

Example C29_tips_parents_first_case : exists m, after 0 example_history m /\
  forall k, k ∈ mv_tips m <-> has example_nodes k /\
    forall c, c ∈ example_nodes -> b_parent c <> k.
Proof.
  destruct example_after as (m & H). exists m. split; [done|]. intros k.
  rewrite (C29_tips_parents_first 0 _ m k example_one (example_refs _) H);
    rewrite example_blocks; [done|apply example_parents_first].
Qed.

Example C32_reopen_same_case : exists m m', after 0 example_history m /\
  mv_load_from (m_tree m) 0 = Done m' /\ same_store m m' example_nodes.
Proof.
  destruct example_after as (m & H). exists m.
  destruct (C32_reopen_same 0 0 _ m example_one (example_refs _) H) as (m' & E & Hs).
  - rewrite example_blocks. apply example_parents_first.
  - rewrite example_blocks. intros p c Hp Hc E.
    rewrite (example_child_at p c (example_parents_first p c Hp Hc E)). lia.
  - intros b _.
    assert (s_from (spec_run (empty_store 0) example_history).1 = 0) as -> by by vm_compute. lia.
  - exists m'. rewrite example_blocks in Hs. done.
Qed.

(** The numbers 2 to 5 carry several blocks, of which the iteration shows one each. *)
Example C33_one_per_number_case : exists m, after 0 example_history m /\
  b_num <$> mv_iter elements m = [0; 1; 2; 3; 4; 5; 6] /\
  ~ (forall b, b ∈ example_nodes -> b ∈ mv_iter elements m).
Proof.
  destruct example_after as (m & H). exists m. split; [done|].
  pose proof (C33_complete_iff 0 _ m elements example_one (example_refs _) H elements_fair) as P.
  rewrite example_blocks in P. split.
  - destruct H as [rs H].
    assert (match mv_run (mv_new_with ∅ 0) example_history with
      | Done (m, _) => b_num <$> mv_iter elements m | _ => [] end = [0; 1; 2; 3; 4; 5; 6])
      as H' by by vm_compute.
    by rewrite H in H'.
  - rewrite P. intros Hu.
    specialize (Hu (node "2-bcd0" 2 "1-abc0") (node "2-bcd1" 2 "1-abc0")
      ltac:(apply elem_of_list_In; cbn; tauto) ltac:(apply elem_of_list_In; cbn; tauto) eq_refl).
    by vm_compute in Hu.
Qed.

Definition all_MultiverseCases := (@C31_example_program, @C31_example_panics).
Print Assumptions all_MultiverseCases.
