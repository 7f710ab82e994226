(** * C67: the fork-handling source after a crash in the middle of a pull *)
From Coq Require Import Lia NArith List.
From stdpp Require Import prelude numbers gmap sorting list.
From Verif Require Import MultiverseModel MultiverseSpec MultiverseProofs MultiverseHistProofs
  MultiverseQueryProofs MultiverseProps MultiverseCrashModel MultiverseCrashProps SourceModel SourceSpec
  SourceProofs SourceRunProofs SourceForkProofs SourceForkGrowProofs SourceProps SourceRestartProps
  SourceCrashModel SourceCrashProps.

Local Open Scope N_scope.

Section forkcrash.
Context {point : Type} `{EqDecision point} (nf : block -> option point).

(** A pull of the fork-handling source that neither fails nor panics changes the tree by its
    writes. *)
Theorem C67_fork_pull_writes enum st from ans st' asked r :
  fh_pull nf enum st from ans = (st', asked, r) -> r <> PErr -> r <> PPanic ->
  m_tree (fh_mv st') = apply_writes (m_tree (fh_mv st)) (fh_pull_writes nf enum st from ans).1.
Proof.
  unfold fh_pull, fh_pull_writes. intros E H1 H2.
  destruct (fh_events st); [|by injection E as <- <- <-].
  destruct (fh_checkpoints nf enum st from) as [r0|cps]; [by injection E as <- <- <-|].
  destruct ans as [| |[t|b]]; [by injection E as <- <- <-..|].
  destruct (mv_get (fh_mv st) (b_id b)) as [x|]; [by injection E as <- <- <-|].
  destruct (insert_and_gc enum (fh_mv st) b (fh_depth st)) as [[m' sel]| |] eqn:Ei;
    [|by injection E as <- <- <-..].
  destruct (fh_switch nf m' [] (fh_last st) b from) as [q r']. injection E as <- <- <-.
  cbn [fh_mv fst]. revert Ei. unfold insert_and_gc, insert_and_gc_writes.
  destruct (mv_insert (fh_mv st) b) as [m1| |] eqn:E1; try done.
  destruct (mv_select enum m1 [] (fh_depth st) 1) as [[sl dc]| |]; try done.
  destruct (gc m1 _ _) as [m2| |] eqn:E3; try done. intros [= <- <-].
  rewrite apply_writes_app, (gc_tree _ _ _ _ E3). f_equal.
  apply (C67_call_writes (fh_mv st) (OInsert b) m1 RUnit). cbn [mv_step]. by rewrite E1.
Qed.

Hypothesis (NF : points_ok nf).

(** The crash before the first write of a pull is a restart: C35 holds on. *)
Theorem C67_fork_crash_before w enum from ans enum' :
  f_crash nf w enum from ans 0 enum' = r_step nf w (RRestart enum').
Proof.
  unfold f_crash. destruct (fh_pull_writes nf enum (f_source w) from ans) as [ws bs].
  cbn [r_step take]. by rewrite app_nil_r.
Qed.

(** Once the block is written, the crash makes the consumer miss it: the source can be
    started, but goes on as if the block had been delivered.  The consumer's next block is
    the child of that block. *)
Theorem C67_fork_crash_gap d acts w enum from b n enum' : Forall ract_fair acts ->
  well_restarted nf (f_start d) acts -> r_run nf (f_start d) acts = Some w ->
  calm w -> fair enum -> fair enum' -> b ∉ f_received w ->
  (forall x, x ∈ f_received w -> b_num x < b_num b) ->
  NoDup (f_received w) -> grows d (f_received w ++ [b]) ->
  exists w', f_crash nf w enum from (AEvent (EvBlock b)) (S n) enum' = Some w' /\
    f_chain w' = f_chain w /\ b ∉ f_chain w' /\ fh_events (f_source w') = [] /\
    forall enum2 from2 c, fair enum2 -> b_parent c = b_id b -> c <> b ->
      grows d (f_received w ++ [b; c]) ->
      let w2 := f_step nf w' (FPull enum2 from2 (AEvent (EvBlock c))) in
      last (f_results w2) = Some (PEvent (FInner (EvBlock c))) /\
      f_chain w2 = f_chain w ++ [c] /\ b ∉ f_chain w2 /\ fh_events (f_source w2) = [].
Proof.
  intros Ha Hw E [Hq Hcalm] Hf Hf' Hb Hhigh ND G.
  assert (grows d (f_received w)) as G0 by (by eapply grows_prefix).
  destruct (r_run_keeps nf NF d acts _ _ _ _ w (finv_start nf d) (ginv_start d) Ha Hw E G0 ND)
    as (s0 & s & D & F & Gi & _); [constructor|].
  destruct Gi as [Rl F0 I Hconf Hdep Hlast Hdesc].
  assert (b ∉ f_chain w) as Hch.
  { intros Hin. apply Hb. apply (fi_chain _ _ _ F). unfold consumed. by rewrite Hq. }
  assert (forall m s D R, rel m s -> inv d (s_blocks s) R D -> conf_ok m (b_id <$> last D)) as Hco.
  { clear. intros m s D R Rl I k Hk. destruct (last D) as [c|] eqn:El; [|done]. injection Hk as <-.
    exists c. apply (rel_get_in _ _ _ Rl). apply (i_elem _ _ _ _ I). unfold kept. rewrite El.
    pose proof (i_top _ _ _ _ I) as Ht. rewrite El in Ht. split; [apply Ht|lia]. }
  assert (~ has (s_blocks s) (b_id b)) as Hh.
  { intros (x & Hx & Ex)%has_elem. apply (i_elem _ _ _ _ I) in Hx.
    pose proof (grows_tree _ _ G) as T. apply Hb.
    rewrite <- (t_id _ T x b); [done| | |done]; apply elem_of_app; [by left|right; by left]. }
  assert (mv_get (fh_mv (f_source w)) (b_id b) = None) as Hg by (by apply (rel_get_none _ _ _ Rl)).
  unfold f_crash, fh_pull_writes. rewrite Hq.
  rewrite (fh_checkpoints_ok nf NF enum _ from s Hf Rl); [|rewrite Hconf; by eapply Hco].
  rewrite Hg, Hdep.
  destruct (insert_gc_inv enum d _ s _ D b Hf Rl F0 I Hh G)
    as (m2 & s2 & sel & D' & E1 & R2 & F2 & I2 & _ & _).
  destruct (insert_gc_part enum _ s b d n Hf Rl F0 (received_small _ _ _ G) Hh)
    as (m' & s' & R' & Et & Em & F' & H1 & H2).
  rewrite <- Et, <- Em.
  destruct (reopen_ok enum' d m' s' _ _ D' Hf' R' F' I2) as (m3 & s3 & E3 & R3 & F3 & I3 & En).
  { by apply (H2 m2 s2 sel). }
  { intros x Hx. apply H1 in Hx. apply elem_of_app in Hx as [Hx|Hx]; apply elem_of_app;
      [left; by apply (i_elem _ _ _ _ I)|by right]. }
  rewrite E3. unfold ms_new in En. unfold fh_new.
  destruct (mv_select enum' m3 [] d 0) as [[sl dc]| |]; try done. injection En as ->.
  assert (forall x, x ∈ f_received w ++ [b] -> x = b \/ b_num x < b_num b) as Htop.
  { intros x [Hx|Hx]%elem_of_app; [right; auto|left]. by apply elem_of_list_singleton in Hx. }
  assert (b ∈ f_received w ++ [b]) as HbR by (apply elem_of_app; right; by left).
  assert (last (mv_iter enum' m3) = Some b) as Hl.
  { apply (iter_last enum' m3 s3 b R3 Hf').
    - apply (i_elem _ _ _ _ I3). split; [done|]. unfold kept.
      pose proof (i_top _ _ _ _ I3) as Ht. destruct (last D') as [c|]; [|done].
      destruct Ht as (Hc & _). destruct (Htop c Hc) as [->|]; lia.
    - intros x Hx. apply Htop. by apply (i_elem _ _ _ _ I3). }
  eexists. split; [reflexivity|]. cbn [f_chain f_source fh_events].
  split; [done|]. split; [done|]. split; [done|].
  intros enum2 from2 c Hf2 Hpar Hne Gc. rewrite Hl. cbn [fmap option_fmap option_map].
  rewrite (assoc_L (++) (f_received w) [b] [c] : f_received w ++ [b; c] = (f_received w ++ [b]) ++ [c]) in Gc.
  pose proof (grows_tree _ _ Gc) as T.
  assert (c ∉ f_received w ++ [b]) as Hcn.
  { intros Hin. pose proof (grows_tree _ _ G) as T'. pose proof (t_link _ T' b c HbR Hin Hpar).
    destruct (Htop c Hin) as [->|]; [done|lia]. }
  assert (~ has (s_blocks s3) (b_id c)) as Hh3.
  { intros (x & Hx & Ex)%has_elem. apply (i_elem _ _ _ _ I3) in Hx. apply Hcn.
    rewrite <- (t_id _ T x c); [done| | |done]; apply elem_of_app; [by left|right; by left]. }
  assert (mv_get m3 (b_id c) = None) as Hg3 by (by apply (rel_get_none _ _ _ R3)).
  destruct (insert_gc_inv enum2 d _ s3 _ D' c Hf2 R3 F3 I3 Hh3 Gc)
    as (m4 & s4 & sel4 & D4 & E4 & _).
  unfold f_step. cbn [f_source].
  unfold fh_pull. cbn [fh_events].
  rewrite (fh_checkpoints_ok nf NF enum2 (Fh m3 d (b_id <$> last D') (Some (b_id b)) []) from2 s3 Hf2 R3)
    by (cbn [fh_confirmed fh_mv]; by eapply Hco).
  cbn [fh_mv fh_depth]. rewrite Hg3, E4. unfold fh_switch. cbn [fh_last].
  rewrite decide_True by (by rewrite Hpar). cbn [f_results f_chain f_source fh_events].
  split; [by rewrite last_snoc|]. split; [done|]. split; [|done].
  cbn. intros [Hin|Hin]%elem_of_app; [done|]. apply elem_of_list_singleton in Hin. by subst c.
Qed.

End forkcrash.

(** ** A case: three blocks are delivered, the pull of the fourth dies after its first write,
    and the consumer gets the fifth on top of the third *)
Definition ex_fcacts : list (ract bytes) :=
  map RPull [fpull_block (sx 10 9 5); fidle; fpull_block (sx 11 10 6); fpull_block (sx 12 11 7)].

Definition fw_obs (o : option (fworld (point := bytes))) :=
  match o with Some w => Some (f_received w, f_chain w, fh_events (f_source w)) | None => None end.

Lemma ex_fchain : grows 2 [sx 10 9 5; sx 11 10 6; sx 12 11 7; sx 13 12 8; sx 14 13 9].
Proof.
  apply chain_grows. split; [done|].
  split; [apply (bool_decide_unpack _); by vm_compute|]. split.
  - intros b Hb. list_cases; done.
  - intros f p [= <-] Hp. list_cases; done.
Qed.

Example C67_fork_case : exists w w', r_run ex_nf (f_start 2) ex_fcacts = Some w /\
  Forall ract_fair ex_fcacts /\ well_restarted ex_nf (f_start 2) ex_fcacts /\ calm w /\
  NoDup (f_received w) /\ f_received w = [sx 10 9 5; sx 11 10 6; sx 12 11 7] /\
  grows 2 (f_received w ++ [sx 13 12 8; sx 14 13 9]) /\
  f_crash ex_nf w elements (Some [12]) (AEvent (EvBlock (sx 13 12 8))) 1 elements = Some w' /\
  f_chain (f_step ex_nf w' (fpull_block (sx 14 13 9))) =
    [sx 10 9 5; sx 11 10 6; sx 12 11 7; sx 14 13 9].
Proof.
  assert (fw_obs (r_run ex_nf (f_start 2) ex_fcacts) = Some ([sx 10 9 5; sx 11 10 6; sx 12 11 7],
    [sx 10 9 5; sx 11 10 6; sx 12 11 7], [])) as E by (by vm_compute).
  assert (match (w ← r_run ex_nf (f_start 2) ex_fcacts;
      f_crash ex_nf w elements (Some [12]) (AEvent (EvBlock (sx 13 12 8))) 1 elements) with
    | Some w' => f_chain (f_step ex_nf w' (fpull_block (sx 14 13 9))) =
        [sx 10 9 5; sx 11 10 6; sx 12 11 7; sx 14 13 9]
    | None => False end) as E' by (by vm_compute).
  destruct (r_run ex_nf (f_start 2) ex_fcacts) as [w|] eqn:Ew; [|done]. cbn [mbind option_bind] in E'.
  destruct (f_crash ex_nf w elements (Some [12]) _ 1 elements) as [w'|] eqn:Ec; [|done].
  injection E as ER EC EQ. exists w, w'. split; [done|].
  split; [unfold ex_fcacts, fpull_block, fidle; cbn -[elements];
    repeat (apply Forall_cons; split; [cbn -[elements]; apply elements_fair|]); by apply Forall_nil|].
  split.
  { apply (well_restarted_all _ _ []); [done| |].
    - unfold ex_fcacts, fpull_block, fidle; cbn -[elements];
        repeat (apply Forall_cons; split; [done|]); by apply Forall_nil.
    - intros i enum Hi. do 4 (destruct i as [|i]; [discriminate Hi|]). discriminate Hi. }
  split.
  { split; [done|]. rewrite ER. intros l x [= <-] Hx. list_cases; [by right|by right|by left]. }
  rewrite ER. split; [apply (bool_decide_unpack _); by vm_compute|]. split; [done|].
  split; [apply ex_fchain|]. split; [done|exact E'].
Qed.

Definition all_SourceForkCrashProps := (@C67_fork_pull_writes, @C67_fork_crash_before,
  @C67_fork_crash_gap, @C67_fork_case).
Print Assumptions all_SourceForkCrashProps.
