(** C35 with restarts: when the consumer of the fork-handling source can be restarted *)
From Coq Require Import Lia NArith List.
From stdpp Require Import prelude numbers list gmap sorting.
From Verif Require Import MultiverseModel MultiverseSpec MultiverseProofs MultiverseHistProofs
  MultiverseQueryProofs MultiverseProps SourceModel SourceSpec SourceProofs SourceRunProofs SourceForkProofs SourceForkGrowProofs SourceProps.

Local Open Scope N_scope.

Section restart.
Context {point : Type} `{EqDecision point} (nf : block -> option point).

(** A pull, or a restart of the process: the store is opened again (C32) and the source made anew (rollback.rs:31-63); the queued
    events are gone, the consumer keeps its chain. *)
Inductive ract := RPull (a : fpull (point:=point)) | RRestart (enum : gset bytes -> list bytes).
Definition ract_fair (a : ract) : Prop := match a with RPull a => fpull_fair a | RRestart enum => fair enum end.

(** [None] if the store cannot be opened *)
Definition r_step (w : fworld (point:=point)) (a : ract) : option (fworld (point:=point)) :=
  match a with
  | RPull a => Some (f_step nf w a)
  | RRestart enum =>
      match mv_load_from (m_tree (fh_mv (f_source w))) (m_from (fh_mv (f_source w))) with
      | Done m =>
          match fh_new enum m (fh_depth (f_source w)) with
          | Done st => Some (FWorld st (f_received w) (f_chain w) (f_results w))
          | _ => None
          end
      | _ => None
      end
  end.
Fixpoint r_run (w : fworld (point:=point)) (acts : list ract) : option (fworld (point:=point)) :=
  match acts with
  | [] => Some w
  | a :: acts' => match r_step w a with Some w' => r_run w' acts' | None => None end
  end.

(** A moment at which the process may be stopped: no event is queued, and the block received last is higher than every other. *)
Definition calm (w : fworld (point:=point)) : Prop :=
  fh_events (f_source w) = [] /\
  forall l x, last (f_received w) = Some l -> x ∈ f_received w -> x = l \/ b_num x < b_num l.
(** every restart is at such a moment, and as long as no block has been received, the consumer passes a point *)
Fixpoint well_restarted (w : fworld (point:=point)) (acts : list ract) : Prop :=
  match acts with
  | [] => True
  | a :: acts' =>
      match a with
      | RPull (FPull _ from _) => f_received w = [] -> from <> None
      | RRestart _ => calm w
      end /\
      match r_step w a with Some w' => well_restarted w' acts' | None => True end
  end.

Hypothesis (NF : points_ok nf).

Lemma r_step_received w a w' : r_step w a = Some w' -> exists Q, f_received w' = f_received w ++ Q.
Proof.
  destruct a as [a|enum]; cbn.
  - intros [= <-]. apply f_step_received.
  - destruct (mv_load_from _ _); try done. destruct (fh_new _ _ _); try done. intros [= <-]. exists []. by rewrite app_nil_r.
Qed.
Lemma r_run_received acts : forall w w', r_run w acts = Some w' -> exists Q, f_received w' = f_received w ++ Q.
Proof.
  induction acts as [|a acts IH]; intros w w' E; cbn in E; [injection E as <-; exists []; by rewrite app_nil_r|].
  destruct (r_step w a) as [w1|] eqn:E1; [|done]. destruct (r_step_received _ _ _ E1) as [Q1 H1]. destruct (IH _ _ E) as [Q2 H2].
  exists (Q1 ++ Q2). rewrite H2, H1. by rewrite <- app_assoc.
Qed.

(** the highest block is the last one of the iteration *)
Lemma iter_last enum m s b : rel m s -> fair enum -> b ∈ s_blocks s -> (forall x, x ∈ s_blocks s -> x = b \/ b_num x < b_num b) ->
  last (mv_iter enum m) = Some b.
Proof.
  intros R Hf Hb Hmax. destruct (rel_iter m s enum R Hf) as (Hs & Hin & Hall). destruct (Hall b Hb) as (b' & Hb' & En).
  destruct (Hmax b' (Hin _ Hb')) as [-> |]; [|lia].
  destruct (mv_iter enum m) as [|z L _] using rev_ind; [by apply elem_of_nil in Hb'|]. rewrite last_snoc. f_equal.
  apply elem_of_app in Hb' as [Hb'|Hb']; [|by apply elem_of_list_singleton in Hb'].
  assert (Hlt : b_num b < b_num z).
  { rewrite fmap_app in Hs. cbn in Hs. clear -Hs Hb'. induction L as [|y L IH]; [by apply elem_of_nil in Hb'|]. cbn in Hs.
    apply StronglySorted_inv in Hs as [Hs Hf]. apply elem_of_cons in Hb' as [-> |Hb']; [|by apply IH].
    rewrite Forall_forall in Hf. apply Hf. apply elem_of_app. right. by left. }
  destruct (Hmax z) as [-> |]; [|done|lia]. apply Hin. apply elem_of_app. right. by left.
Qed.

Lemma restart_keeps d w s sg D enum : fair enum -> finv nf w s -> ginv d w sg D -> calm w ->
  exists w' s', r_step w (RRestart enum) = Some w' /\ finv nf w' s' /\ ginv d w' s' D /\
    f_received w' = f_received w /\ f_chain w' = f_chain w /\ f_results w' = f_results w.
Proof.
  intros Hf F G [Hq Hmax]. destruct G as [Rl F0 I Hconf Hdep Hlast Hdesc].
  set (cw := World (Ms (fh_mv (f_source w)) d (fh_confirmed (f_source w))) (f_received w) D []).
  assert (W : winv (point:=point) d None cw sg D) by (do 5 (split; [done|]); split; [by left|constructor]).
  destruct (restart_ok nf enum d None cw sg D Hf W) as (cw' & s' & E & W'). cbn in E. rewrite <- Hdep in E.
  cbn. destruct (mv_load_from (m_tree (fh_mv (f_source w))) (m_from (fh_mv (f_source w)))) as [m| |] eqn:El; try done.
  unfold ms_new in E. unfold fh_new. destruct (mv_select enum m [] (fh_depth (f_source w)) 0) as [[sel disc]| |] eqn:Es; try done.
  injection E as <-. destruct W' as (Rl' & F0' & I' & Hconf' & Hdep' & _). cbn in Rl', I', Hconf', Hdep'.
  assert (Hl : b_id <$> last (mv_iter enum m) = b_id <$> last (f_received w)).
  { destruct (last (f_received w)) as [l|] eqn:Er.
    - rewrite (iter_last enum m s' l Rl' Hf); [done| |].
      + apply (i_elem _ _ _ _ I'). assert (Hlr : l ∈ f_received w) by (apply last_Some in Er as [q ->]; apply elem_of_app; right; by left).
        split; [done|]. pose proof (i_top _ _ _ _ I') as Ht. unfold kept. destruct (last D) as [c|]; [|done]. destruct Ht as (Hc & _).
        destruct (Hmax l c eq_refl Hc) as [-> |]; lia.
      + intros x Hx. apply Hmax; [done|]. by apply (i_elem _ _ _ _ I') in Hx.
    - destruct (mv_iter enum m) as [|z L] eqn:Ei; [done|]. exfalso. destruct (rel_iter m s' enum Rl' Hf) as (_ & Hin & _). rewrite Ei in Hin.
      specialize (Hin z ltac:(by left)). apply (i_elem _ _ _ _ I') in Hin.
      destruct (f_received w) as [|? ? _] using rev_ind; [by apply elem_of_nil in Hin|by rewrite last_snoc in Er]. }
  eexists _, s'. split; [reflexivity|]. split; [|split; [|done]].
  - split; cbn.
    + done.
    + intros b Hb. by apply (i_elem _ _ _ _ I') in Hb.
    + intros k Hk. rewrite Hconf' in Hk. destruct (last D) as [c|] eqn:Ec; [|done]. injection Hk as <-. exists c. apply (rel_get_in _ _ _ Rl').
      apply (i_elem _ _ _ _ I'). unfold kept. rewrite Ec. pose proof (i_top _ _ _ _ I') as Ht. rewrite Ec in Ht. split; [apply Ht|lia].
    + exact Hl.
    + by exists [].
    + pose proof (fi_follows _ _ _ F) as H. unfold consumed in H |- *. rewrite Hq in H. exact H.
    + pose proof (fi_chain _ _ _ F) as H. unfold consumed in H |- *. rewrite Hq in H. exact H.
    + by left.
  - split; cbn; try done. 
Qed.

Lemma r_step_keeps d w s sg D a w' : finv nf w s -> ginv d w sg D -> ract_fair a -> well_restarted w [a] -> r_step w a = Some w' ->
  grows d (f_received w') -> NoDup (f_received w') -> Forall fine (f_results w) ->
  exists s' sg' D', finv nf w' s' /\ ginv d w' sg' D' /\ Forall fine (f_results w').
Proof.
  intros F G Ha Hw E Gr ND Hr. destruct a as [a|enum]; cbn in Hw; destruct Hw as [Hw _].
  - cbn in E. injection E as <-. cbn in Ha.
    destruct (g_step nf NF d w sg D a G Ha Gr ND) as (Hfork & sg' & D' & G').
    { intros enum from ans ->. exact Hw. }
    destruct (f_step_ok nf NF w s a F Ha (tree_sane _ (grows_tree _ _ Gr)) Hfork) as (r & s' & Er & Hfine & _ & F').
    exists s', sg', D'. split; [done|]. split; [done|]. rewrite Er. apply Forall_app. split; [done|]. by constructor.
  - destruct (restart_keeps d w s sg D enum Ha F G Hw) as (w1 & s' & E1 & F1 & G1 & _ & _ & Er). rewrite E1 in E. injection E as <-.
    exists s', s', D. split; [done|]. split; [done|]. by rewrite Er.
Qed.

Lemma r_run_keeps d acts : forall w s sg D w', finv nf w s -> ginv d w sg D -> Forall ract_fair acts -> well_restarted w acts -> r_run w acts = Some w' ->
  grows d (f_received w') -> NoDup (f_received w') -> Forall fine (f_results w) ->
  exists s' sg' D', finv nf w' s' /\ ginv d w' sg' D' /\ Forall fine (f_results w').
Proof.
  induction acts as [|a acts IH]; intros w s sg D w' F G Ha Hw E Gr ND Hr; cbn in E; [injection E as <-; eauto 10|].
  apply Forall_cons in Ha as [Ha1 Ha]. destruct Hw as [Hw1 Hw]. destruct (r_step w a) as [w1|] eqn:E1; [|done].
  destruct (r_run_received _ _ _ E) as [Q HQ].
  destruct (r_step_keeps d w s sg D a w1 F G Ha1) as (s1 & sg1 & D1 & F1 & G1 & Hr1); [split; [done|by rewrite E1]|done| | |done|].
  - rewrite HQ in Gr. by apply grows_prefix in Gr.
  - rewrite HQ in ND. by apply NoDup_app in ND as [? _].
  - by eapply IH.
Qed.

(** Over forks that leave no settled block out, whatever the pulls and with restarts at such moments: no pull panics or runs for ever,
    and after the queued events the consumer holds exactly the chain from the first block received to the last. *)
Theorem C35_restart_follows d acts w : Forall ract_fair acts -> well_restarted (f_start d) acts -> r_run (f_start d) acts = Some w ->
  grows d (f_received w) -> NoDup (f_received w) ->
  follows (f_received w) (consumed nf w) /\ (forall b, b ∈ consumed nf w -> b ∈ f_received w) /\ Forall fine (f_results w).
Proof.
  intros Ha Hw E Gr ND. destruct (r_run_keeps d acts _ _ _ _ w (finv_start nf d) (ginv_start d) Ha Hw E Gr ND) as (s & sg & D & F & _ & Hr); [constructor|].
  split; [apply F|]. split; [apply F|done].
Qed.

(** At such a moment the store can be opened and the source made, and the source goes on with the block that it sent last and with the
    same confirmed block as before. *)
Theorem C35_restart_resumes d acts w enum : Forall ract_fair acts -> well_restarted (f_start d) acts -> r_run (f_start d) acts = Some w ->
  grows d (f_received w) -> NoDup (f_received w) -> fair enum -> calm w ->
  exists w', r_step w (RRestart enum) = Some w' /\ f_chain w' = f_chain w /\ f_received w' = f_received w /\ f_results w' = f_results w /\
    fh_last (f_source w') = fh_last (f_source w) /\ fh_confirmed (f_source w') = fh_confirmed (f_source w) /\ fh_events (f_source w') = [] /\
    forall k, mv_get (fh_mv (f_source w')) k = mv_get (fh_mv (f_source w)) k.
Proof.
  intros Ha Hw E Gr ND Hf Hc. destruct (r_run_keeps d acts _ _ _ _ w (finv_start nf d) (ginv_start d) Ha Hw E Gr ND) as (s & sg & D & F & G & Hr); [constructor|].
  destruct (restart_keeps d w s sg D enum Hf F G Hc) as (w' & s' & E' & F' & G' & Er & Ec & Es). exists w'. split; [done|]. do 3 (split; [done|]).
  split; [rewrite (gi_last _ _ _ _ G'), (gi_last _ _ _ _ G); by rewrite Er|].
  split; [by rewrite (gi_conf _ _ _ _ G'), (gi_conf _ _ _ _ G)|]. split.
  - cbn in E'. destruct (mv_load_from _ _) as [m| |]; try done. destruct (fh_new enum m _) as [st| |] eqn:En; try done. injection E' as <-. cbn.
    unfold fh_new in En. destruct (mv_select _ _ _ _ _) as [[]| |]; try done. by injection En as <-.
  - pose proof (gi_rel _ _ _ _ G) as R1. destruct (rel_reopen _ _ (m_from (fh_mv (f_source w))) R1) as (m & El & Rm).
    assert (Em : fh_mv (f_source w') = m).
    { cbn in E'. rewrite El in E'. destruct (fh_new enum m _) as [st| |] eqn:En; try done. injection E' as <-. cbn.
      unfold fh_new in En. destruct (mv_select _ _ _ _ _) as [[]| |]; try done. by injection En as <-. }
    rewrite Em. intro k.
    assert (X : forall b, b ∈ merge_sort block_le (s_disk sg) <-> b ∈ s_blocks sg).
    { intro b. rewrite merge_sort_Permutation. split; [apply R1|]. intro Hb. apply (r_kept _ _ R1); [done|]. rewrite (gi_from _ _ _ _ G). lia. }
    destruct (mv_get m k) as [b|] eqn:E1.
    + apply (rel_get_some _ _ _ _ Rm) in E1 as [E1 <-]. cbn in E1. rewrite X in E1. by rewrite (rel_get_in _ _ _ R1 E1).
    + destruct (mv_get (fh_mv (f_source w)) k) as [b|] eqn:E2; [|done]. apply (rel_get_some _ _ _ _ R1) in E2 as [E2 <-]. rewrite <- X in E2.
      pose proof (rel_get_in _ _ b Rm E2). congruence.
Qed.

End restart.
Arguments ract : clear implicits.

(** ** concrete cases *)
(** A chain with two restarts, a fork of the same height that branches off two blocks back, the way back, and a third restart. *)
Definition ex_racts : list (ract bytes) :=
  map RPull [fpull_block (sx 10 9 5); fidle; fpull_block (sx 11 10 6)] ++ [RRestart elements] ++ map RPull [fpull_block (sx 12 11 7)] ++ [RRestart elements] ++
  map RPull [fpull_block (sx 21 10 6); fidle; fpull_block (sx 22 21 7); fpull_block (sx 13 12 8); fidle; fidle; fidle] ++ [RRestart elements].
Definition r_obs (o : option (fworld (point:=bytes))) : option (list block * list block * list (fevent bytes)) :=
  match o with Some w => Some (f_received w, f_chain w, fh_events (f_source w)) | None => None end.
Lemma ex_calm acts : match r_obs (r_run ex_nf (f_start 2) acts) with
    | Some (R, _, q) => bool_decide (q = []) && match last R with Some l => forallb (fun x => bool_decide (x = l) || (b_num x <? b_num l)) R | None => true end
    | None => false end = true ->
  forall w, r_run ex_nf (f_start 2) acts = Some w -> calm w.
Proof.
  intros H w E. rewrite E in H. cbn in H. apply andb_prop in H as [H1 H2]. apply bool_decide_eq_true in H1. split; [exact H1|].
  intros l x Hl Hx. rewrite Hl in H2. rewrite forallb_forall in H2. apply elem_of_list_In, H2, orb_prop in Hx as [Hx|Hx]; [left; by apply bool_decide_eq_true in Hx|right; by apply N.ltb_lt in Hx].
Qed.
Lemma r_run_snoc acts a w w1 : r_run ex_nf w (acts) = Some w1 -> r_run ex_nf w (acts ++ [a]) = r_step ex_nf w1 a.
Proof. revert w. induction acts as [|b acts IH]; intros w E; cbn in *; [injection E as ->; by destruct (r_step _ _ _)|]. destruct (r_step ex_nf w b); [|done]. by apply IH. Qed.
Lemma well_restarted_all w acts pre : r_run ex_nf (f_start 2) pre = Some w -> Forall (fun a => match a with RPull (FPull _ from _) => from <> None | RRestart _ => True end) acts ->
  (forall i enum, acts !! i = Some (RRestart enum) -> forall w', r_run ex_nf (f_start 2) (pre ++ take i acts) = Some w' -> calm w') -> well_restarted ex_nf w acts.
Proof.
  revert w pre. induction acts as [|a acts IH]; intros w pre E Hf Hc; [done|]. apply Forall_cons in Hf as [Ha Hf]. split.
  - destruct a as [[en from an]|enum]; [done|]. apply (Hc 0%nat enum eq_refl). cbn. by rewrite app_nil_r.
  - destruct (r_step ex_nf w a) as [w1|] eqn:E1; [|done]. apply (IH w1 (pre ++ [a])); [by rewrite (r_run_snoc _ _ _ _ E)|done|].
    intros i enum Hi w' Hw'. apply (Hc (S i) enum Hi). cbn. by rewrite <- app_assoc in Hw'.
Qed.
Example C35_restart_case : exists w, r_run ex_nf (f_start 2) ex_racts = Some w /\
  Forall ract_fair ex_racts /\ well_restarted ex_nf (f_start 2) ex_racts /\ grows 2 (f_received w) /\ NoDup (f_received w) /\
  f_chain w = [sx 10 9 5; sx 11 10 6; sx 12 11 7; sx 13 12 8].
Proof.
  assert (r_obs (r_run ex_nf (f_start 2) ex_racts) = Some ([sx 10 9 5; sx 11 10 6; sx 12 11 7; sx 21 10 6; sx 22 21 7; sx 13 12 8],
    [sx 10 9 5; sx 11 10 6; sx 12 11 7; sx 13 12 8], [])) as E by (by vm_compute).
  destruct (r_run ex_nf (f_start 2) ex_racts) as [w|] eqn:Ew; [|done]. injection E as ER EC EQ.
  exists w. split; [done|]. split; [unfold ex_racts, fpull_block, fidle; cbn -[elements]; repeat (apply Forall_cons; split; [cbn -[elements]; apply elements_fair|]); by apply Forall_nil|]. split; [|split; [rewrite ER; apply ex_fgrows|split; [|done]]].
  - apply (well_restarted_all _ _ []); [done|unfold ex_racts, fpull_block, fidle; cbn -[elements]; repeat (apply Forall_cons; split; [done|]); by apply Forall_nil|]. intros i enum Hi. cbn [app].
    apply ex_calm. do 14 (destruct i as [|i]; [first [discriminate Hi|vm_compute; reflexivity]|]). discriminate Hi.
  - rewrite ER. apply (bool_decide_unpack _). by vm_compute.
Qed.

(** ** what does not hold *)
(** Stopped while an event is queued, the source does not send it after the restart: the first pull answers with a rollback to the start
    and queues the first block; the consumer goes on with the second. *)
Theorem C35_restart_queued_refuted : exists acts w, Forall ract_fair acts /\ r_run ex_nf (f_start 2) acts = Some w /\
  f_received w = [sx 10 9 5; sx 11 10 6] /\ consumed ex_nf w = [sx 11 10 6].
Proof.
  set (acts := [RPull (fpull_block (sx 10 9 5)); RRestart elements; RPull (fpull_block (sx 11 10 6))]).
  assert (r_obs (r_run ex_nf (f_start 2) acts) = Some ([sx 10 9 5; sx 11 10 6], [sx 11 10 6], [])) as E by (by vm_compute).
  destruct (r_run ex_nf (f_start 2) acts) as [w|] eqn:Ew; [|done]. injection E as ER EC EQ. exists acts, w.
  split; [unfold acts; repeat (apply Forall_cons; split; [cbn -[elements]; apply elements_fair|]); by apply Forall_nil|]. split; [done|]. split; [done|]. unfold consumed. rewrite EQ, EC. reflexivity.
Qed.

Definition C35_restart_all := (@C35_restart_follows, @C35_restart_resumes, C35_restart_queued_refuted).
Print Assumptions C35_restart_all.
