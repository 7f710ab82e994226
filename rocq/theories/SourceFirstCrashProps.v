(** C67: a crash inside the pull that confirms the first block, of a consumer that began with a point: it never gets a block. *)
From Coq Require Import Lia NArith List.
From stdpp Require Import prelude numbers gmap sorting list.
From Verif Require Import MultiverseModel MultiverseSpec MultiverseProofs MultiverseProps MultiverseCrashModel SourceModel SourceSpec SourceProofs
  SourceRunProofs SourceProps SourceCrashModel SourceCrashProps.
Local Open Scope N_scope.

Section first.
Context {point : Type} `{EqDecision point} (nf : block -> option point) (NF : points_ok nf).

(** the state of a source that has confirmed x, if its consumer has nothing *)
Definition ahead (d : nat) (p0 : point) (x : block) (w : world) : Prop :=
  w_accepted w = [] /\ exists s, winv d (Some p0) (World (w_source w) (w_received w) [x] []) s [x].

Lemma ahead_fails enum d p0 x w : fair enum -> ahead d p0 x w -> (forall y, y ∈ w_received w -> nf y <> Some p0) ->
  ms_checkpoints nf enum (w_source w) (Some p0) = inl PErr.
Proof.
  intros Hf (_ & s & W) Hn. destruct W as (Rl & F0 & I & Hc & Hd & _). cbn in Rl, I, Hc, Hd.
  unfold ms_checkpoints.
  destruct (tip_points_ok nf NF (ms_mv (w_source w)) s (enum (mv_tips (ms_mv (w_source w)))) Rl) as (ps & E & _).
  { intros k. by rewrite (Hf _), elem_of_elements. }
  rewrite E. unfold ms_confirmed_with_parent. rewrite Hc. cbn.
  assert (x ∈ w_received w) as HxR by (pose proof (i_top _ _ _ _ I) as Ht; apply Ht).
  assert (x ∈ s_blocks s) as HxS by (apply (i_elem _ _ _ _ I); split; [done|cbn; lia]).
  rewrite (rel_get_in _ _ _ Rl HxS). cbn. destruct (proj1 NF x) as [pt Hpt]. rewrite Hpt. cbn.
  rewrite decide_False.
  - rewrite decide_False; [done|]. intros ->. by destruct (Hn _ HxR).
  - intros Hpar. destruct (mv_get (ms_mv (w_source w)) (b_parent x)) as [p|] eqn:Eg; [|done]. cbn in Hpar.
    apply (rel_get_some _ _ _ _ Rl) in Eg as [Hp _]. apply (i_elem _ _ _ _ I) in Hp. by destruct (Hn _ Hp).
Qed.

Lemma ahead_reopens enum d p0 x w : fair enum -> ahead d p0 x w ->
  exists w', w_step nf (Some p0) w (Reopen enum) = Some w' /\ ahead d p0 x w' /\ w_received w' = w_received w /\ w_results w' = w_results w.
Proof.
  intros Hf (Ha & s & W). destruct (restart_ok nf enum d (Some p0) _ s [x] Hf W) as (v & s' & Ev & V). cbn [w_step w_source] in Ev |- *.
  destruct (mv_load_from _ _) as [m| |]; try done. destruct (ms_new _ _ _) as [st'| |]; try done. injection Ev as <-.
  eexists. split; [reflexivity|]. split; [|done]. split; [done|]. exists s'. exact V.
Qed.

(** Once it is so, it stays so, and every pull fails. *)
Lemma ahead_forever d p0 x acts : Forall cact_fair acts -> forall w, ahead d p0 x w -> (forall y, y ∈ w_received w -> nf y <> Some p0) ->
  exists w2 rs, c_run nf (Some p0) w acts = Some w2 /\ w_accepted w2 = [] /\ w_results w2 = w_results w ++ rs /\ Forall (fun ar => ar = (ANone, PErr)) rs.
Proof.
  induction 1 as [|a acts Ha _ IH]; intros w A Hn; cbn [c_run].
  { exists w, []. rewrite app_nil_r. split; [done|]. split; [apply A|done]. }
  pose proof A as (Hacc & _). destruct a as [[enum ans accept|enum]|enum ans n enum']; cbn [c_step].
  - cbn [w_step]. unfold ms_pull. rewrite Hacc. change (resume_point nf (Some p0) []) with (Some p0). rewrite (ahead_fails enum d p0 x w Ha A Hn).
    cbv beta iota. rewrite !app_nil_r.
    destruct (IH (World (w_source w) (w_received w) [] (w_results w ++ [(ANone, PErr)]))) as (w2 & rs & H1 & H2 & H3 & H4); [|done|].
    { split; [done|]. apply A. }
    exists w2, ((ANone, PErr) :: rs). split; [done|]. split; [done|]. cbn [w_results] in H3. rewrite H3, <- app_assoc. split; [done|]. by constructor.
  - destruct (ahead_reopens enum d p0 x w Ha A) as (w' & -> & A' & E1 & E2).
    destruct (IH w' A') as (w2 & rs & H1 & H2 & H3 & H4); [by rewrite E1|]. exists w2, rs. rewrite E2 in H3. auto.
  - destruct Ha as [Hf Hf']. unfold pull_writes. rewrite Hacc. change (resume_point nf (Some p0) []) with (Some p0). rewrite (ahead_fails enum d p0 x w Hf A Hn).
    destruct (ahead_reopens enum' d p0 x w Hf' A) as (w' & E & A' & E1 & E2). cbn [w_step] in E. rewrite take_nil. cbn [apply_writes foldl].
    assert (forall n : nat, match n with O => [] | S _ => [] end = @nil block) as En by (by intros []). rewrite En, app_nil_r. rewrite Hacc in E. rewrite E.
    destruct (IH w' A') as (w2 & rs & H1 & H2 & H3 & H4); [by rewrite E1|]. exists w2, rs. rewrite E2 in H3. auto.
Qed.

(** the crash *)
Lemma first_crash enum enum' d p0 w s D b n st asked x : fair enum -> fair enum' -> winv d (Some p0) w s D -> w_accepted w = [] ->
  ms_pull nf enum (w_source w) (Some p0) (AEvent (EvBlock b)) = (st, asked, PEvent (EvBlock x)) -> grows d (w_received w ++ [b]) ->
  exists w', c_step nf (Some p0) w (CCrash enum (AEvent (EvBlock b)) (S n) enum') = Some w' /\ ahead d p0 x w' /\
    w_received w' = w_received w ++ [b] /\ w_results w' = w_results w.
Proof.
  intros Hf Hf' W Hacc E G.
  assert (D = []) as ->.
  { destruct W as (_ & _ & _ & _ & _ & [<- |(y & _ & Hy)] & _); [done|]. by specialize (Hy Hacc). }
  assert (W0 : winv d (@None point) w s []) by (destruct W as (? & ? & ? & ? & ? & ? & ?); do 5 (split; [done|]); split; [by left|done]).
  assert (Hnew : mv_get (ms_mv (w_source w)) (b_id b) = None /\ exists m' sel, insert_and_gc enum (ms_mv (w_source w)) b (ms_depth (w_source w)) = Done (m', sel)).
  { unfold ms_pull in E. destruct (ms_checkpoints _ _ _ _) as [r|] eqn:Ecp.
    - injection E as _ _ ->. destruct (checkpoints_ok nf NF enum d (Some p0) w s [] Hf W) as [[_ X]|(y & X & _)]; [|by destruct (w_accepted w)].
      rewrite Hacc in X. change (resume_point nf (Some p0) []) with (Some p0) in X. rewrite X in Ecp. discriminate.
    - destruct (mv_get _ _); [discriminate|]. split; [done|]. destruct (insert_and_gc _ _ _ _) as [[m' sel]| |]; [eauto|discriminate..]. }
  destruct Hnew as (Hnew & m' & sel & Hgc).
  assert (Hcp : forall p, exists cps, ms_checkpoints nf enum (w_source w) p = inr cps).
  { intro p. unfold ms_checkpoints. destruct W as (Rl & _ & _ & Hc & _).
    destruct (tip_points_ok nf NF (ms_mv (w_source w)) s (enum (mv_tips (ms_mv (w_source w)))) Rl) as (ps & E1 & _).
    { intros k. by rewrite (Hf _), elem_of_elements. }
    rewrite E1. unfold ms_confirmed_with_parent. rewrite Hc. cbn. eauto. }
  assert (Hpw : forall p, pull_writes nf enum (w_source w) p (AEvent (EvBlock b)) = (insert_and_gc_writes enum (ms_mv (w_source w)) b (ms_depth (w_source w)), [b])).
  { intro p. unfold pull_writes. destruct (Hcp p) as [cps ->]. by rewrite Hnew. }
  destruct (crash_ok nf NF enum (AEvent (EvBlock b)) (S n) enum' d None w s [] Hf Hf' (or_introl eq_refl) W0) as (w' & s' & D' & Hc & W').
  { by rewrite Hpw. }
  exists w'. split; [|].
  { rewrite <- Hc. cbn [c_step]. by rewrite !Hpw. }
  assert (Hw' : w_accepted w' = [] /\ w_received w' = w_received w ++ [b] /\ w_results w' = w_results w).
  { cbn [c_step] in Hc. rewrite Hpw in Hc. destruct (mv_load_from _ _); [|discriminate..]. destruct (ms_new _ _ _); [|discriminate..]. by injection Hc as <-. }
  destruct Hw' as (A1 & A2 & A3). split; [|auto]. split; [done|]. exists s'.
  (* what is settled now is x *)
  destruct (w_step nf (Some p0) w (Pull enum (AEvent (EvBlock b)) true)) as [w1|] eqn:E1.
  2:{ cbn [w_step] in E1. rewrite Hacc in E1. change (resume_point nf (Some p0) []) with (Some p0) in E1. rewrite E in E1. discriminate. }
  assert (Hw1 : w_accepted w1 = [x] /\ w_received w1 = w_received w ++ [b]).
  { cbn [w_step] in E1. rewrite Hacc in E1. change (resume_point nf (Some p0) []) with (Some p0) in E1. rewrite E in E1. injection E1 as <-. split; [done|].
    cbn [w_received]. unfold ms_pull in E. destruct (Hcp (Some p0)) as [cps Ecp]. rewrite Ecp, Hnew, Hgc in E.
    destruct (new_stable _ _); [|discriminate]. destruct (mv_get m' _); [|discriminate]. by injection E as _ <- _. }
  destruct Hw1 as [B1 B2].
  destruct (pull_ok nf NF enum (AEvent (EvBlock b)) true d (Some p0) w s [] w1 Hf W (or_intror eq_refl) E1) as (s1 & D1 & W1 & Ha1); [by rewrite B2|].
  specialize (Ha1 eq_refl). rewrite B1 in Ha1. subst D1.
  assert (D' = [x]) as ->.
  { apply (C34_settled_chain_unique d (w_received w')); [by rewrite A2| |].
    - destruct W' as (_ & _ & I' & _). apply I'.
    - destruct W1 as (_ & _ & I1 & _). rewrite A2, <- B2. apply I1. }
  destruct W' as (? & ? & ? & ? & ? & ? & ?). do 5 (split; [done|]). split; [by left|constructor].
Qed.

(** A consumer began with a point, accepted all it got, and got nothing yet; a pull would give it its first block. If the process stops
    inside this pull when the received block is written, the source can be started, but every pull from then on fails without asking
    the wrapped source, whatever happens and however often the process is started again. *)
Theorem C67_first_lost d p0 acts w enum b st asked x n enum' :
  Forall act_fair acts -> Forall accepts acts -> w_run nf (Some p0) (w_start d) acts = Some w -> w_accepted w = [] ->
  fair enum -> fair enum' -> ms_pull nf enum (w_source w) (Some p0) (AEvent (EvBlock b)) = (st, asked, PEvent (EvBlock x)) ->
  grows d (w_received w ++ [b]) -> (forall y, y ∈ w_received w ++ [b] -> nf y <> Some p0) ->
  exists w', c_step nf (Some p0) w (CCrash enum (AEvent (EvBlock b)) (S n) enum') = Some w' /\
    forall acts2, Forall cact_fair acts2 -> exists w2 rs, c_run nf (Some p0) w' acts2 = Some w2 /\ w_accepted w2 = [] /\
      w_results w2 = w_results w' ++ rs /\ Forall (fun ar => ar = (ANone, PErr)) rs.
Proof.
  intros Hfa Hac Hrun Hacc Hf Hf' E G Hn.
  destruct (w_run_ok nf NF d (Some p0) acts Hfa) with (w := @w_start d) (s := empty_store 0) (D := @nil block) (w' := w) as (s & D & W & _).
  { eapply Forall_impl; [exact Hac|]. by right. }
  { apply winv_start. } { done. } { by eapply grows_prefix. }
  destruct (first_crash enum enum' d p0 w s D b n st asked x Hf Hf' W Hacc E G) as (w' & Hc & A & Hr & _).
  exists w'. split; [done|]. intros acts2 Hf2. apply (ahead_forever d p0 x acts2 Hf2 w' A). by rewrite Hr.
Qed.
End first.

(** Non-vacuity: the hypotheses are met with three blocks and the depth 2, and this is what happens. *)
Definition ex_first : list act := [pull_block (sx 10 9 5) true; pull_block (sx 11 10 6) true].
Example C67_first_lost_case : exists w st asked, Forall act_fair ex_first /\ Forall accepts ex_first /\
  w_run ex_nf (Some [9]) (w_start 2) ex_first = Some w /\ w_accepted w = [] /\
  ms_pull ex_nf elements (w_source w) (Some [9]) (AEvent (EvBlock (sx 12 11 7))) = (st, asked, PEvent (EvBlock (sx 10 9 5))) /\
  grows 2 (w_received w ++ [sx 12 11 7]) /\ (forall y, y ∈ w_received w ++ [sx 12 11 7] -> ex_nf y <> Some [9]).
Proof.
  assert (w_obs (w_run ex_nf (Some [9]) (w_start 2) ex_first) = Some ([sx 10 9 5; sx 11 10 6], [])) as E by (by vm_compute).
  assert (match w_run ex_nf (Some [9]) (w_start 2) ex_first with
          | Some w => match ms_pull ex_nf elements (w_source w) (Some [9]) (AEvent (EvBlock (sx 12 11 7))) with
                      | (_, _, PEvent (EvBlock x)) => bool_decide (x = sx 10 9 5) | _ => false end
          | None => false end = true) as Ep by (by vm_compute).
  destruct (w_run ex_nf (Some [9]) (w_start 2) ex_first) as [w|] eqn:Ew; [|done]. injection E as ER EA.
  destruct (ms_pull ex_nf elements (w_source w) (Some [9]) (AEvent (EvBlock (sx 12 11 7)))) as [[st asked] [| |[|x]| |]] eqn:Em; try done.
  apply bool_decide_eq_true in Ep as ->. exists w, st, asked. split; [repeat constructor; apply elements_fair|]. split; [repeat constructor|]. do 3 (split; [done|]).
  rewrite ER. change ([sx 10 9 5; sx 11 10 6] ++ [sx 12 11 7]) with [sx 10 9 5; sx 11 10 6; sx 12 11 7]. split.
  - apply chain_grows. split; [done|]. split; [apply (bool_decide_unpack _); by vm_compute|]. split.
    + intros b Hb. list_cases; done.
    + intros f p [= <-] Hp. list_cases; done.
  - intros y Hy. list_cases; done.
Qed.

Definition all_SourceFirstCrashProps := (@C67_first_lost, @C67_first_lost_case).
Print Assumptions all_SourceFirstCrashProps.
