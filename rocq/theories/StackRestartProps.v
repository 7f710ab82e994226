(** C49: the fork-handling source over the Cardano source, through restarts of the process at calm moments: whatever the schedule, the
    consumer's chain is still the part after its start of a chain that the node had, up to the block received last; and if the node keeps
    its chain, the consumer comes to have all of it. *)
From Coq Require Import NArith Lia.
From stdpp Require Import prelude numbers gmap strings list.
From Verif Require Import MultiverseModel MultiverseProps SourceModel SourceSpec SourceRunProofs SourceRestartProps TimeModel UtilModel CardanoModel CardanoSpec
  CardanoProofs StackModel StackSpec StackProofs StackRunProofs StackRestartModel StackProps StackLiveProofs StackForkProofs StackForkProps.
Local Open Scope N_scope.

Section C49.
  Context (read_id : string -> option string) (decode_block : string -> option mblock) (cfg : config) (chk : bool).
  Notation is_block := (is_block decode_block cfg chk).
  Notation good_node := (good_node read_id decode_block cfg chk).
  Notation node_ok := (node_ok read_id decode_block cfg chk).
  Notation rs_step b0 := (rs_step read_id decode_block cfg chk (Some (start_of b0))).
  Notation rs_run b0 := (rs_run read_id decode_block cfg chk (Some (start_of b0))).
  Notation calm_stops b0 := (calm_stops read_id decode_block cfg chk (Some (start_of b0))).

  Definition rsinv (d : nat) (pre : list nblock) (b0 b1 : nblock) (r : rstack) : Prop :=
    exists Rp, kfinvp read_id decode_block cfg chk d pre b0 b1 false (r_past r) Rp (r_k r).

  (** the present process is a run of the Cardano source from the node's chain at its start *)
  Definition ran (r : rstack) : Prop := exists l, CardanoModel.run read_id decode_block cfg chk (initial (f_base (r_k r))) l = (f_in (r_k r), f_seen (r_k r)).
  Lemma ran_move b0 k a k' past : kf_step read_id decode_block cfg chk (Some (start_of b0)) k a = Some k' -> ran (RStack k past) -> ran (RStack k' past).
  Proof.
    intros E (l & Hl). cbn [r_k] in Hl.
    assert (K : forall act s o w wt, CardanoModel.step read_id decode_block cfg chk (f_in k) act = Some (s, o) -> ran (RStack (FStack w wt s (f_seen k ++ o) (f_base k)) past)).
    { intros act s o w wt Es. exists (l ++ [act]). eapply run_snoc; [exact Hl|exact Es]. }
    assert (Ki : forall act, kf_inner read_id decode_block cfg chk k act = Some k' -> ran (RStack k' past)).
    { intros act E'. unfold kf_inner in E'. destruct (CardanoModel.step _ _ _ _ (f_in k) act) as [[s o]|] eqn:Es; [|discriminate].
      destruct (f_wait k) as [[enum from]|], (answer_of o) as [ans|]; injection E' as <-; by eapply K. }
    destruct a as [enum order| |ok late|c|]; cbn [kf_step] in E; [|by eapply Ki; exact E..|].
    - destruct (f_wait k); [discriminate|]. destruct (kf_asks _ _ _) as [cps|].
      + destruct (CardanoModel.step _ _ _ _ (f_in k) _) as [[s o]|] eqn:Es; [|discriminate]. injection E as <-. by eapply K; exact Es.
      + injection E as <-. by exists l.
    - destruct (f_wait k); [|discriminate]. destruct (CardanoModel.step _ _ _ _ (f_in k) Cancel) as [[s o]|] eqn:Es; [|discriminate]. injection E as <-. by eapply K; exact Es.
  Qed.
  Lemma ran_step b0 r a r' : rs_step b0 r a = Some r' -> ran r -> ran r'.
  Proof.
    intros E H. destruct a as [a|enum]; cbn [StackRestartModel.rs_step] in E.
    - destruct (kf_step _ _ _ _ _ _ _) as [k|] eqn:Ek; [|discriminate]. injection E as <-. apply (ran_move b0 (r_k r) a k); [done|]. by destruct r.
    - destruct (r_step _ _ _) as [w|]; [|discriminate]. injection E as <-. by exists [].
  Qed.
  Lemma rs_chains_last r : ran r -> rs_chains r = removelast (rs_chains r) ++ [s_node (f_in (r_k r))].
  Proof.
    intros H. pose proof (rnode read_id decode_block cfg chk (r_past r) (r_k r) H) as E. change (rchains (r_past r) (r_k r)) with (rs_chains r) in E.
    apply last_Some in E as [q E]. rewrite E. by rewrite removelast_last.
  Qed.

  Lemma rs_step_chains b0 r a r' : ran r -> rs_step b0 r a = Some r' -> exists more, rs_chains r' = rs_chains r ++ more.
  Proof.
    intros H E. destruct a as [a|enum]; cbn [StackRestartModel.rs_step] in E.
    - destruct (kf_step _ _ _ _ _ _ _) as [k|] eqn:Ek; [|discriminate]. injection E as <-. exact (rstep_chains read_id decode_block cfg chk b0 (r_past r) _ _ _ Ek).
    - destruct (r_step _ _ _) as [w|]; [|discriminate]. injection E as <-. exists []. rewrite app_nil_r. symmetry. exact (rs_chains_last r H).
  Qed.
  Lemma rs_run_chains b0 l : forall r, ran r -> exists more, rs_chains (rs_run b0 r l) = rs_chains r ++ more.
  Proof.
    induction l as [|a l IH]; intros r H; [exists []; by rewrite app_nil_r|]. cbn [StackRestartModel.rs_run].
    destruct (rs_step b0 r a) as [r'|] eqn:E; [|by apply IH]. destruct (IH r') as [m1 E1]; [by eapply ran_step|]. destruct (rs_step_chains _ _ _ _ H E) as [m2 E2].
    exists (m2 ++ m1). rewrite E1, E2, app_assoc. reflexivity.
  Qed.
  Lemma rsinv_ran d pre b0 b1 r : rsinv d pre b0 b1 r -> ran r.
  Proof. intros (Rp & H & _). exact H. Qed.
  Lemma rs_chains_not_nil r : rs_chains r <> [].
  Proof. unfold rs_chains. intro Y. apply app_eq_nil in Y as [_ Y]. discriminate Y. Qed.

  (** a restart at a calm moment is possible and keeps the invariant *)
  Lemma rs_stop d c0 pre b0 b1 post r enum : c0 = pre ++ b0 :: b1 :: post -> (d <= length post)%nat -> rsinv d pre b0 b1 r -> fair enum -> calm (f_world (r_k r)) ->
    exists r', rs_step b0 r (RStop enum) = Some r' /\ rsinv d pre b0 b1 r' /\ f_received (f_world (r_k r')) = f_received (f_world (r_k r)) /\
      f_chain (f_world (r_k r')) = f_chain (f_world (r_k r)) /\ f_results (f_world (r_k r')) = f_results (f_world (r_k r)) /\
      consumed point_of (f_world (r_k r')) = f_chain (f_world (r_k r)).
  Proof.
    intros E0 L (Rp & Hran & ((s & F) & Fi) & (sg & D & Gi) & I & (Hs & G & ND & Hh) & _) Hf Hc.
    destruct (restart_keeps point_of d _ s sg D enum Hf F Gi Hc) as (w' & s' & E & F' & G' & Er & Ec & Es).
    cbn [StackRestartModel.rs_step]. rewrite E. eexists. split; [reflexivity|]. cbn [r_k f_world]. split; [|split; [done|split; [done|split; [done|]]]].
    - exists (R_of Rp (f_seen (r_k r))). cbn [r_past r_k].
      assert (ER : R_of (R_of Rp (f_seen (r_k r))) [] = R_of Rp (f_seen (r_k r))) by apply app_nil_r.
      split; [exists []; reflexivity|]. split; [split; [exists s'; exact F'|cbn [f_world]; rewrite Es; exact Fi]|]. split; [exists s', D; exact G'|].
      cbn [f_world f_seen f_base f_wait f_in]. split; [|split; [rewrite ER, Er; auto|reflexivity]].
      eapply sinv_resume; [exact L|exact I|]. exact (rs_chains_last r Hran).
    - unfold consumed. rewrite Ec. cbn [r_step] in E. destruct (mv_load_from _ _) as [m| |]; try discriminate.
      unfold fh_new in E. destruct (mv_select _ _ _ _ _) as [[sel disc]| |]; try discriminate. by injection E as <-.
  Qed.

  Lemma rsinv_step d c0 pre b0 b1 post r a r' : c0 = pre ++ b0 :: b1 :: post -> (d <= length post)%nat -> rfact_fair a ->
    match a with RStop _ => calm (f_world (r_k r)) | _ => True end ->
    rsinv d pre b0 b1 r -> rs_step b0 r a = Some r' -> node_ok d c0 (rs_chains r') -> rsinv d pre b0 b1 r'.
  Proof.
    intros E0 L Hf Hc K E Ok. destruct a as [a|enum].
    - destruct K as [Rp K]. cbn [StackRestartModel.rs_step] in E. destruct (kf_step _ _ _ _ _ _ _) as [k|] eqn:Ek; [|discriminate]. injection E as <-.
      exists Rp. exact (kfinvp_step _ _ _ _ _ _ _ _ _ _ _ E0 L (r_past r) Rp (r_k r) a k eq_refl Hf K Ek Ok).
    - destruct (rs_stop d c0 pre b0 b1 post r enum E0 L K Hf Hc) as (r1 & E1 & K1 & _). congruence.
  Qed.
  Lemma rsinv_run d c0 pre b0 b1 post l : c0 = pre ++ b0 :: b1 :: post -> (d <= length post)%nat -> Forall rfact_fair l -> forall r, rsinv d pre b0 b1 r ->
    calm_stops b0 r l -> node_ok d c0 (rs_chains (rs_run b0 r l)) -> rsinv d pre b0 b1 (rs_run b0 r l).
  Proof.
    intros E0 L. induction 1 as [|a l Ha _ IH]; intros r K Hc Ok; cbn [StackRestartModel.rs_run] in *; [exact K|]. destruct Hc as [Hc1 Hc2].
    assert (Hr : ran (match rs_step b0 r a with Some r' => r' | None => r end)).
    { pose proof (rsinv_ran _ _ _ _ _ K) as Hr. destruct (rs_step b0 r a) eqn:E; [by eapply ran_step|done]. }
    destruct (rs_run_chains b0 l _ Hr) as [more M].
    apply IH; [|exact Hc2|exact Ok]. rewrite M in Ok.
    apply node_ok_prefix in Ok; [|apply rs_chains_not_nil].
    destruct (rs_step b0 r a) as [r'|] eqn:E; [|exact K]. eapply rsinv_step; eauto.
  Qed.
  Lemma rs_reach d c0 b0 l : start_deep d c0 b0 -> Forall rfact_fair l -> calm_stops b0 (rs_start d c0) l ->
    let r := rs_run b0 (rs_start d c0) l in good_node d (rs_chains r) ->
    exists pre b1 post, c0 = pre ++ b0 :: b1 :: post /\ (d <= length post)%nat /\ node_ok d c0 (rs_chains r) /\ rsinv d pre b0 b1 r.
  Proof.
    intros (pre & b1 & post & E0 & L)%deep_split Hf Hc r G.
    assert (Ok : node_ok d c0 (rs_chains r)).
    { split; [exact G|]. unfold r. destruct (rs_run_chains b0 l (rs_start d c0)) as [more ->]; [by exists []|]. reflexivity. }
    exists pre, b1, post. split; [done|]. split; [done|]. split; [done|]. apply (rsinv_run d c0 pre b0 b1 post); try done. exists []. apply kfinv_start.
  Qed.

  (** The consumer of the fork-handling source, once it has taken what is queued, has the blocks after its start of a chain that the
      node had (in this process or an earlier one), up to the block received last; and no pull fails but for an error of the Cardano source. *)
  Theorem C49_fork_restart_chain d c0 b0 l : start_deep d c0 b0 -> Forall rfact_fair l -> calm_stops b0 (rs_start d c0) l ->
    let r := rs_run b0 (rs_start d c0) l in good_node d (rs_chains r) ->
    Forall fine (f_results (f_world (r_k r))) /\
    exists c pre del rest, c ∈ rs_chains r /\ c = pre ++ b0 :: del ++ rest /\ Forall2 is_block del (consumed point_of (f_world (r_k r))) /\
      last (consumed point_of (f_world (r_k r))) = last (f_received (f_world (r_k r))).
  Proof.
    intros Hd Hf Hc r G. destruct (rs_reach d c0 b0 l Hd Hf Hc G) as (pre & b1 & post & E0 & L & Ok & Rp & K). fold r in Ok, K.
    split. { destruct K as (_ & Ac & _ & _ & (_ & Gr & ND & _) & _). apply (fork_consumed d _ Ac Gr ND). }
    destruct (rchain _ _ _ _ _ _ _ _ _ _ _ E0 L (r_past r) Rp (r_k r) K Ok) as [[E1 E2]|(c & del & rest & Hcin & Ec & E1 & E2 & Hne)].
    - assert (Hc0 : c0 ∈ rs_chains r) by (destruct Ok as [_ Hh]; destruct (rs_chains r); [done|]; injection Hh as ->; left).
      exists c0, pre, [], (b1 :: post). split; [done|]. split; [exact E0|]. rewrite E1, E2. split; [constructor|reflexivity].
    - exists c, pre, del, rest. split; [done|]. split; [done|]. rewrite E1. split; [|exact E2].
      apply Forall2_fmap_r. apply Forall_Forall2_diag. apply Forall_forall. intros b Hb. eapply blk_is; [exact G|exact Hcin|].
      rewrite Ec. apply elem_of_app. right. right. apply elem_of_app. by left.
  Qed.

  (** At a calm moment the process can always be started again; the consumer has then the chain it had, and nothing is queued for it. *)
  Theorem C49_fork_restart_possible d c0 b0 l enum : start_deep d c0 b0 -> Forall rfact_fair l -> calm_stops b0 (rs_start d c0) l ->
    let r := rs_run b0 (rs_start d c0) l in good_node d (rs_chains r) -> fair enum -> calm (f_world (r_k r)) ->
    exists r', rs_step b0 r (RStop enum) = Some r' /\ f_received (f_world (r_k r')) = f_received (f_world (r_k r)) /\
      f_chain (f_world (r_k r')) = f_chain (f_world (r_k r)) /\ consumed point_of (f_world (r_k r')) = f_chain (f_world (r_k r)) /\
      f_wait (r_k r') = None /\ s_node (f_in (r_k r')) = s_node (f_in (r_k r)).
  Proof.
    intros Hd Hf Hc r G He Hcalm. destruct (rs_reach d c0 b0 l Hd Hf Hc G) as (pre & b1 & post & E0 & L & Ok & K). fold r in Ok, K.
    destruct (rs_stop d c0 pre b0 b1 post r enum E0 L K He Hcalm) as (r' & E & _ & Er & Ec & _ & Eq). exists r'. split; [done|]. split; [done|]. split; [done|]. split; [done|].
    cbn [StackRestartModel.rs_step] in E. destruct (r_step _ _ _); [|discriminate]. by injection E as <-.
  Qed.

  Lemma rs_run_moves b0 l : forall r, rs_run b0 r (RMove <$> l) = RStack (kf_run read_id decode_block cfg chk (Some (start_of b0)) (r_k r) l) (r_past r).
  Proof.
    induction l as [|a l IH]; intro r; [by destruct r|]. cbn [fmap list_fmap StackRestartModel.rs_run StackRestartModel.rs_step kf_run].
    destruct (kf_step _ _ _ _ _ (r_k r) a) as [f|]; [apply (IH (RStack f (r_past r)))|apply IH].
  Qed.

  (** *** what has to happen *)
  Definition ok_rfact (a : rfact) : Prop := match a with RMove a => ok_fact a | _ => True end.
  Lemma rok_run b0 l : Forall ok_rfact l -> forall r, kfok read_id decode_block cfg chk (r_k r) -> kfok read_id decode_block cfg chk (r_k (rs_run b0 r l)).
  Proof.
    induction 1 as [|a l Ha _ IH]; intros r K; [exact K|]. cbn [StackRestartModel.rs_run]. destruct (rs_step b0 r a) as [r'|] eqn:E; [|by apply IH]. apply IH.
    destruct a as [a|enum]; cbn [StackRestartModel.rs_step] in E.
    - destruct (kf_step _ _ _ _ _ _ _) as [k|] eqn:Ek; [|discriminate]. injection E as <-. eapply kfok_step; [exact Ha|exact Ek|exact K].
    - destruct (r_step _ _ _) as [w|]; [|discriminate]. injection E as <-. by exists [].
  Qed.
  Lemma ropen_run b0 l : forall r, s_open (f_in (r_k r)) = true -> s_open (f_in (r_k (rs_run b0 r l))) = true.
  Proof.
    induction l as [|a l IH]; intros r O; [exact O|]. cbn [StackRestartModel.rs_run]. destruct (rs_step b0 r a) as [r'|] eqn:E; [|by apply IH]. apply IH.
    destruct a as [a|enum]; cbn [StackRestartModel.rs_step] in E.
    - destruct (kf_step _ _ _ _ _ _ _) as [k|] eqn:Ek; [|discriminate]. injection E as <-. eapply kf_step_open; [exact Ek|exact O].
    - destruct (r_step _ _ _) as [w|]; [|discriminate]. by injection E as <-.
  Qed.
  Lemma r_fresh_run d c0 pre b0 b1 post cs1 c x l : c0 = pre ++ b0 :: b1 :: post -> (d <= length post)%nat -> last c = Some x -> (forall c', c' ∈ cs1 -> x ∉ c') -> Forall rfact_fair l ->
    forall r, rsinv d pre b0 b1 r -> calm_stops b0 r l -> at_tip decode_block cfg chk x (r_k r) ->
    node_ok d c0 (rs_chains (rs_run b0 r l)) -> rs_chains (rs_run b0 r l) = cs1 ++ [c] -> at_tip decode_block cfg chk x (r_k (rs_run b0 r l)).
  Proof.
    intros E0 L Hl Hno. induction 1 as [|a l Ha _ IH]; intros r K Hc J Ok Ech; cbn [StackRestartModel.rs_run] in *; [exact J|]. destruct Hc as [Hc1 Hc2].
    destruct (rs_step b0 r a) as [r'|] eqn:E; [|by apply IH].
    pose proof (rsinv_ran _ _ _ _ _ K) as Hran. destruct (rs_run_chains b0 l r') as [more M]; [by eapply ran_step|].
    assert (Ok' : node_ok d c0 (rs_chains r')) by (rewrite M in Ok; apply node_ok_prefix in Ok; [exact Ok|apply rs_chains_not_nil]).
    pose proof (rsinv_step d c0 pre b0 b1 post r a r' E0 L Ha Hc1 K E Ok') as K'. apply IH; try done.
    destruct a as [a|enum].
    - cbn [StackRestartModel.rs_step] in E. destruct (kf_step _ _ _ _ _ _ _) as [k|] eqn:Ek; [|discriminate]. injection E as <-. cbn [r_k].
      destruct K as [Rp K]. assert (K1 : kfinvp read_id decode_block cfg chk d pre b0 b1 false (r_past r) Rp k)
        by exact (kfinvp_step _ _ _ _ _ _ _ _ _ _ _ E0 L (r_past r) Rp (r_k r) a k eq_refl Ha K Ek Ok').
      destruct more as [|m more _] using rev_ind.
      + rewrite app_nil_r in M. rewrite M in Ech. eapply (kf_fresh _ _ _ _ _ _ _ _ _ _ E0 L (r_past r) Rp); [exact Hl|exact Hno|exact K|exact K1|exact Ek|exact Ok'|exact Ech|exact J].
      + assert (rs_chains (RStack k (r_past r)) ++ more = cs1) as Em. { rewrite M, app_assoc in Ech. by apply app_inj_tail in Ech as [? _]. }
        assert (Hxc : x ∈ c) by (apply last_Some in Hl as [q ->]; apply elem_of_app; right; left).
        intro Hin. exfalso. destruct (kf_had _ _ _ _ _ _ _ _ _ _ _ _ K1 Hin) as (c' & b & Hc' & Hb & Exb).
        assert (x = b) as <-.
        { apply (n_hash read_id decode_block cfg chk d c0 _ Ok c c'); try done; [rewrite Ech; apply elem_of_app; right; left|rewrite M; apply elem_of_app; by left|by rewrite Exb]. }
        apply (Hno c'); [|done]. rewrite <- Em. apply elem_of_app. by left.
    - destruct (rs_stop d c0 pre b0 b1 post r enum E0 L K Ha Hc1) as (r1 & E1 & _ & Er & _). assert (r1 = r') as -> by congruence. unfold at_tip. by rewrite Er.
  Qed.

  (** After any moves and any restarts at calm moments, let c be the chain that the node has and let its last block be new: no chain that the
      node had before c has it.  Let there be a received block that is below d others, or let the node never have gone back.  Then let the
      consumer call pull again and again and let each of the two tasks run again and again, in any order, and let the node keep c.
      There is a moment from which on the consumer's chain is c, from the block after the start to the last. *)
  Theorem C49_fork_restart_delivers d c0 b0 l al cs c b : start_deep d c0 b0 -> Forall rfact_fair l -> calm_stops b0 (rs_start d c0) l ->
    (forall ok late, RMove (KFHandler ok late) ∈ l -> ok = true) ->
    let r := rs_run b0 (rs_start d c0) l in good_node d (rs_chains r) ->
    rs_chains r = cs ++ [c] -> last c = Some b -> (forall c', c' ∈ cs -> b ∉ c') ->
    (exists x, settled d (f_received (f_world (r_k r))) x) \/ (forall c', c' ∈ cs -> c' `prefix_of` c) -> flively al ->
    exists n, forall m, (n <= m)%nat -> let r' := rs_run b0 r (RMove <$> map al (seq 0 m)) in
      exists pre del, c = pre ++ b0 :: del /\ Forall2 is_block del (f_chain (f_world (r_k r'))).
  Proof.
    intros Sd Hf Hc Hok r G Ech Hx Hnew Hor Lv. destruct (rs_reach d c0 b0 l Sd Hf Hc G) as (pre & b1 & post & E0 & L & Ok & K). fold r in Ok, K.
    destruct K as [Rp K]. destruct (fork_delivers read_id decode_block cfg chk d c0 pre b0 b1 post (r_past r) Rp (r_k r) al cs c b) as [n Hn]; try done.
    - apply rok_run; [|by exists []]. apply Forall_forall. intros [[| |ok late| |]|] Hin; try exact Logic.I. by apply (Hok ok late).
    - apply ropen_run. reflexivity.
    - eapply (r_fresh_run d c0 pre b0 b1 post cs c b); try done; [exists []; apply kfinv_start|intro X; inversion X].
    - exists n. intros m Hm. cbv zeta. rewrite rs_run_moves. by apply Hn.
  Qed.

  (** The process is as good as one that was never restarted: a schedule with no restart gives the same stack. *)
  Theorem C49_fork_restart_none d c0 b0 l : rs_run b0 (rs_start d c0) (RMove <$> l) = RStack (kf_run read_id decode_block cfg chk (Some (start_of b0)) (kf_start d c0) l) [].
  Proof.
    apply rs_run_moves.
  Qed.
End C49.

(** ** a concrete case *)
Lemma calm_stops_app read_id decode_block cfg chk from0 l1 l2 : forall r, calm_stops read_id decode_block cfg chk from0 r l1 ->
  calm_stops read_id decode_block cfg chk from0 (rs_run read_id decode_block cfg chk from0 r l1) l2 -> calm_stops read_id decode_block cfg chk from0 r (l1 ++ l2).
Proof. induction l1 as [|a l1 IH]; intros r H1 H2; [exact H2|]. destruct H1 as [Ha H1]. split; [exact Ha|]. by apply IH. Qed.
Lemma calm_stops_moves read_id decode_block cfg chk from0 l : forall r, calm_stops read_id decode_block cfg chk from0 r (RMove <$> l).
Proof. induction l as [|a l IH]; intro r; [exact Logic.I|]. split; [exact Logic.I|]. apply IH. Qed.
Lemma calm_check (w : fworld (point:=opoint)) :
  match last (f_received w) with Some l => forallb (fun x => N.eqb (b_num x) (b_num l) || N.ltb (b_num x) (b_num l)) (removelast (f_received w)) | None => true end = true ->
  match last (f_received w) with Some l => forallb (fun x => negb (N.eqb (b_num x) (b_num l))) (removelast (f_received w)) | None => true end = true ->
  fh_events (f_source w) = [] -> calm w.
Proof.
  intros H1 H2 E. split; [exact E|]. intros l x Hl Hx. rewrite Hl in H1, H2. apply last_Some in Hl as [q Eq]. rewrite Eq in *. rewrite removelast_last in H1, H2.
  apply elem_of_app in Hx as [Hx|Hx]; [right|left; by apply elem_of_list_singleton in Hx]. apply elem_of_list_In in Hx.
  rewrite forallb_forall in H1, H2. specialize (H1 x Hx). specialize (H2 x Hx). apply orb_true_iff in H1 as [H1|H1]; [rewrite H1 in H2; discriminate|].
  by apply N.ltb_lt.
Qed.

Definition ex_pulls (n : nat) : list rfact := RMove <$> mjoin (replicate n ex_fpull).
(** The consumer has B, C and D when the process is restarted; meanwhile the node has left C and D. *)
Definition ex_stop : list rfact := ex_pulls 4 ++ RStop elements :: (RMove <$> KFNode ex_two :: mjoin (replicate 5 ex_fpull)).
Notation ex_run := (rs_run hex_decode ex_dec ex_conf true (Some (start_of xA)) (rs_start 2 ex_one)).
Lemma ex_fair_pulls n : Forall rfact_fair (ex_pulls n).
Proof.
  unfold ex_pulls. apply Forall_fmap. induction n as [|n IH]; [constructor|]. cbn [replicate]. change (mjoin (ex_fpull :: replicate n ex_fpull)) with (ex_fpull ++ mjoin (replicate n ex_fpull)).
  apply Forall_app. split; [|exact IH]. unfold compose, rfact_fair. unfold ex_fpull. cbn -[elements]. all_fair.
Qed.
Example C49_fork_restart_case :
  start_deep 2 ex_one xA /\ Forall rfact_fair ex_stop /\ calm_stops hex_decode ex_dec ex_conf true (Some (start_of xA)) (rs_start 2 ex_one) ex_stop /\
  good_node hex_decode ex_dec ex_conf true 2 (rs_chains (ex_run ex_stop)) /\
  ids (f_chain (f_world (r_k (ex_run (take 49 ex_stop))))) = ["42"; "43"; "44"]%string /\ r_past (ex_run ex_stop) = [] /\ f_base (r_k (ex_run ex_stop)) = ex_one /\
  ids (consumed point_of (f_world (r_k (ex_run ex_stop)))) = ["42"; "63"; "64"; "65"]%string /\ calm (f_world (r_k (ex_run ex_stop))).
Proof.
  split; [exists [], [xB; xC; xD]; split; [reflexivity|cbn; lia]|]. split; [|split; [|split; [|split; [|split; [|split; [|split]]]]]].
  - apply Forall_app. split; [apply ex_fair_pulls|]. apply List.Forall_cons; [apply elements_fair|]. apply List.Forall_cons; [exact Logic.I|]. apply (ex_fair_pulls 5).
  - apply calm_stops_app; [apply calm_stops_moves|]. split; [|apply calm_stops_moves]. apply calm_check; vm_compute; reflexivity.
  - replace (rs_chains _) with [ex_one; ex_two] by (vm_compute; reflexivity). apply ex_two_chains.
  - vm_compute. reflexivity.
  - vm_compute. reflexivity.
  - vm_compute. reflexivity.
  - vm_compute. reflexivity.
  - apply calm_check; vm_compute; reflexivity.
Qed.

(** Right after the restart the node has its new chain, whose last block is new, and B is below two others: the consumer gets the new chain. *)
Definition ex_stopped : list rfact := ex_pulls 4 ++ RStop elements :: (RMove <$> [KFNode ex_two]).
Example C49_fork_restart_delivers_case :
  start_deep 2 ex_one xA /\ Forall rfact_fair ex_stopped /\ calm_stops hex_decode ex_dec ex_conf true (Some (start_of xA)) (rs_start 2 ex_one) ex_stopped /\
  (forall ok late, RMove (KFHandler ok late) ∈ ex_stopped -> ok = true) /\
  good_node hex_decode ex_dec ex_conf true 2 (rs_chains (ex_run ex_stopped)) /\ rs_chains (ex_run ex_stopped) = [ex_one] ++ [ex_two] /\ last ex_two = Some yE /\
  (forall c', c' ∈ [ex_one] -> yE ∉ c') /\ (exists x, settled 2 (f_received (f_world (r_k (ex_run ex_stopped)))) x) /\ flively ex_fturn /\
  ids (f_chain (f_world (r_k (ex_run ex_stopped)))) = ["42"; "43"; "44"]%string /\
  ids (f_chain (f_world (r_k (ex_run (ex_stopped ++ (RMove <$> map ex_fturn (seq 0 90))))))) = ["42"; "63"; "64"; "65"]%string.
Proof.
  split; [exists [], [xB; xC; xD]; split; [reflexivity|cbn; lia]|]. split; [|split; [|split; [|split; [|split; [|split; [|split; [|split; [|split; [|split]]]]]]]]].
  - apply Forall_app. split; [apply ex_fair_pulls|]. apply List.Forall_cons; [apply elements_fair|]. apply List.Forall_cons; [exact Logic.I|apply List.Forall_nil].
  - apply calm_stops_app; [apply calm_stops_moves|]. split; [|apply calm_stops_moves]. apply calm_check; vm_compute; reflexivity.
  - intros ok late H. unfold ex_stopped, ex_pulls, ex_fpull in H. cbn in H. repeat (apply elem_of_cons in H as [H|H]; [try discriminate H; by injection H|]). inversion H.
  - replace (rs_chains _) with [ex_one; ex_two] by (vm_compute; reflexivity). apply ex_two_chains.
  - vm_compute. reflexivity.
  - reflexivity.
  - intros c' Hc'. apply elem_of_list_singleton in Hc' as ->. intro H. unfold ex_one in H. repeat (apply elem_of_cons in H as [H|H]; [discriminate H|]). inversion H.
  - assert (E : exists x y z, f_received (f_world (r_k (ex_run ex_stopped))) = [x; y; z] /\
      b_num x <= b_num z /\ b_num y <= b_num z /\ b_parent z = b_id y /\ b_parent y = b_id x).
    { do 3 eexists. split; [vm_compute; reflexivity|]. vm_compute. repeat split; congruence. }
    destruct E as (x & y & z & -> & H1 & H2 & H3 & H4). exists x, z. split.
    + split; [right; right; left|]. intros w Hw. repeat (apply elem_of_cons in Hw as [-> |Hw]; [done|]). inversion Hw.
    + apply back_link with (p := y); [right; right; left|done|]. apply back_link with (p := x); [right; left|done|]. constructor. left.
  - apply ex_flively.
  - vm_compute. reflexivity.
  - vm_compute. reflexivity.
Qed.

(** ** what does not hold *)
(** If the process is stopped while the first block is queued, that block is in the store and is never given again: the consumer has C and
    D, and B, the block after its start, is missing. *)
Theorem C49_fork_restart_queued_refuted : exists d c0 b0 l, start_deep d c0 b0 /\ Forall rfact_fair l /\
  let r := rs_run hex_decode ex_dec ex_conf true (Some (start_of b0)) (rs_start d c0) l in good_node hex_decode ex_dec ex_conf true d (rs_chains r) /\
  rs_chains r = [ex_one] /\ ids (consumed point_of (f_world (r_k r))) = ["43"; "44"]%string /\ ids (f_received (f_world (r_k r))) = ["42"; "43"; "44"]%string.
Proof.
  exists 2%nat, ex_one, xA, (ex_pulls 1 ++ RStop elements :: ex_pulls 4). split; [exists [], [xB; xC; xD]; split; [reflexivity|cbn; lia]|]. split.
  { apply Forall_app. split; [apply ex_fair_pulls|]. apply List.Forall_cons; [apply elements_fair|]. apply ex_fair_pulls. }
  cbv zeta. split; [|split; [|split]]; [|vm_compute; reflexivity..].
  replace (rs_chains _) with [ex_one] by (vm_compute; reflexivity).
  apply ex_node; [|intros [|i] Hi; discriminate]. intros c Hc. repeat (apply elem_of_cons in Hc as [-> |Hc]; [auto|]). inversion Hc.
Qed.

Definition C49_restart_all := (@C49_fork_restart_chain, @C49_fork_restart_possible, @C49_fork_restart_delivers, @C49_fork_restart_none, C49_fork_restart_queued_refuted).
Print Assumptions C49_restart_all.
