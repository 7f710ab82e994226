(** C49: over the Cardano source, the confirming source gives its consumer the blocks of the node's chain after the start, in order,
    without gap or repetition, only blocks that the node will keep, and all of them once a request was answered to its end; and the
    fork-handling source keeps its consumer on a chain that the node had.  For every schedule of the tasks, every error of the
    node's answers, dropped pulls and restarts, and every node whose forks are not deeper than the depth. *)
From Coq Require Import NArith Lia.
From stdpp Require Import prelude numbers gmap strings list.
From Verif Require Import MultiverseModel MultiverseProps SourceModel SourceSpec SourceRunProofs TimeModel UtilModel CardanoModel CardanoSpec CardanoProofs
  StackModel StackSpec StackProofs StackRunProofs.
Local Open Scope N_scope.

Section C49.
  Context (read_id : string -> option string) (decode_block : string -> option mblock) (cfg : config) (chk : bool).
  Notation is_block := (is_block decode_block cfg chk).
  Notation good_node := (good_node read_id decode_block cfg chk).
  Notation k_run b0 := (k_run read_id decode_block cfg chk (Some (start_of b0))).
  Notation kf_run b0 := (kf_run read_id decode_block cfg chk (Some (start_of b0))).

  Lemma deep_split d c0 b0 : start_deep d c0 b0 -> exists pre b1 post, c0 = pre ++ b0 :: b1 :: post /\ (d <= length post)%nat.
  Proof. intros (pre & [|b1 post] & -> & H); cbn in H; [lia|]. exists pre, b1, post. split; [done|lia]. Qed.
  Lemma run_node_ok d c0 b0 l : let k := k_run b0 (k_start d c0) l in good_node d (k_chains k) -> node_ok read_id decode_block cfg chk d c0 (k_chains k).
  Proof.
    intros k G. split; [exact G|]. unfold k. destruct (k_run_chains read_id decode_block cfg chk b0 l (k_start d c0)) as [more ->]. reflexivity.
  Qed.
  Lemma kf_run_node_ok d c0 b0 l : let k := kf_run b0 (kf_start d c0) l in good_node d (kf_chains k) -> node_ok read_id decode_block cfg chk d c0 (kf_chains k).
  Proof.
    intros k G. split; [exact G|]. unfold k. destruct (kf_run_chains read_id decode_block cfg chk b0 l (kf_start d c0)) as [more ->]. reflexivity.
  Qed.
  Lemma blk_is d cs c b : good_node d cs -> c ∈ cs -> b ∈ c -> is_block b (blk decode_block cfg chk b).
  Proof.
    intros G Hc Hb. destruct (blk_facts read_id decode_block cfg chk c b (gn_chain _ _ _ _ _ _ G c Hc) Hb) as (m & e & He & Hblk & _). exists e. auto.
  Qed.
  Lemma is_blk b x : is_block b x -> x = blk decode_block cfg chk b.
  Proof. intros (e & He & ->). unfold blk. by rewrite He. Qed.

  (** the settled blocks, in the node's chain *)
  Lemma chain_of d c0 pre b0 b1 post an h g k : c0 = pre ++ b0 :: b1 :: post -> (d <= length post)%nat ->
    node_ok read_id decode_block cfg chk d c0 (k_chains k) -> kinvh read_id decode_block cfg chk d pre b0 b1 an h g k ->
    exists s D del, SourceRunProofs.winv d (Some (start_of b0)) (k_world k) s D /\ (h = true -> w_accepted (k_world k) = D) /\ Forall2 is_block del D /\
      (exists pre rest, s_node (k_in k) = pre ++ b0 :: del ++ rest) /\
      forall b, b ∈ del -> exists c u v, c ∈ k_chains k /\ c = u ++ b :: v /\ (d <= length v)%nat.
  Proof.
    intros E0 L Ok K. pose proof (proj1 Ok) as G. pose proof (kh_node _ _ _ _ _ _ _ _ _ _ _ _ K) as Hlast.
    destruct (kh_accepted _ _ _ _ _ _ _ _ _ _ _ E0 L _ _ _ K Ok) as (Rp & s & D & _ & _ & _ & W & Ha & Hdeep & HD).
    assert (Hc : s_node (k_in k) ∈ k_chains k) by (apply last_Some in Hlast as [q ->]; apply elem_of_app; right; left).
    destruct (lookup_window _ _ _ HD) as [restB ER].
    destruct (n_prefix read_id decode_block cfg chk d c0 pre b0 b1 post E0 L _ Ok _ Hc) as [z Ez].
    assert (Ed : drop (length pre + 1) (map (blk decode_block cfg chk) (s_node (k_in k))) = map (blk decode_block cfg chk) (b1 :: z)).
    { rewrite Ez. replace ((pre ++ [b0; b1]) ++ z) with ((pre ++ [b0]) ++ b1 :: z) by (rewrite <- !app_assoc; reflexivity).
      rewrite List.map_app, drop_app_alt; [reflexivity|]. rewrite List.map_length, app_length. reflexivity. }
    rewrite ER in Ed. symmetry in Ed. apply List.map_eq_app in Ed as (del & rest & Edel & <- & _). exists s; eexists; exists del. split; [exact W|]. split; [exact Ha|].
    assert (Hnode : s_node (k_in k) = pre ++ b0 :: del ++ rest) by (rewrite Ez, <- Edel, <- app_assoc; reflexivity).
    assert (Hdel : forall b, b ∈ del -> b ∈ s_node (k_in k)) by (intros b Hb; rewrite Hnode; apply elem_of_app; right; right; apply elem_of_app; by left).
    split; [|split; [eauto|]].
    - apply Forall2_fmap_r. apply Forall_Forall2_diag. apply Forall_forall. intros b Hb. eapply blk_is; [exact G|exact Hc|]. by apply Hdel.
    - intros b Hb. destruct (Hdeep (blk decode_block cfg chk b)) as (c & i & b' & Hcin & Hi & Eb & Hd); [by apply elem_of_list_fmap_1|].
      assert (b = b') as <-.
      { apply (n_hash read_id decode_block cfg chk d c0 _ Ok (s_node (k_in k)) c); [done|done|by apply Hdel|by eapply elem_of_list_lookup_2|by rewrite Eb]. }
      exists c, (take i c), (drop (S i) c). split; [done|]. split; [symmetry; by apply take_drop_middle|]. rewrite drop_length. lia.
  Qed.

  (** What the consumer of the confirming source has accepted is the part of the node's present chain that follows its start, up to
      some block; and each of these blocks has been below d others in the node's chain, so the node keeps it. *)
  Theorem C49_confirmed_chain d c0 b0 l : start_deep d c0 b0 -> Forall kact_fair l ->
    let k := k_run b0 (k_start d c0) l in good_node d (k_chains k) ->
    exists del, Forall2 is_block del (w_accepted (k_world k)) /\
      (exists pre rest, s_node (k_in k) = pre ++ b0 :: del ++ rest) /\
      forall b, b ∈ del -> exists c u v, c ∈ k_chains k /\ c = u ++ b :: v /\ (d <= length v)%nat.
  Proof.
    intros (pre & b1 & post & E0 & L)%deep_split Hf k G. pose proof (run_node_ok d c0 b0 l G) as Ok. fold k in Ok.
    assert (K : kinv read_id decode_block cfg chk d pre b0 b1 false false k) by (eapply (kinv_run _ _ _ _ _ _ _ _ _ _ _ E0 L); [done|discriminate|apply kinv_start|exact Ok]).
    destruct (chain_of d c0 pre b0 b1 post false true false k E0 L Ok K) as (s & D & del & _ & Ha & H1 & H2). exists del. rewrite (Ha eq_refl). auto.
  Qed.

  (** No pull fails but for an error of the Cardano source, and the process can always be started again. *)
  Theorem C49_no_failure d c0 b0 l : start_deep d c0 b0 -> Forall kact_fair l ->
    let k := k_run b0 (k_start d c0) l in good_node d (k_chains k) ->
    Forall well_answered (w_results (k_world k)) /\
    forall enum, fair enum -> is_Some (k_step read_id decode_block cfg chk (Some (start_of b0)) k (KRestart enum)).
  Proof.
    intros (pre & b1 & post & E0 & L)%deep_split Hf k G. pose proof (run_node_ok d c0 b0 l G) as Ok. fold k in Ok.
    assert (K : kinv read_id decode_block cfg chk d pre b0 b1 false false k) by (eapply (kinv_run _ _ _ _ _ _ _ _ _ _ _ E0 L); [done|discriminate|apply kinv_start|exact Ok]).
    destruct K as (_ & (s & D & W & _) & _). split; [apply W|]. intros enum He.
    destruct (w_step_total point_of d (Some (start_of b0)) (k_world k) s D (Reopen enum) He W) as [w Hw].
    cbn [k_step]. rewrite Hw. eauto.
  Qed.

  Lemma caught_up_of d c0 pre b0 b1 post k t1 f t2 e t3 : c0 = pre ++ b0 :: b1 :: post -> (d <= length post)%nat ->
    node_ok read_id decode_block cfg chk d c0 (k_chains k) -> kinv read_id decode_block cfg chk d pre b0 b1 true true k ->
    k_seen k = t1 ++ Asked f :: t2 ++ e :: t3 -> Forall not_asked t2 -> e = Ended \/ e = GotNone ->
    let since := in_force (k_base k) t1 :: chains t2 in
    (exists c1 c2, after since c1 c2 /\ ~ c1 `prefix_of` c2) \/
    (exists c, c ∈ since /\ forall u v b w, c = u ++ b0 :: v ++ b :: w -> (d <= length w)%nat -> exists x, is_block b x /\ x ∈ w_accepted (k_world k)).
  Proof.
    intros E0 L Ok K Es Nt He since. pose proof (proj1 Ok) as G.
    destruct (k_caught_up _ _ _ _ _ _ _ _ _ _ _ E0 L k t1 f t2 e t3 eq_refl K Ok Es Nt He) as [S|(c & Hc & Hall)]; [by left|right].
    exists c. split; [done|]. intros u v b w Ec Hw.
    assert (Hcin : c ∈ k_chains k).
    { rewrite k_chains_had. unfold had. apply elem_of_app. right. rewrite Es. rewrite chains_app. change (chains (Asked f :: t2 ++ e :: t3)) with (chains (t2 ++ e :: t3)). rewrite chains_app.
      apply elem_of_cons in Hc as [-> |Hc].
      - assert (X : in_force (k_base k) t1 = k_base k \/ in_force (k_base k) t1 ∈ chains t1).
        { unfold in_force. clear. induction (chains t1) as [|x l' IH]; [by left|]. cbn [List.last]. destruct l'; [right; left|]. destruct IH as [IH|IH]; [by left|right; by right]. }
        destruct X as [-> |X]; [left|right; apply elem_of_app; by left].
      - right. apply elem_of_app. right. apply elem_of_app. by left. }
    assert (length u = length pre) as Hu.
    { assert (X1 : map (blk decode_block cfg chk) c ∈ map (blk decode_block cfg chk) <$> k_chains k) by (apply elem_of_list_fmap; eauto).
      rewrite <- (List.map_length (blk decode_block cfg chk) pre).
      apply (same_idx (map (blk decode_block cfg chk) <$> k_chains k) (map (blk decode_block cfg chk) pre) (blk decode_block cfg chk b0) (blk decode_block cfg chk b1)
        (n_start _ _ _ _ _ _ _ _ _ _ E0 L _ Ok) (n_linked _ _ _ _ _ _ _ Ok) _ _ _ _ (blk decode_block cfg chk b0) X1 X1); [|apply (n_start _ _ _ _ _ _ _ _ _ _ E0 L _ Ok _ X1)].
      rewrite list_lookup_fmap, Ec, list_lookup_middle by done. reflexivity. }
    exists (blk decode_block cfg chk b). split.
    - eapply blk_is; [exact G|exact Hcin|]. rewrite Ec. apply elem_of_app. right. right. apply elem_of_app. right. left.
    - apply (Hall (length u + 1 + length v)%nat); [|lia|].
      + rewrite Ec. replace (u ++ b0 :: v ++ b :: w) with ((u ++ b0 :: v) ++ b :: w) by (rewrite <- app_assoc; reflexivity). apply list_lookup_middle. rewrite app_length. cbn. lia.
      + rewrite Ec, app_length. cbn [length]. rewrite app_length. cbn [length]. lia.
  Qed.

  (** When the node's answers are not errors and a request has ended, either the node rolled back while the request went on, or the
      consumer has accepted every block, after its start and below d others, of a chain that the node had since the request. *)
  Theorem C49_caught_up d c0 b0 l t1 f t2 e t3 : start_deep d c0 b0 -> Forall kact_fair l -> (forall ok late, KHandler ok late ∈ l -> ok = true) ->
    let k := k_run b0 (k_start d c0) l in good_node d (k_chains k) ->
    k_seen k = t1 ++ Asked f :: t2 ++ e :: t3 -> Forall not_asked t2 -> e = Ended \/ e = GotNone ->
    let since := in_force (k_base k) t1 :: chains t2 in
    (exists c1 c2, after since c1 c2 /\ ~ c1 `prefix_of` c2) \/
    (exists c, c ∈ since /\ forall u v b w, c = u ++ b0 :: v ++ b :: w -> (d <= length w)%nat -> exists x, is_block b x /\ x ∈ w_accepted (k_world k)).
  Proof.
    intros (pre & b1 & post & E0 & L)%deep_split Hf Hok k G Es Nt He since. pose proof (run_node_ok d c0 b0 l G) as Ok. fold k in Ok.
    assert (K : kinv read_id decode_block cfg chk d pre b0 b1 true true k).
    { eapply (kinv_run _ _ _ _ _ _ _ _ _ _ _ E0 L); [done| |apply kinv_start|exact Ok]. intros _. apply Forall_forall. intros [| |ok late| | |] Hin; try exact Logic.I. by apply (Hok ok late). }
    eapply caught_up_of; eassumption.
  Qed.

  (** The consumer of the fork-handling source, once it has taken what is queued, has the blocks after its start of a chain that the
      node had, up to the block received last; and no pull fails but for an error of the Cardano source. *)
  Theorem C49_fork_chain d c0 b0 l : start_deep d c0 b0 -> Forall fact_fair l ->
    let k := kf_run b0 (kf_start d c0) l in good_node d (kf_chains k) ->
    Forall fine (f_results (f_world k)) /\
    exists c pre del rest, c ∈ kf_chains k /\ c = pre ++ b0 :: del ++ rest /\ Forall2 is_block del (consumed point_of (f_world k)) /\
      last (consumed point_of (f_world k)) = last (f_received (f_world k)).
  Proof.
    intros (pre & b1 & post & E0 & L)%deep_split Hf k G. pose proof (kf_run_node_ok d c0 b0 l G) as Ok. fold k in Ok.
    assert (K : kfinv read_id decode_block cfg chk d pre b0 b1 false k) by (eapply (kfinv_run _ _ _ _ _ _ _ _ _ _ _ E0 L); [done|done|apply kfinv_start|exact Ok]).
    split. { destruct K as (_ & Ac & _ & _ & (_ & Gr & ND & _) & _). apply (fork_consumed d _ Ac Gr ND). }
    destruct (kf_chain _ _ _ _ _ _ _ _ _ _ _ E0 L k K Ok) as [[E1 E2]|(c & del & rest & Hc & Ec & E1 & E2 & Hne)].
    - assert (Hc0 : c0 ∈ kf_chains k) by (destruct Ok as [_ Hh]; destruct (kf_chains k); [done|]; injection Hh as ->; left).
      exists c0, pre, [], (b1 :: post). split; [done|]. split; [exact E0|]. rewrite E1, E2. split; [constructor|reflexivity].
    - exists c, pre, del, rest. split; [done|]. split; [done|]. rewrite E1. split; [|exact E2].
      apply Forall2_fmap_r. apply Forall_Forall2_diag. apply Forall_forall. intros b Hb. eapply blk_is; [exact G|exact Hc|].
      rewrite Ec. apply elem_of_app. right. right. apply elem_of_app. by left.
  Qed.

  (** A tip that the Cardano source answers with is what the pull returns to the consumer, with its slot (0 for the origin), and
      nothing else changes: neither what the consumer has nor what the sources hold. *)
  Theorem C49_tip d c0 b0 l a k' p : start_deep d c0 b0 -> Forall kact_fair l ->
    let k := k_run b0 (k_start d c0) l in good_node d (k_chains k) ->
    k_step read_id decode_block cfg chk (Some (start_of b0)) k a = Some k' -> k_seen k' = k_seen k ++ [Got (MTip p)] ->
    w_results (k_world k') = w_results (k_world k) ++ [(AEvent (EvTip (tip_slot p)), PEvent (EvTip (tip_slot p)))] /\
    w_accepted (k_world k') = w_accepted (k_world k) /\ w_received (k_world k') = w_received (k_world k) /\ w_source (k_world k') = w_source (k_world k) /\
    k_wait k <> None /\ k_wait k' = None.
  Proof.
    intros (pre & b1 & post & E0 & L)%deep_split Hf k G. pose proof (run_node_ok d c0 b0 l G) as Ok. fold k in Ok.
    assert (K : kinv read_id decode_block cfg chk d pre b0 b1 false false k) by (eapply (kinv_run _ _ _ _ _ _ _ _ _ _ _ E0 L); [done|discriminate|apply kinv_start|exact Ok]).
    destruct K as (_ & _ & _ & Hw). clear G Ok Hf. revert Hw. generalize k. clear. intros k Hw Hs Hseen.
    assert (Hin : forall act, k_inner read_id decode_block cfg chk (Some (start_of b0)) k act = Some k' ->
      (forall s o, CardanoModel.step read_id decode_block cfg chk (k_in k) act = Some (s, o) -> s_c (k_in k) = CIdle -> o <> [Got (MTip p)]) ->
      w_results (k_world k') = w_results (k_world k) ++ [(AEvent (EvTip (tip_slot p)), PEvent (EvTip (tip_slot p)))] /\
      w_accepted (k_world k') = w_accepted (k_world k) /\ w_received (k_world k') = w_received (k_world k) /\ w_source (k_world k') = w_source (k_world k) /\
      k_wait k <> None /\ k_wait k' = None).
    { intros act H Hno. unfold k_inner in H. destruct (CardanoModel.step _ _ _ _ (k_in k) act) as [[s o]|] eqn:Es; [|discriminate].
      assert (o = [Got (MTip p)]) as ->.
      { destruct (k_wait k) as [enum|], (answer_of o) as [ans|]; [destruct (w_step _ _ _ _)|..]; try discriminate; injection H as <-; cbn [k_seen] in Hseen; by apply app_inv_head in Hseen. }
      destruct (k_wait k) as [enum|] eqn:Ew; [|by destruct (Hno s _ eq_refl Hw)].
      destruct Hw as (_ & cps & Hc & _).
      cbn [answer_of w_step] in H. unfold ms_pull in H. rewrite Hc in H. injection H as <-. cbn. rewrite !app_nil_r. destruct p; done. }
    destruct a as [enum| |ok late|c| |enum]; cbn [k_step] in Hs.
    - destruct (k_wait k); [discriminate|]. destruct (ms_checkpoints _ _ _ _).
      + destruct (w_step _ _ _ _); [|discriminate]. injection Hs as <-. cbn in Hseen. by apply (f_equal length) in Hseen; rewrite app_length in Hseen; cbn in Hseen; lia.
      + cbn in Hs. destruct (s_c (k_in k)); try discriminate. destruct (s_open (k_in k)); [|discriminate]. injection Hs as <-. cbn in Hseen. by apply app_inv_head in Hseen.
    - apply (Hin _ Hs). intros s o H Hi. cbn in H. unfold caller in H. rewrite Hi in H. discriminate.
    - apply (Hin _ Hs). intros s o H _. cbn in H. destruct (handler _ _ _ _ _ _ _); [|discriminate]. injection H as _ <-. discriminate.
    - apply (Hin _ Hs). intros s o H _. cbn in H. injection H as _ <-. discriminate.
    - destruct (k_wait k); [|discriminate]. cbn in Hs. destruct (s_c (k_in k)); try discriminate; injection Hs as <-; cbn in Hseen; by apply app_inv_head in Hseen.
    - destruct (w_step _ _ _ _); [|discriminate]. injection Hs as <-. cbn in Hseen. by destruct (k_seen k).
  Qed.
  Theorem C49_fork_tip d c0 b0 l a k' p : start_deep d c0 b0 -> Forall fact_fair l ->
    let k := kf_run b0 (kf_start d c0) l in good_node d (kf_chains k) ->
    kf_step read_id decode_block cfg chk (Some (start_of b0)) k a = Some k' -> f_seen k' = f_seen k ++ [Got (MTip p)] ->
    f_results (f_world k') = f_results (f_world k) ++ [PEvent (FInner (EvTip (tip_slot p)))] /\
    f_chain (f_world k') = f_chain (f_world k) /\ f_received (f_world k') = f_received (f_world k) /\ f_source (f_world k') = f_source (f_world k) /\
    f_wait k <> None /\ f_wait k' = None.
  Proof.
    intros (pre & b1 & post & E0 & L)%deep_split Hf k G. pose proof (kf_run_node_ok d c0 b0 l G) as Ok. fold k in Ok.
    assert (K : kfinv read_id decode_block cfg chk d pre b0 b1 false k) by (eapply (kfinv_run _ _ _ _ _ _ _ _ _ _ _ E0 L); [done|done|apply kfinv_start|exact Ok]).
    destruct K as (_ & _ & _ & _ & _ & Hw). clear G Ok Hf. revert Hw. generalize k. clear. intros k Hw Hs Hseen.
    assert (Hin : forall act, kf_inner read_id decode_block cfg chk k act = Some k' ->
      (forall s o, CardanoModel.step read_id decode_block cfg chk (f_in k) act = Some (s, o) -> s_c (f_in k) = CIdle -> o <> [Got (MTip p)]) ->
      f_results (f_world k') = f_results (f_world k) ++ [PEvent (FInner (EvTip (tip_slot p)))] /\
      f_chain (f_world k') = f_chain (f_world k) /\ f_received (f_world k') = f_received (f_world k) /\ f_source (f_world k') = f_source (f_world k) /\
      f_wait k <> None /\ f_wait k' = None).
    { intros act H Hno. unfold kf_inner in H. destruct (CardanoModel.step _ _ _ _ (f_in k) act) as [[s o]|] eqn:Es; [|discriminate].
      assert (o = [Got (MTip p)]) as ->.
      { destruct (f_wait k) as [[enum from]|], (answer_of o) as [ans|]; injection H as <-; cbn [f_seen] in Hseen; by apply app_inv_head in Hseen. }
      destruct (f_wait k) as [[enum from]|] eqn:Ew; [|by destruct (Hno s _ eq_refl Hw)].
      destruct Hw as (_ & _ & cps & Hc & _). unfold kf_asks in Hc. destruct (fh_events (f_source (f_world k))) eqn:Ee; [|discriminate].
      destruct (fh_checkpoints _ _ _ _) as [|cps'] eqn:Ec; [discriminate|].
      cbn [answer_of f_step] in H. unfold fh_pull in H. rewrite Ee, Ec in H. injection H as <-. cbn. rewrite !app_nil_r. destruct p; done. }
    destruct a as [enum order| |ok late|c|]; cbn [kf_step] in Hs.
    - destruct (f_wait k); [discriminate|]. destruct (kf_asks _ _ _).
      + cbn in Hs. destruct (s_c (f_in k)); try discriminate. destruct (s_open (f_in k)); [|discriminate]. injection Hs as <-. cbn in Hseen. by apply app_inv_head in Hseen.
      + injection Hs as <-. cbn in Hseen. by apply (f_equal length) in Hseen; rewrite app_length in Hseen; cbn in Hseen; lia.
    - apply (Hin _ Hs). intros s o H Hi. cbn in H. unfold caller in H. rewrite Hi in H. discriminate.
    - apply (Hin _ Hs). intros s o H _. cbn in H. destruct (handler _ _ _ _ _ _ _); [|discriminate]. injection H as _ <-. discriminate.
    - apply (Hin _ Hs). intros s o H _. cbn in H. injection H as _ <-. discriminate.
    - destruct (f_wait k); [|discriminate]. cbn in Hs. destruct (s_c (f_in k)); try discriminate; injection Hs as <-; cbn in Hseen; by apply app_inv_head in Hseen.
  Qed.
End C49.

(** ** concrete cases *)
Definition ex_b (s : N) (h : string) : nblock := NBlock s h h.
Definition ex_dec (raw : string) : option mblock :=
  if String.eqb raw "A" then Some (MBlock_ "A" None 0 10 Later)
  else if String.eqb raw "B" then Some (MBlock_ "B" (Some "A") 1 11 Later)
  else if String.eqb raw "C" then Some (MBlock_ "C" (Some "B") 2 12 Later)
  else if String.eqb raw "D" then Some (MBlock_ "D" (Some "C") 3 13 Later)
  else if String.eqb raw "c" then Some (MBlock_ "c" (Some "B") 2 13 Later)
  else if String.eqb raw "d" then Some (MBlock_ "d" (Some "c") 3 14 Later)
  else if String.eqb raw "e" then Some (MBlock_ "e" (Some "d") 4 15 Later) else None.
Definition ex_conf : config := Config (BlockHeader 10 "41") "00" (BlockHeader 10 "41") (Era 0 0 0 1 5).
Definition xA := ex_b 10 "A". Definition xB := ex_b 11 "B". Definition xC := ex_b 12 "C". Definition xD := ex_b 13 "D".
Definition yC := ex_b 13 "c". Definition yD := ex_b 14 "d". Definition yE := ex_b 15 "e".
Definition ex_one : list nblock := [xA; xB; xC; xD].
Definition ex_two : list nblock := [xA; xB; yC; yD; yE].

(** one pull, with the handler doing what it can; a handler whose call of the node fails; and the pulls after that *)
Definition ex_pull : list kact := [KPull elements; KCaller; KCaller] ++ replicate 8 (KHandler true false) ++ [KCaller].
Definition ex_fpull : list fact := [KFPull elements id; KFCaller; KFCaller] ++ replicate 8 (KFHandler true false) ++ [KFCaller].
Definition ex_moves : list kact := ex_pull ++ ex_pull ++ [KNode ex_two] ++ ex_pull ++ ex_pull ++ [KRestart elements] ++ mjoin (replicate 6 ex_pull).
Definition ex_fmoves : list fact := ex_fpull ++ ex_fpull ++ [KFNode ex_two] ++ mjoin (replicate 9 ex_fpull).

Lemma ex_chain c : c = ex_one \/ c = ex_two -> good_chain hex_decode ex_dec ex_conf true c.
Proof.
  intros Hc. split.
  - intros b Hb. assert (Hb' : b ∈ ex_one ++ ex_two) by (destruct Hc as [-> | ->]; apply elem_of_app; auto). clear Hb. cbn in Hb'.
    repeat (apply elem_of_cons in Hb' as [-> |Hb']; [split; [reflexivity|]; split; [discriminate|]; do 2 eexists; repeat (split; [reflexivity|]); reflexivity|]). inversion Hb'.
  - intros i a b Ha Hb.
    destruct Hc as [-> | ->]; do 5 (destruct i as [|i]; [cbn in Ha, Hb; try discriminate; injection Ha as <-; injection Hb as <-; do 2 eexists; repeat (split; [reflexivity|]); reflexivity|]); cbn in Hb; discriminate.
Qed.
Lemma ex_node cs : (forall c, c ∈ cs -> c = ex_one \/ c = ex_two) -> (forall i, cs !! i = Some ex_two -> forall j, (i < j)%nat -> cs !! j <> Some ex_one) -> good_node hex_decode ex_dec ex_conf true 2 cs.
Proof.
  intros H1 H2. split.
  - intros c Hc. by apply ex_chain, H1.
  - intros c c' b b' Hc Hc' Hb Hb' E.
    assert (X : b ∈ ex_one ++ ex_two) by (destruct (H1 c Hc) as [-> | ->]; apply elem_of_app; auto).
    assert (X' : b' ∈ ex_one ++ ex_two) by (destruct (H1 c' Hc') as [-> | ->]; apply elem_of_app; auto). clear Hb Hb' Hc Hc'.
    cbn in X, X'. repeat (apply elem_of_cons in X as [-> |X]; [repeat (apply elem_of_cons in X' as [-> |X']; [first [reflexivity|discriminate E]|]); inversion X'|]). inversion X.
  - intros i j c c' Hi Hj Hij. destruct (H1 c ltac:(by eapply elem_of_list_lookup_2)) as [-> | ->], (H1 c' ltac:(by eapply elem_of_list_lookup_2)) as [-> | ->].
    + exists [xC; xD]. reflexivity.
    + exists [yC; yD; yE]. reflexivity.
    + by destruct (H2 i Hi j Hij).
    + exists [yD; yE]. reflexivity.
Qed.
Lemma ex_two_chains : good_node hex_decode ex_dec ex_conf true 2 [ex_one; ex_two].
Proof.
  apply ex_node.
  - intros c Hc. repeat (apply elem_of_cons in Hc as [-> |Hc]; [auto|]). inversion Hc.
  - intros [|[|i]] Hi j Hj; try discriminate. destruct j as [|[|j]]; [lia|lia|]. discriminate.
Qed.

Ltac all_fair := repeat (apply List.Forall_cons; [first [exact Logic.I|apply elements_fair|split; [apply elements_fair|done]]|]); apply List.Forall_nil.
Definition ids (l : list block) : list string := map (fun b => string_of (b_id b)) l.

(** The node leaves C and D for the chain through c while the first request goes on; the process is restarted; the consumer of the
    confirming source gets B and c, which are below two others, and nothing of the branch that was left.  The consumer of the
    fork-handling source has B, C, D and then goes back to B. *)
Example C49_case :
  let k := k_run hex_decode ex_dec ex_conf true (Some (start_of xA)) (k_start 2 ex_one) ex_moves in
  start_deep 2 ex_one xA /\ Forall kact_fair ex_moves /\ (forall ok late, KHandler ok late ∈ ex_moves -> ok = true) /\
  good_node hex_decode ex_dec ex_conf true 2 (k_chains k) /\
  ids (w_received (k_world k)) = ["42"; "43"; "44"; "63"; "64"; "65"]%string /\ ids (w_accepted (k_world k)) = ["42"; "63"]%string /\
  last (k_seen k) = Some GotNone.
Proof.
  cbv zeta. split; [exists [], [xB; xC; xD]; split; [reflexivity|cbn; lia]|]. split; [|split; [|split; [|split; [|split]]]].
  - unfold ex_moves, ex_pull. cbn -[elements]. all_fair.
  - intros ok late H. unfold ex_moves, ex_pull in H. cbn in H. repeat (apply elem_of_cons in H as [H|H]; [try discriminate H; by injection H|]). inversion H.
  - replace (k_chains _) with [ex_one; ex_two; ex_two] by (vm_compute; reflexivity). apply ex_node.
    + intros c Hc. repeat (apply elem_of_cons in Hc as [-> |Hc]; [auto|]). inversion Hc.
    + intros [|[|[|i]]] Hi j Hj; try discriminate; destruct j as [|[|[|j]]]; try lia; discriminate.
  - vm_compute. reflexivity.
  - vm_compute. reflexivity.
  - vm_compute. reflexivity.
Qed.
Example C49_fork_case :
  let k l := kf_run hex_decode ex_dec ex_conf true (Some (start_of xA)) (kf_start 2 ex_one) l in
  start_deep 2 ex_one xA /\ Forall fact_fair ex_fmoves /\ good_node hex_decode ex_dec ex_conf true 2 (kf_chains (k ex_fmoves)) /\
  ids (consumed point_of (f_world (k (take 49 ex_fmoves)))) = ["42"; "43"; "44"]%string /\
  ids (consumed point_of (f_world (k ex_fmoves))) = ["42"; "63"; "64"; "65"]%string /\
  ids (f_received (f_world (k ex_fmoves))) = ["42"; "43"; "44"; "63"; "64"; "65"]%string.
Proof.
  cbv zeta. split; [exists [], [xB; xC; xD]; split; [reflexivity|cbn; lia]|]. split; [|split; [|split; [|split]]].
  - unfold ex_fmoves, ex_fpull. cbn -[elements]. all_fair.
  - replace (kf_chains _) with [ex_one; ex_two] by (vm_compute; reflexivity). apply ex_two_chains.
  - vm_compute. reflexivity.
  - vm_compute. reflexivity.
  - vm_compute. reflexivity.
Qed.

(** the first pull of the example is answered with the node's tip *)
Example C49_tip_case :
  let run := k_run hex_decode ex_dec ex_conf true (Some (start_of xA)) (k_start 2 ex_one) in
  let k' := run ([KPull elements; KCaller; KCaller] ++ replicate 8 (KHandler true true) ++ [KCaller]) in
  Some (Got (MTip (NPoint 13 "D"))) = last (k_seen k') /\ map snd (w_results (k_world k')) = [PEvent (EvTip 13)].
Proof. vm_compute. done. Qed.

(** ** what does not hold *)
(** Without a point to start from, the confirming source asks only with the tips of what it has.  If these are rolled back before
    d further blocks have come, the node knows none of the points asked with, every request ends at once, and the consumer gets
    nothing, although the forks are no deeper than the depth and every node's answer but one is good. *)
Definition ex_lost : list kact :=
  [KPull elements; KCaller; KCaller] ++ replicate 8 (KHandler true false) ++ [KCaller; KPull elements; KHandler true false; KHandler true false; KCaller; KHandler false false; KNode ex_two] ++
  ex_pull ++ ex_pull.
Theorem C49_no_start_refuted : exists d c0 l t, let k := k_run hex_decode ex_dec ex_conf true None (k_start d c0) l in
  start_deep d c0 xA /\ Forall kact_fair l /\ good_node hex_decode ex_dec ex_conf true d (k_chains k) /\
  k_seen k = t ++ [Asked [BlockHeader 12 "43"]; GotNone] /\ s_node (k_in k) = [xA; xB; yC; yD; yE] /\ w_accepted (k_world k) = [].
Proof.
  exists 2%nat, ex_one, ex_lost. eexists. cbv zeta. split; [exists [], [xB; xC; xD]; split; [reflexivity|cbn; lia]|]. split; [|split; [|split; [|split]]].
  - unfold ex_lost, ex_pull. cbn -[elements]. all_fair.
  - replace (k_chains _) with [ex_one; ex_two] by (vm_compute; reflexivity). apply ex_two_chains.
  - match goal with |- ?a = ?t ++ _ => let a' := eval vm_compute in a in transitivity a'; [vm_compute; reflexivity|];
      let b := eval vm_compute in (take (length a' - 2) a') in unify t b end. vm_compute. reflexivity.
  - vm_compute. reflexivity.
  - vm_compute. reflexivity.
Qed.
(** The fork-handling source, too, asks only with its tips and with the point of the consumer, even when the consumer gave a start:
    here the consumer stays on C, and is neither rolled back nor given anything. *)
Definition ex_flost : list fact :=
  [KFPull elements id; KFCaller; KFCaller] ++ replicate 8 (KFHandler true false) ++ [KFCaller; KFPull elements id; KFHandler true false; KFHandler true false; KFCaller; KFHandler false false; KFNode ex_two] ++
  ex_fpull ++ ex_fpull.
Theorem C49_fork_lost_refuted : exists d c0 b0 l t f, let k := kf_run hex_decode ex_dec ex_conf true (Some (start_of b0)) (kf_start d c0) l in
  start_deep d c0 b0 /\ Forall fact_fair l /\ good_node hex_decode ex_dec ex_conf true d (kf_chains k) /\
  f_seen k = t ++ [Asked f; GotNone] /\ s_node (f_in k) = [xA; xB; yC; yD; yE] /\ ids (consumed point_of (f_world k)) = ["42"; "43"]%string.
Proof.
  exists 2%nat, ex_one, xA, ex_flost. do 2 eexists. cbv zeta. split; [exists [], [xB; xC; xD]; split; [reflexivity|cbn; lia]|]. split; [|split; [|split; [|split]]].
  - unfold ex_flost, ex_fpull. cbn -[elements]. all_fair.
  - replace (kf_chains _) with [ex_one; ex_two] by (vm_compute; reflexivity). apply ex_two_chains.
  - match goal with |- ?a = ?t ++ _ => let a' := eval vm_compute in a in transitivity a'; [vm_compute; reflexivity|];
      let b := eval vm_compute in (take (length a' - 2) a') in unify t b end. reflexivity.
  - vm_compute. reflexivity.
  - vm_compute. reflexivity.
Qed.

Definition C49_all := (C49_confirmed_chain, C49_no_failure, C49_caught_up, C49_fork_chain, C49_tip, C49_fork_tip, C49_no_start_refuted, C49_fork_lost_refuted).
Print Assumptions C49_all.
