(** C49, what has to happen: if the node keeps its chain and its answers are no errors, then the consumer of the confirming source gets
    every block of that chain that is deep enough, for every fair schedule. *)
From Coq Require Import NArith Lia.
From stdpp Require Import prelude numbers gmap strings list.
From Verif Require Import MultiverseModel MultiverseProps SourceModel SourceSpec SourceRunProofs TimeModel UtilModel CardanoModel CardanoSpec CardanoProofs
  StackModel StackSpec StackProofs StackRunProofs StackProps StackLiveProofs.
Local Open Scope N_scope.

Section C49.
  Context (read_id : string -> option string) (decode_block : string -> option mblock) (cfg : config) (chk : bool).
  Notation is_block := (is_block decode_block cfg chk).
  Notation good_node := (good_node read_id decode_block cfg chk).
  Notation k_run b0 := (k_run read_id decode_block cfg chk (Some (start_of b0))).
  Notation k_step b0 := (k_step read_id decode_block cfg chk (Some (start_of b0))).

  Lemma live_seen b0 k a k' : live_act a -> k_step b0 k a = Some k' -> k_past k' = k_past k /\ k_base k' = k_base k /\ s_node (k_in k') = s_node (k_in k) /\ exists o, k_seen k' = k_seen k ++ o /\ chains o = [].
  Proof.
    intros La E. destruct a as [enum| |ok late|c| |enum]; try contradiction; cbn [StackModel.k_step] in E.
    - destruct (k_wait k); [discriminate|]. destruct (ms_checkpoints _ _ _ _).
      + destruct (w_step _ _ _ _); [|discriminate]. injection E as <-. repeat split. exists []. by rewrite app_nil_r.
      + cbn [CardanoModel.step] in E. destruct (s_c (k_in k)); try discriminate. destruct (s_open (k_in k)); [|discriminate]. injection E as <-. repeat split. by eexists.
    - unfold k_inner in E. cbn [CardanoModel.step] in E. destruct (caller cfg (k_in k)) as [[s' o]|] eqn:Es; [|discriminate].
      assert (N : s_node s' = s_node (k_in k)).
      { clear - Es. unfold caller in Es. destruct (s_c (k_in k)) as [|f|f|]; [discriminate| | |].
        - destruct (s_current (k_in k)) as [ch|]; [|by injection Es as <- _]. unfold recv in Es. destruct (c_queue _); [destruct (c_tx _); [discriminate|]|]; by injection Es as <- _.
        - destruct (s_h (k_in k)); try (by injection Es as <- _); (destruct (s_requests (k_in k)); [|discriminate]; injection Es as <- _; cbn; by destruct (s_current (k_in k))).
        - destruct (s_current (k_in k)) as [ch|]; [|discriminate]. unfold recv in Es. destruct (c_queue _); [destruct (c_tx _); [discriminate|]|]; by injection Es as <- _. }
      assert (C : chains o = []) by (destruct (caller_cases _ _ _ _ Es) as [(f & _ & _ & [-> | ->])|[(f & _ & _ & ->)|(_ & _ & x & ans & -> & _ & Hc & _)]]; done).
      destruct (k_wait k); [destruct (answer_of o); [destruct (w_step _ _ _ _); [|discriminate]|]|]; injection E as <-; repeat split; eauto.
    - unfold k_inner in E. cbn [CardanoModel.step] in E. destruct (handler _ _ _ _ (k_in k) ok late) as [s'|] eqn:Eh; [|discriminate].
      assert (N : s_node s' = s_node (k_in k)).
      { clear - Eh. unfold handler in Eh.
        repeat match type of Eh with
           | context [match send ?a ?b ?c with _ => _ end] => let E := fresh in destruct (send a b c) eqn:E; [apply CardanoLiveProps.send_same in E as (_ & _ & _ & E)| |]
           | Some (die ?s ?ch) = _ => injection Eh as <-; unfold die; cbn [s_node]; apply (CardanoLiveProps.closes_same (s_requests (close_tx s ch)) (close_tx s ch))
           | Some _ = Some _ => injection Eh as <-; first [assumption|reflexivity]
           | None = Some _ => discriminate
           | context [match ?x with _ => _ end] => destruct x
           end. }
      assert (k' = Stack (k_world k) (k_wait k) s' (k_seen k ++ []) (k_past k) (k_base k)) as -> by (destruct (k_wait k); injection E as <-; reflexivity).
      repeat split; auto. by exists [].
  Qed.
  Lemma live_run_seen b0 ls : Forall live_act ls -> forall k, let k' := k_run b0 k ls in
    k_past k' = k_past k /\ k_base k' = k_base k /\ s_node (k_in k') = s_node (k_in k) /\ exists o, k_seen k' = k_seen k ++ o /\ chains o = [].
  Proof.
    induction 1 as [|a ls La _ IH]; intro k; cbn [StackModel.k_run]; [repeat split; exists []; by rewrite app_nil_r|].
    destruct (k_step b0 k a) as [k1|] eqn:E; [|apply IH]. destruct (live_seen _ _ _ _ La E) as (A1 & A2 & A3 & o & A4 & A5).
    destruct (IH k1) as (B1 & B2 & B3 & o' & B4 & B5). rewrite B1, B2, B3, B4, A4, <- app_assoc. repeat split; auto.
    exists (o ++ o'). split; [done|]. rewrite chains_app, A5, B5. done.
  Qed.
  Lemma k_run_app b0 l l' : forall k, k_run b0 k (l ++ l') = k_run b0 (k_run b0 k l) l'.
  Proof. induction l as [|a l IH]; intro k; [reflexivity|]. cbn [app StackModel.k_run]. apply IH. Qed.

  Lemma delivers_from d c0 pre b0 b1 post k al : c0 = pre ++ b0 :: b1 :: post -> (d <= length post)%nat ->
    node_ok read_id decode_block cfg chk d c0 (k_chains k) -> kinv read_id decode_block cfg chk d pre b0 b1 true true k -> s_open (k_in k) = true -> lively al ->
    exists n, forall m, (n <= m)%nat -> let k' := k_run b0 k (map al (seq 0 m)) in
      forall u v b w, s_node (k_in k) = u ++ b0 :: v ++ b :: w -> (d <= length w)%nat -> exists x, is_block b x /\ x ∈ w_accepted (k_world k').
  Proof.
    intros E0 L Ok K O Lv. pose proof (proj1 Ok) as G.
    assert (R : kreaches read_id decode_block cfg chk b0 (answered (k_seen k)) k).
    { eapply (live_reaches _ _ _ _ _ _ _ _ _ _ E0 L (k_chains k) (k_seen k) Ok false). split; [exact K|]. split; [reflexivity|]. split; [exact O|]. exists []. by rewrite app_nil_r. }
    assert (La : forall i j, Forall live_act (map al (seq i j))).
    { intros i j. apply Forall_forall. intros a Ha. apply elem_of_list_fmap in Ha as (x & -> & _). apply Lv. }
    assert (An : exists n, answered (k_seen k) (k_run b0 k (map al (seq 0 n)))) by (eapply kreaches_fair; eassumption). destruct An as [n An]. exists n. intros m Hm k' u v b w En Hw.
    assert (Ek : k' = k_run b0 (k_run b0 k (map al (seq 0 n))) (map al (seq n (m - n)))).
    { unfold k'. rewrite <- k_run_app, <- map_app. f_equal. f_equal. change (seq n (m - n)) with (seq (0 + n) (m - n)). rewrite <- seq_app. f_equal. lia. }
    destruct An as (t1 & f & t2 & e & t3 & Es & Nt & He & z & ->).
    destruct (live_run_seen b0 _ (La n (m - n)%nat) (k_run b0 k (map al (seq 0 n)))) as (_ & _ & _ & o2 & S2 & _). rewrite <- Ek in S2.
    destruct (live_run_seen b0 _ (La 0%nat m) k) as (P1 & P2 & P3 & o & S1 & Ch). fold k' in P1, P2, P3, S1.
    rewrite Es in S2. assert (Es' : k_seen k' = (k_seen k ++ z) ++ Asked f :: t2 ++ e :: (t3 ++ o2)) by (rewrite S2, <- !app_assoc; cbn; by rewrite <- app_assoc).
    assert (o = z ++ Asked f :: t2 ++ e :: t3 ++ o2) as ->. { rewrite Es', <- app_assoc in S1. by apply app_inv_head in S1. }
    rewrite chains_app in Ch. apply app_eq_nil in Ch as [Cz Ch]. change (chains (t2 ++ e :: t3 ++ o2) = []) in Ch. rewrite chains_app in Ch. apply app_eq_nil in Ch as [C2 Ch].
    assert (Kc : k_chains k' = k_chains k).
    { change (had (k_past k') (k_base k') (k_seen k') = had (k_past k) (k_base k) (k_seen k)). unfold had. rewrite P1, P2, Es'. rewrite !chains_app, Cz. change (chains (Asked f :: t2 ++ e :: t3 ++ o2)) with (chains (t2 ++ e :: t3 ++ o2)). rewrite chains_app, C2, Ch, !app_nil_r. reflexivity. }
    assert (K' : kinv read_id decode_block cfg chk d pre b0 b1 true true k').
    { unfold k'. eapply (kinv_run _ _ _ _ _ _ _ _ _ _ _ E0 L); [| |exact K|fold k'; rewrite Kc; exact Ok].
      - eapply Forall_impl; [apply La|]. intros [| | | | |] Ha; try exact Logic.I; done.
      - intros _. eapply Forall_impl; [apply La|]. intros [| | | | |] Ha; try exact Logic.I; done. }
    destruct (caught_up_of read_id decode_block cfg chk d c0 pre b0 b1 post k' (k_seen k ++ z) f t2 e (t3 ++ o2) E0 L) as [(c1 & c2 & (x & y & E & Hc2) & Np)|(c & Hc & Hall)].
    - rewrite Kc. exact Ok.
    - exact K'.
    - exact Es'.
    - done.
    - done.
    - rewrite C2 in E. destruct x as [|x0 x]; [|destruct x; discriminate]. injection E as <- <-. apply elem_of_list_singleton in Hc2 as ->. by destruct Np.
    - rewrite C2 in Hc. apply elem_of_list_singleton in Hc as ->.
      eapply Hall; [|exact Hw]. rewrite <- En. unfold in_force. rewrite chains_app, Cz, app_nil_r, P2.
      pose proof (k_node _ _ _ _ _ _ _ _ _ _ _ K) as Hl. rewrite k_chains_had in Hl. unfold had in Hl. rewrite last_app in Hl.
      assert (X : forall (y : list nblock) cs, last (y :: cs) = Some (List.last cs y)).
      { intros y cs. revert y. induction cs as [|c' cs IH]; intro y; [reflexivity|]. change (last (y :: c' :: cs)) with (last (c' :: cs)). rewrite IH. f_equal. clear. revert c'. induction cs; intro c'; [reflexivity|]. cbn. destruct cs; [reflexivity|]. apply (IHcs c'). }
      rewrite X in Hl. by injection Hl.
  Qed.

  (** After any moves, dropped pulls and restarts included, let the consumer call pull again and again and let each of the two tasks run
      again and again, in any order and with a node that keeps its chain.  There is a moment from which on the consumer has accepted
      every block of the node's chain that comes after its start and is below d others. *)
  Theorem C49_delivers d c0 b0 l al : start_deep d c0 b0 -> Forall kact_fair l -> (forall ok late, KHandler ok late ∈ l -> ok = true) ->
    let k := k_run b0 (k_start d c0) l in good_node d (k_chains k) -> lively al ->
    exists n, forall m, (n <= m)%nat -> let k' := k_run b0 k (map al (seq 0 m)) in
      forall u v b w, s_node (k_in k) = u ++ b0 :: v ++ b :: w -> (d <= length w)%nat -> exists x, is_block b x /\ x ∈ w_accepted (k_world k').
  Proof.
    intros Sd Hf Hok k G Lv. pose proof (deep_split _ _ _ Sd) as (pre & b1 & post & E0 & L). pose proof (run_node_ok read_id decode_block cfg chk d c0 b0 l G) as Ok. fold k in Ok.
    assert (K : kinv read_id decode_block cfg chk d pre b0 b1 true true k).
    { eapply (kinv_run _ _ _ _ _ _ _ _ _ _ _ E0 L); [done| |apply kinv_start|exact Ok]. intros _. apply Forall_forall. intros [| |ok late| | |] Hin; try exact Logic.I. by apply (Hok ok late). }
    assert (O : s_open (k_in k) = true) by (apply k_run_open; reflexivity).
    eapply delivers_from; eassumption.
  Qed.
End C49.

(** Non-vacuity: a schedule that turns round. *)
Definition ex_turn (n : nat) : kact := match (n mod 3)%nat with O => KPull elements | 1%nat => KCaller | _ => KHandler true false end.
Lemma ex_lively : lively ex_turn.
Proof.
  split; [|split; [|split]].
  - intro n. unfold ex_turn. destruct (n mod 3)%nat as [|[|]]; cbn; try done. apply elements_fair.
  - intro n. exists (n * 3)%nat, elements. split; [lia|]. unfold ex_turn. by rewrite Nat.mod_mul.
  - intro n. exists (1 + n * 3)%nat. split; [lia|]. unfold ex_turn. by rewrite Nat.mod_add.
  - intro n. exists (2 + n * 3)%nat, false. split; [lia|]. unfold ex_turn. by rewrite Nat.mod_add.
Qed.
(** C49_case: the moves ex_moves meet the hypotheses, and the node has ex_two then, in which c is below two others; and the schedule
    brings B, which is below two others in ex_one, from the start. *)
Example C49_delivers_case :
  let run := k_run hex_decode ex_dec ex_conf true (Some (start_of xA)) (k_start 2 ex_one) in
  lively ex_turn /\ s_node (k_in (run ex_moves)) = [] ++ xA :: [xB] ++ yC :: [yD; yE] /\
  s_node (k_in (run [])) = [] ++ xA :: [] ++ xB :: [xC; xD] /\
  ids (w_accepted (k_world (run (map ex_turn (seq 0 20))))) = [] /\
  ids (w_accepted (k_world (run (map ex_turn (seq 0 60))))) = ["42"]%string.
Proof. split; [apply ex_lively|]. repeat split; vm_compute; reflexivity. Qed.

Print Assumptions C49_delivers.
