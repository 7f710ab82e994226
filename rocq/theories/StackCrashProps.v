(** C67, over the Cardano source: with crashes between any two writes of a pull, besides all that C49 allows, the consumer of the
    confirming source still has the stretch of the node's chain after its start; the source can be started after each crash; and then,
    under the fairness of C49, the consumer gets every block that is deep enough. *)
From Coq Require Import NArith Lia.
From stdpp Require Import prelude numbers gmap strings list.
From Verif Require Import MultiverseModel MultiverseProps SourceModel SourceSpec SourceRunProofs SourceCrashModel SourceCrashProps SourceFirstCrashProps TimeModel UtilModel
  CardanoModel CardanoSpec CardanoProofs StackModel StackSpec StackProofs StackRunProofs StackProps StackLiveProofs StackLiveProps StackCrashModel.
Local Open Scope N_scope.

Section C67.
  Context (read_id : string -> option string) (decode_block : string -> option mblock) (cfg : config) (chk : bool).
  Notation is_block := (is_block decode_block cfg chk).
  Notation good_node := (good_node read_id decode_block cfg chk).
  Notation node_ok := (node_ok read_id decode_block cfg chk).
  Notation step := (CardanoModel.step read_id decode_block cfg chk).
  Notation kinvh := (kinvh read_id decode_block cfg chk).
  Notation k_run b0 := (k_run read_id decode_block cfg chk (Some (start_of b0))).
  Notation k_step b0 := (k_step read_id decode_block cfg chk (Some (start_of b0))).
  Notation kc_run b0 := (kc_run read_id decode_block cfg chk (Some (start_of b0))).
  Notation kc_step b0 := (kc_step read_id decode_block cfg chk (Some (start_of b0))).
  Notation after_first b0 := (after_first read_id decode_block cfg chk (Some (start_of b0))).

  Lemma kc_step_chains b0 k a k' : kc_step b0 k a = Some k' -> exists more, k_chains k' = k_chains k ++ more.
  Proof.
    destruct a as [a|n enum]; cbn [StackCrashModel.kc_step]; [apply k_step_chains|]. intro E.
    destruct (k_wait k); [|discriminate]. destruct (step _ _) as [[s o]|]; [|discriminate]. destruct (answer_of o); [|discriminate].
    destruct (c_step _ _ _ _); [|discriminate]. injection E as <-. eexists. reflexivity.
  Qed.
  Lemma kc_run_chains b0 l : forall k, exists more, k_chains (kc_run b0 k l) = k_chains k ++ more.
  Proof.
    induction l as [|a l IH]; intro k; [exists []; by rewrite app_nil_r|].
    cbn [StackCrashModel.kc_run]. destruct (kc_step b0 k a) as [k'|] eqn:E; [|apply IH]. destruct (IH k') as [m1 E1]. destruct (kc_step_chains _ _ _ _ E) as [m2 E2].
    exists (m2 ++ m1). rewrite E1, E2, app_assoc. reflexivity.
  Qed.
  Lemma kc_node_ok d c0 b0 l : let k := kc_run b0 (k_start d c0) l in good_node d (k_chains k) -> node_ok d c0 (k_chains k).
  Proof.
    intros k G. split; [exact G|]. unfold k. destruct (kc_run_chains b0 l (k_start d c0)) as [more ->]. reflexivity.
  Qed.

  (** what a pull can have stored is what it was answered *)
  Lemma pull_writes_block enum st from ans : (pull_writes point_of enum st from ans).2 = [] \/ (pull_writes point_of enum st from ans).2 = block_of_answer ans.
  Proof.
    unfold pull_writes. destruct (ms_checkpoints _ _ _ _); [by left|]. destruct ans as [| |[t|b]]; try (by left). destruct (mv_get _ _); [by left|by right].
  Qed.

  Section chain.
  Context (d : nat) (c0 pre : list nblock) (b0 b1 : nblock) (post : list nblock) (E0 : c0 = pre ++ b0 :: b1 :: post) (L : (d <= length post)%nat).
  Context (an : bool).

  (** a crash *)
  Lemma kcrash g k n enum' s o enum ans : kinvh d pre b0 b1 an false g k -> fair enum' -> w_accepted (k_world k) <> [] ->
    k_wait k = Some enum -> step (k_in k) Caller = Some (s, o) -> answer_of o = Some ans -> node_ok d c0 (k_chains k) ->
    exists w, c_step point_of (Some (start_of b0)) (k_world k) (CCrash enum ans n enum') = Some w /\ w_accepted w = w_accepted (k_world k) /\
      kinvh d pre b0 b1 an false g (Stack w None (initial (s_node s)) [] (k_chains k) (s_node s)).
  Proof.
    intros ((l & Hl & Hg) & (st & D & W & _) & (Rp & HR & I) & Hw) Hf' Ha Ew Es An Ok. rewrite Ew in Hw. destruct Hw as (Hf & cps & Hcp & Hcc).
    pose proof (run_snoc _ _ _ _ _ _ _ _ _ _ _ Hl Es) as Hl'. cbn [CardanoModel.step] in Es.
    destruct (caller_cases _ _ _ _ Es) as [(f & _ & _ & Ho)|[(f & _ & _ & Ho)|(C1 & C2 & x & ans' & Ho & Hx & Hc & Hans & Hb)]];
      [destruct Ho as [-> | ->]; discriminate|subst o; discriminate|]. subst o. rewrite An in Hans. injection Hans as <-.
    assert (Ec : had (k_past k) (k_base k) (k_seen k ++ [x]) = k_chains k) by (rewrite had_app, Hc, app_nil_r; reflexivity).
    assert (I' : sinv decode_block cfg chk d pre b0 b1 an (k_past k) (k_base k) Rp (k_seen k ++ [x])).
    { eapply (sinv_snoc read_id decode_block cfg chk d c0 pre b0 b1 post an E0 L); [by rewrite Hl'|rewrite Ec; exact Ok| |exact I]. intros f X. by destruct (Hx f). }
    set (bs := match n with O => [] | _ => (pull_writes point_of enum (w_source (k_world k)) (resume_point point_of (Some (start_of b0)) (w_accepted (k_world k))) ans).2 end).
    assert (Hbs : bs = [] \/ bs = block_of_answer ans) by (unfold bs; destruct n; [by left|]; apply pull_writes_block).
    assert (Hs : exists tr, had (k_past k) (k_base k) tr = k_chains k /\ sinv decode_block cfg chk d pre b0 b1 an (k_past k) (k_base k) Rp tr /\ w_received (k_world k) ++ bs = R_of Rp tr).
    { destruct Hbs as [-> | ->].
      - exists (k_seen k). split; [reflexivity|]. split; [exact I|]. by rewrite app_nil_r.
      - exists (k_seen k ++ [x]). split; [exact Ec|]. split; [exact I'|]. rewrite R_of_app, HR, Hb. reflexivity. }
    destruct Hs as (tr & Htr & Itr & Hrec).
    destruct (crash_ok point_of points_ok_point_of enum ans n enum' d (Some (start_of b0)) (k_world k) st D Hf Hf' (or_intror Ha) W) as (w & s1 & D1 & Hcs & W1).
    { fold bs. rewrite Hrec. apply (si_grows _ _ _ _ _ _ _ _ _ _ _ _ Itr). }
    exists w. split; [exact Hcs|].
    assert (Hw : w_accepted w = w_accepted (k_world k) /\ w_received w = w_received (k_world k) ++ bs).
    { cbn [c_step] in Hcs. unfold bs. destruct (pull_writes _ _ _ _ _) as [ws bs']. destruct (mv_load_from _ _); [|discriminate..]. destruct (ms_new _ _ _); [|discriminate..].
      injection Hcs as <-. split; [reflexivity|]. cbn [w_received snd]. by destruct n. }
    destruct Hw as [Hw1 Hw2]. split; [exact Hw1|].
    split; [exists []; split; [reflexivity|constructor]|]. split; [exists s1, D1; split; [exact W1|discriminate]|]. split; [|reflexivity].
    exists (R_of Rp tr). cbn [k_world k_seen k_past k_base]. split; [rewrite Hw2, Hrec; symmetry; apply app_nil_r|].
    rewrite <- Htr. eapply (sinv_restart read_id decode_block cfg chk d c0 pre b0 b1 post an L); [exact Itr|rewrite Htr; exact Ok].
  Qed.

  Lemma kcinv_step g k a k' : kcact_fair a -> (g = true -> match a with KAct a => ok_kact a | _ => True end) ->
    match a with KAct _ => True | KCrash _ _ => w_accepted (k_world k) <> [] end ->
    kinvh d pre b0 b1 an false g k -> kc_step b0 k a = Some k' -> node_ok d c0 (k_chains k') -> kinvh d pre b0 b1 an false g k'.
  Proof.
    intros Hf Hg Hs K E Ok. destruct (kc_step_chains _ _ _ _ E) as [more Hmore].
    destruct a as [a|n enum']; cbn [StackCrashModel.kc_step] in E; [by eapply (kinvh_step _ _ _ _ _ _ _ _ _ _ _ E0 L); eauto|].
    destruct (k_wait k) as [enum|] eqn:Ew; [|discriminate]. destruct (step (k_in k) Caller) as [[s o]|] eqn:Es; [|discriminate].
    destruct (answer_of o) as [ans|] eqn:An; [|discriminate].
    destruct (kcrash g k n enum' s o enum ans K Hf Hs Ew Es An) as (w & Hw & _ & K').
    { rewrite Hmore in Ok. eapply node_ok_prefix; [apply k_chains_nonempty|exact Ok]. }
    rewrite Hw in E. injection E as <-. exact K'.
  Qed.
  Lemma kcinv_run g l : Forall kcact_fair l -> (g = true -> forall ok late, KAct (KHandler ok late) ∈ l -> ok = true) -> forall k, after_first b0 k l ->
    kinvh d pre b0 b1 an false g k -> node_ok d c0 (k_chains (kc_run b0 k l)) -> kinvh d pre b0 b1 an false g (kc_run b0 k l).
  Proof.
    induction 1 as [|a l Ha _ IH]; intros Hg k Hs K Ok; cbn [StackCrashModel.kc_run StackCrashModel.after_first] in *; [exact K|]. destruct Hs as [Hs1 Hs].
    destruct (kc_run_chains b0 l (match kc_step b0 k a with Some k' => k' | None => k end)) as [more M].
    apply IH; [intros X ok late Hin; apply (Hg X ok late); by right|exact Hs| |exact Ok]. rewrite M in Ok. apply node_ok_prefix in Ok; [|apply k_chains_nonempty].
    destruct (kc_step b0 k a) as [k'|] eqn:E; [|exact K]. eapply kcinv_step; eauto.
    intro X. destruct a as [[| |ok late| | |]|]; try exact Logic.I. apply (Hg X ok late). left.
  Qed.
  End chain.

  Lemma kc_open b0 l : forall k, s_open (k_in k) = true -> s_open (k_in (kc_run b0 k l)) = true.
  Proof.
    induction l as [|a l IH]; intros k O; cbn [StackCrashModel.kc_run]; [exact O|]. apply IH. destruct (kc_step b0 k a) as [k'|] eqn:E; [|exact O].
    destruct a as [a|n enum']; cbn [StackCrashModel.kc_step] in E; [by eapply k_step_open|].
    destruct (k_wait k) as [enum|]; [|discriminate]. destruct (step (k_in k) Caller) as [[s o]|]; [|discriminate]. destruct (answer_of o) as [ans|]; [|discriminate].
    destruct (c_step _ _ _ _); [|discriminate]. injection E as <-. reflexivity.
  Qed.

  (** With any number of crashes between any two writes, what the consumer has accepted is still the part of the node's present chain
      that follows its start, up to some block, and only blocks that the node keeps. *)
  Theorem C67_stack_chain d c0 b0 l : start_deep d c0 b0 -> Forall kcact_fair l -> after_first b0 (k_start d c0) l ->
    let k := kc_run b0 (k_start d c0) l in good_node d (k_chains k) ->
    (exists del, Forall2 is_block del (w_accepted (k_world k)) /\
      (exists pre rest, s_node (k_in k) = pre ++ b0 :: del ++ rest) /\
      forall b, b ∈ del -> exists c u v, c ∈ k_chains k /\ c = u ++ b :: v /\ (d <= length v)%nat) /\
    Forall well_answered (w_results (k_world k)).
  Proof.
    intros (pre & b1 & post & E0 & L)%deep_split Hf Hs k G. pose proof (kc_node_ok d c0 b0 l G) as Ok. fold k in Ok.
    assert (K : kinvh d pre b0 b1 false false false k) by (eapply (kcinv_run _ _ _ _ _ _ E0 L); [done|discriminate|done|apply kinvh_start|exact Ok]).
    destruct (chain_of read_id decode_block cfg chk d c0 pre b0 b1 post false false false k E0 L Ok K) as (s & D & del & W & _ & H1 & (u & rest & H2) & H3).
    destruct W as (_ & _ & _ & _ & _ & Hacc & Hr). split; [|exact Hr]. destruct Hacc as [-> |(x & -> & _)]; [exists del; eauto|].
    apply Forall2_app_inv_r in H1 as (del1 & z & H1 & Hz & ->). exists del1. split; [exact H1|]. split.
    - exists u, (z ++ rest). by rewrite <- app_assoc in H2.
    - intros b Hb. apply H3. apply elem_of_app. by left.
  Qed.

  (** The source can be started after every crash: when the inner pull has an answer, the process can stop after any number of the
      writes and be started again, and the consumer has what it had. *)
  Theorem C67_stack_starts d c0 b0 l n enum : start_deep d c0 b0 -> Forall kcact_fair l -> after_first b0 (k_start d c0) l ->
    let k := kc_run b0 (k_start d c0) l in good_node d (k_chains k) -> w_accepted (k_world k) <> [] -> fair enum ->
    forall k1, k_step b0 k KCaller = Some k1 -> k_wait k <> None -> k_wait k1 = None ->
    exists k2, kc_step b0 k (KCrash n enum) = Some k2 /\ w_accepted (k_world k2) = w_accepted (k_world k) /\ s_node (k_in k2) = s_node (k_in k1).
  Proof.
    intros (pre & b1 & post & E0 & L)%deep_split Hf Hs k G Ha He k1 Hk1 Hwt Hw1. pose proof (kc_node_ok d c0 b0 l G) as Ok. fold k in Ok.
    assert (K : kinvh d pre b0 b1 false false false k) by (eapply (kcinv_run _ _ _ _ _ _ E0 L); [done|discriminate|done|apply kinvh_start|exact Ok]).
    cbn [StackModel.k_step] in Hk1. unfold k_inner in Hk1. destruct (k_wait k) as [enum0|] eqn:Ew; [|done]. destruct (step (k_in k) Caller) as [[s o]|] eqn:Es; [|discriminate].
    destruct (answer_of o) as [ans|] eqn:An; [|injection Hk1 as <-; discriminate].
    destruct (w_step _ _ _ _); [|discriminate]. injection Hk1 as <-.
    destruct (kcrash d c0 pre b0 b1 post E0 L false false k n enum s o enum0 ans K He Ha Ew Es An Ok) as (w2 & Hw2 & Hacc & _).
    cbn [StackCrashModel.kc_step]. rewrite Ew, Es, An, Hw2. eexists. split; [reflexivity|]. auto.
  Qed.

  (** ** a crash in the pull that confirms the first block *)
  Definition dead (d : nat) (b0 : nblock) (x : block) (k : stack) : Prop :=
    k_wait k = None /\ ahead d (start_of b0) x (k_world k) /\ forall y, y ∈ w_received (k_world k) -> point_of y <> Some (start_of b0).
  Lemma dead_forever d b0 x l : Forall kcact_fair l -> forall k, dead d b0 x k ->
    exists rs, w_accepted (k_world (kc_run b0 k l)) = [] /\ w_results (k_world (kc_run b0 k l)) = w_results (k_world k) ++ rs /\ Forall (fun ar => ar = (ANone, PErr)) rs.
  Proof.
    induction 1 as [|a l Ha _ IH]; intros k (Hw & A & Hn); cbn [StackCrashModel.kc_run].
    { exists []. rewrite app_nil_r. split; [apply A|]. done. }
    assert (Same : forall s o, exists rs, w_accepted (k_world (kc_run b0 (Stack (k_world k) None s (k_seen k ++ o) (k_past k) (k_base k)) l)) = [] /\
      w_results (k_world (kc_run b0 (Stack (k_world k) None s (k_seen k ++ o) (k_past k) (k_base k)) l)) = w_results (k_world k) ++ rs /\ Forall (fun ar => ar = (ANone, PErr)) rs)
      by (intros s o; apply (IH (Stack (k_world k) None s (k_seen k ++ o) (k_past k) (k_base k))); split; [done|]; split; [exact A|exact Hn]).
    assert (Stay : exists rs, w_accepted (k_world (kc_run b0 k l)) = [] /\ w_results (k_world (kc_run b0 k l)) = w_results (k_world k) ++ rs /\ Forall (fun ar => ar = (ANone, PErr)) rs)
      by (apply IH; split; [done|]; split; [exact A|exact Hn]).
    destruct a as [[enum| |ok late|c| |enum]|n enum]; cbn [StackCrashModel.kc_step StackModel.k_step]; unfold k_inner; rewrite ?Hw; try exact Stay;
      try (destruct (step (k_in k) _) as [[s o]|]; [apply Same|exact Stay]).
    - pose proof A as (Hacc & As). rewrite Hacc. change (resume_point point_of (Some (start_of b0)) []) with (Some (start_of b0)).
      pose proof (ahead_fails point_of points_ok_point_of enum d (start_of b0) x (k_world k) Ha A Hn) as F. rewrite F. cbn [w_step]. rewrite Hacc. unfold ms_pull.
      change (resume_point point_of (Some (start_of b0)) []) with (Some (start_of b0)). rewrite F. rewrite !app_nil_r.
      match goal with |- context [kc_run b0 ?k1 l] => destruct (IH k1) as (rs & R1 & R2 & R3) end.
      { split; [done|]. split; [|exact Hn]. split; [done|exact As]. }
      exists ((ANone, PErr) :: rs). split; [exact R1|]. split; [|by constructor]. rewrite R2. cbn [k_world w_results]. rewrite <- app_assoc. reflexivity.
    - destruct (ahead_reopens point_of enum d (start_of b0) x (k_world k) Ha A) as (w' & -> & A' & E1 & E2). rewrite <- E2.
      match goal with |- context [kc_run b0 ?k1 l] => apply (IH k1) end. split; [done|]. split; [exact A'|]. cbn [k_world]. rewrite E1. exact Hn.
  Qed.

  (** If the process stops inside the pull that would give the consumer its first block, when the block that it got from the Cardano
      source is written, it can be started again, but the consumer never gets a block: every pull fails. *)
  Theorem C67_stack_first_lost d c0 b0 l n enum k1 : start_deep d c0 b0 -> Forall kcact_fair l -> after_first b0 (k_start d c0) l ->
    let k := kc_run b0 (k_start d c0) l in good_node d (k_chains k) -> fair enum ->
    w_accepted (k_world k) = [] -> k_step b0 k KCaller = Some k1 -> w_accepted (k_world k1) <> [] ->
    exists k2, kc_step b0 k (KCrash (S n) enum) = Some k2 /\ forall l2, Forall kcact_fair l2 ->
      exists rs, w_accepted (k_world (kc_run b0 k2 l2)) = [] /\ w_results (k_world (kc_run b0 k2 l2)) = w_results (k_world k2) ++ rs /\
        Forall (fun ar => ar = (ANone, PErr)) rs.
  Proof.
    intros (pre & b1 & post & E0 & L)%deep_split Hf Hs k G He Hacc Hk1 Hne. pose proof (kc_node_ok d c0 b0 l G) as Ok. fold k in Ok.
    assert (K : kinvh d pre b0 b1 false false false k) by (eapply (kcinv_run _ _ _ _ _ _ E0 L); [done|discriminate|done|apply kinvh_start|exact Ok]).
    cbn [StackModel.k_step] in Hk1. unfold k_inner in Hk1. cbn [CardanoModel.step] in Hk1. destruct (caller cfg (k_in k)) as [[s o]|] eqn:Es; [|discriminate].
    destruct K as ((l0 & Hl & Hg) & (st & D & W & _) & (Rp & HR & I) & Hw).
    destruct (k_wait k) as [enum0|] eqn:Ew; [|injection Hk1 as <-; by destruct Hne].
    destruct (answer_of o) as [ans|] eqn:An; [|injection Hk1 as <-; by destruct Hne]. destruct Hw as (Hf0 & cps & Hcp & Hcc).
    destruct (w_step _ _ _ _) as [w1|] eqn:Ews; [|discriminate]. injection Hk1 as <-. cbn [k_world] in Hne.
    pose proof (run_snoc _ _ _ _ _ _ Caller _ _ _ _ Hl Es) as Hl'.
    destruct (caller_cases _ _ _ _ Es) as [(f & _ & _ & Ho)|[(f & _ & _ & Ho)|(C1 & C2 & x & ans' & Ho & Hx & Hc & Hans & Hb)]];
      [destruct Ho as [-> | ->]; discriminate|subst o; discriminate|]. subst o. rewrite An in Hans. injection Hans as <-.
    assert (Ec : had (k_past k) (k_base k) (k_seen k ++ [x]) = k_chains k) by (rewrite had_app, Hc, app_nil_r; reflexivity).
    assert (I' : sinv decode_block cfg chk d pre b0 b1 false (k_past k) (k_base k) Rp (k_seen k ++ [x])).
    { eapply (sinv_snoc read_id decode_block cfg chk d c0 pre b0 b1 post false E0 L); [by rewrite Hl'|rewrite Ec; exact Ok| |exact I]. intros f X. by destruct (Hx f). }
    rewrite Hacc in Hcp. change (resume_point point_of (Some (start_of b0)) []) with (Some (start_of b0)) in Hcp.
    cbn [w_step] in Ews. rewrite Hacc in Ews. change (resume_point point_of (Some (start_of b0)) []) with (Some (start_of b0)) in Ews.
    destruct (ms_pull point_of enum0 (w_source (k_world k)) (Some (start_of b0)) ans) as [[st1 asked] r] eqn:Ep. injection Ews as <-. cbn [w_accepted] in Hne.
    destruct r as [| |[|y]| |]; try (by destruct Hne).
    assert (exists b, ans = AEvent (EvBlock b)) as [b ->].
    { unfold ms_pull in Ep. rewrite Hcp in Ep. destruct ans as [| |[t|b]]; [discriminate..|eauto]. }
    assert (HRb : w_received (k_world k) ++ [b] = R_of Rp (k_seen k ++ [x])) by (rewrite R_of_app, HR, Hb; reflexivity).
    destruct (first_crash point_of points_ok_point_of enum0 enum d (start_of b0) (k_world k) st D b n st1 asked y Hf0 He W Hacc Ep) as (w' & Hw' & A & Hr & _).
    { rewrite HRb. apply (si_grows _ _ _ _ _ _ _ _ _ _ _ _ I'). }
    cbn [StackCrashModel.kc_step CardanoModel.step]. rewrite Ew, Es, An, Hw'. eexists. split; [reflexivity|]. intros l2 Hl2.
    apply (dead_forever d b0 y l2 Hl2). split; [reflexivity|]. split; [exact A|]. cbn [k_world]. rewrite Hr, HRb. intros z Hz Hp.
    destruct (si_prov _ _ _ _ _ _ _ _ _ _ _ _ I' (k_seen k ++ [x]) [] ltac:(by rewrite app_nil_r) z Hz) as (j & C & i & _ & Hj & Hi & Hzi). rewrite Ec in Hj.
    assert (HC : C ∈ map (blk decode_block cfg chk) <$> k_chains k) by (by eapply elem_of_list_lookup_2).
    destruct (n_start read_id decode_block cfg chk d c0 pre b0 b1 post E0 L _ Ok C HC) as [S0 _].
    assert (slot_of (blk decode_block cfg chk b0) < slot_of z) as Hlt by (eapply n_slots; eassumption).
    assert (slot_of (blk decode_block cfg chk b0) = nb_slot b0) as Hb0.
    { pose proof HC as HC'. apply elem_of_list_fmap in HC' as (c & -> & Hcin).
      destruct (n_prefix read_id decode_block cfg chk d c0 pre b0 b1 post E0 L _ Ok _ Hcin) as [q Eq].
      destruct (blk_node read_id decode_block cfg chk c b0) as [P0 _]; [by eapply n_good|rewrite Eq, <- app_assoc; apply elem_of_app; right; left|].
      unfold point_of in P0. by injection P0. }
    unfold point_of in Hp. injection Hp as Hp1 _. lia.
  Qed.

  Lemma seq_from n0 j : forall z, map (Nat.add n0) (seq z j) = seq (n0 + z) j.
  Proof.
    induction j as [|j IH]; intro z; [reflexivity|]. cbn [seq map]. f_equal. rewrite IH. f_equal. lia.
  Qed.

  (** with the next pull at the latest, the consumer has what is settled *)
  Lemma kc_resumes d c0 pre b0 b1 post k enum : c0 = pre ++ b0 :: b1 :: post -> (d <= length post)%nat -> fair enum -> node_ok d c0 (k_chains k) ->
    kinvh d pre b0 b1 true false true k ->
    kinvh d pre b0 b1 true true true k \/ (exists k', k_step b0 k (KPull enum) = Some k' /\ kinvh d pre b0 b1 true true true k').
  Proof.
    intros E0 L Hf Ok K. pose proof K as (HR & (s & D & W & _) & HI & Hw).
    destruct (k_wait k) as [enum0|] eqn:Ew.
    - left. split; [exact HR|]. split; [|split; [exact HI|]; rewrite Ew; exact Hw]. exists s, D. split; [exact W|]. intros _.
      destruct Hw as (Hf0 & cps & Hcp & _). pose proof (checkpoints_ok point_of points_ok_point_of enum0 d (Some (start_of b0)) (k_world k) s D Hf0 W) as [[X _]|(x & _ & X)]; [exact X|].
      rewrite Hcp in X. discriminate.
    - pose proof (checkpoints_ok point_of points_ok_point_of enum d (Some (start_of b0)) (k_world k) s D Hf W) as [[X _]|(x & _ & X)].
      + left. split; [exact HR|]. split; [|split; [exact HI|]; rewrite Ew; exact Hw]. exists s, D. auto.
      + right. destruct (w_step_total point_of d (Some (start_of b0)) (k_world k) s D (SourceSpec.Pull enum ANone true) Hf W) as [w Hws].
        assert (E : k_step b0 k (KPull enum) = Some (Stack w None (k_in k) (k_seen k) (k_past k) (k_base k))) by (cbn [StackModel.k_step]; rewrite Ew, X, Hws; reflexivity).
        eexists. split; [exact E|].
        assert (K' : kinvh d pre b0 b1 true false true (Stack w None (k_in k) (k_seen k) (k_past k) (k_base k))).
        { eapply (kinvh_step _ _ _ _ _ _ _ _ _ _ _ E0 L); [| |exact K|exact E|exact Ok]; [exact Hf|intros _; exact Logic.I]. }
        destruct K' as (HR' & _ & HI' & Hw'). split; [exact HR'|]. split; [|split; [exact HI'|exact Hw']].
        destruct HI' as (Rp & HRp & I').
        destruct (pull_ok point_of points_ok_point_of enum ANone true d (Some (start_of b0)) (k_world k) s D w Hf W (or_intror eq_refl) Hws) as (s' & D' & W' & Ha').
        { cbn [k_world] in HRp. rewrite HRp. apply (si_grows _ _ _ _ _ _ _ _ _ _ _ _ I'). }
        exists s', D'. split; [exact W'|]. intros _. by apply Ha'.
  Qed.

  (** After any moves, crashes included, let the consumer call pull again and again and let each of the two tasks run again and again,
      with a node that keeps its chain.  There is a moment from which on the consumer has accepted every block of the node's chain that
      comes after its start and is below d others. *)
  Theorem C67_stack_delivers d c0 b0 l al : start_deep d c0 b0 -> Forall kcact_fair l -> after_first b0 (k_start d c0) l ->
    (forall ok late, KAct (KHandler ok late) ∈ l -> ok = true) ->
    let k := kc_run b0 (k_start d c0) l in good_node d (k_chains k) -> lively al ->
    exists n, forall m, (n <= m)%nat -> let k' := k_run b0 k (map al (seq 0 m)) in
      forall u v b w, s_node (k_in k) = u ++ b0 :: v ++ b :: w -> (d <= length w)%nat -> exists x, is_block b x /\ x ∈ w_accepted (k_world k').
  Proof.
    intros (pre & b1 & post & E0 & L)%deep_split Hf Hs Hok k G Lv. pose proof (kc_node_ok d c0 b0 l G) as Ok. fold k in Ok.
    assert (K : kinvh d pre b0 b1 true false true k) by (eapply (kcinv_run _ _ _ _ _ _ E0 L); [done|intros _; exact Hok|done|apply kinvh_start|exact Ok]).
    assert (O : s_open (k_in k) = true) by (apply kc_open; reflexivity).
    assert (La : forall i j, Forall live_act (map al (seq i j))).
    { intros i j. apply Forall_forall. intros a Ha. apply elem_of_list_fmap in Ha as (x & -> & _). apply Lv. }
    assert (Fine : forall i, kinvh d pre b0 b1 true false true (k_run b0 k (map al (seq 0 i))) /\ node_ok d c0 (k_chains (k_run b0 k (map al (seq 0 i)))) /\
      s_open (k_in (k_run b0 k (map al (seq 0 i)))) = true /\ s_node (k_in (k_run b0 k (map al (seq 0 i)))) = s_node (k_in k)).
    { intro i. destruct (live_run_seen read_id decode_block cfg chk b0 _ (La 0%nat i) k) as (P1 & P2 & P3 & o & P4 & P5).
      assert (Kc : k_chains (k_run b0 k (map al (seq 0 i))) = k_chains k).
      { rewrite !k_chains_had, P1, P2, P4, had_app, P5, app_nil_r. reflexivity. }
      rewrite Kc. split; [|split; [exact Ok|split; [by apply k_run_open|exact P3]]].
      eapply (kinvh_run _ _ _ _ _ _ _ _ _ _ _ E0 L); [| |exact K|rewrite Kc; exact Ok].
      - eapply Forall_impl; [apply La|]. intros [| | | | |] Ha; try exact Logic.I; done.
      - intros _. eapply Forall_impl; [apply La|]. intros [| | | | |] Ha; try exact Logic.I; done. }
    assert (Ex : exists n0, kinvh d pre b0 b1 true true true (k_run b0 k (map al (seq 0 n0)))).
    { destruct Lv as (Lv & Lp & _). destruct (Lp 0%nat) as (i & enum & _ & Hi). pose proof (Lv i) as Hfe. rewrite Hi in Hfe. cbn [live_act] in Hfe.
      destruct (Fine i) as (Ki & Oki & _). destruct (kc_resumes d c0 pre b0 b1 post _ enum E0 L Hfe Oki Ki) as [X|(k' & E & X)]; [by exists i|].
      exists (S i). rewrite seq_S, map_app, k_run_app. cbn [map StackModel.k_run Nat.add]. rewrite Hi, E. exact X. }
    destruct Ex as [n0 K0]. destruct (Fine n0) as (_ & Ok0 & O0 & N0).
    destruct (delivers_from read_id decode_block cfg chk d c0 pre b0 b1 post _ (fun i => al (n0 + i)%nat) E0 L Ok0 K0 O0) as [n1 Hn].
    { destruct Lv as (L1 & L2 & L3 & L4). split; [intro; apply L1|]. split; [|split].
      - intro i. destruct (L2 (n0 + i)%nat) as (m & enum & Hm & Em). exists (m - n0)%nat, enum. split; [lia|]. rewrite <- Em. f_equal. lia.
      - intro i. destruct (L3 (n0 + i)%nat) as (m & Hm & Em). exists (m - n0)%nat. split; [lia|]. rewrite <- Em. f_equal. lia.
      - intro i. destruct (L4 (n0 + i)%nat) as (m & late & Hm & Em). exists (m - n0)%nat, late. split; [lia|]. rewrite <- Em. f_equal. lia. }
    exists (n0 + n1)%nat. intros m Hm k' u v b w En Hw.
    destruct (Hn (m - n0)%nat) with (u := u) (v := v) (b := b) (w := w) as (x & Hx & Hin); [lia|by rewrite N0|exact Hw|]. exists x. split; [exact Hx|].
    replace k' with (k_run b0 (k_run b0 k (map al (seq 0 n0))) (map (fun i => al (n0 + i)%nat) (seq 0 (m - n0)))); [exact Hin|].
    unfold k'. rewrite <- k_run_app. f_equal. replace (seq 0 m) with (seq 0 n0 ++ seq n0 (m - n0)) by (rewrite <- seq_app; f_equal; lia). rewrite map_app. f_equal.
    change (fun i => al (n0 + i)%nat) with (fun i => al (Nat.add n0 i)). rewrite <- (map_map (Nat.add n0) al). f_equal.
    rewrite (seq_from n0 (m - n0) 0), Nat.add_0_r. reflexivity.
  Qed.
End C67.

(** Non-vacuity: the node goes over from ex_one to ex_two, as in C49_case.  The process stops inside the pull that got d, and, started
    again, inside the pull that got e and would give c to the consumer, after its two writes; the next pull gives c. *)
Definition ex_crash (n : nat) : list kcact := (KAct <$> (KPull elements :: replicate 8 (KHandler true false))) ++ [KCrash n elements].
Definition ex_crash0 (n : nat) : list kcact := (KAct <$> (KPull elements :: KCaller :: KCaller :: replicate 8 (KHandler true false))) ++ [KCrash n elements].
Definition ex_pulls (n : nat) : list kcact := KAct <$> mjoin (replicate n ex_pull).
Definition ex_kcmoves : list kcact := ex_pulls 4 ++ [KAct (KNode ex_two)] ++ ex_pulls 1 ++ ex_crash 1 ++ ex_crash0 2.
Notation ex_kcrun := (kc_run hex_decode ex_dec ex_conf true (Some (start_of xA)) (k_start 2 ex_one)).
Definition ex_summary (k : stack) : list string * list string * nat := (ids (w_received (k_world k)), ids (w_accepted (k_world k)), length (k_past k)).

Lemma ex_after_first : after_first hex_decode ex_dec ex_conf true (Some (start_of xA)) (k_start 2 ex_one) ex_kcmoves.
Proof.
  assert (X : forall a l k, match a with KAct _ => True | KCrash _ _ => w_accepted (k_world k) <> [] end ->
    after_first hex_decode ex_dec ex_conf true (Some (start_of xA)) (kc_run hex_decode ex_dec ex_conf true (Some (start_of xA)) k [a]) l ->
    after_first hex_decode ex_dec ex_conf true (Some (start_of xA)) k (a :: l)) by (intros a l k H1 H2; split; [exact H1|exact H2]).
  assert (Y : forall l l' k, (forall n enum, KCrash n enum ∈ l -> False) ->
    after_first hex_decode ex_dec ex_conf true (Some (start_of xA)) (kc_run hex_decode ex_dec ex_conf true (Some (start_of xA)) k l) l' ->
    after_first hex_decode ex_dec ex_conf true (Some (start_of xA)) k (l ++ l')).
  { induction l as [|a l IH]; intros l' k Hn H; [exact H|]. cbn [app after_first]. split; [destruct a as [|n enum]; [done|]; destruct (Hn n enum); left|].
    apply IH; [intros n enum Hin; apply (Hn n enum); by right|exact H]. }
  assert (Z : forall (l : list kact) n enum, KCrash n enum ∈ KAct <$> l -> False) by (intros l n enum H; by apply elem_of_list_fmap in H as (? & ? & _)).
  unfold ex_kcmoves, ex_crash, ex_crash0. change [KAct (KNode ex_two)] with (KAct <$> [KNode ex_two]). rewrite <- !app_assoc.
  apply Y; [apply Z|]. apply Y; [apply Z|]. apply Y; [apply Z|]. apply Y; [apply Z|]. apply X; [vm_compute; discriminate|].
  apply Y; [apply Z|]. apply X; [vm_compute; discriminate|]. exact Logic.I.
Qed.
Example C67_stack_case : start_deep 2 ex_one xA /\ Forall kcact_fair ex_kcmoves /\
  after_first hex_decode ex_dec ex_conf true (Some (start_of xA)) (k_start 2 ex_one) ex_kcmoves /\
  (forall ok late, KAct (KHandler ok late) ∈ ex_kcmoves -> ok = true) /\
  good_node hex_decode ex_dec ex_conf true 2 (k_chains (ex_kcrun ex_kcmoves)) /\
  ex_summary (ex_kcrun ex_kcmoves) = (["42"; "43"; "44"; "63"; "64"; "65"], ["42"], 3%nat)%string /\
  ex_summary (ex_kcrun (ex_kcmoves ++ ex_pulls 1)) = (["42"; "43"; "44"; "63"; "64"; "65"], ["42"; "63"], 3%nat)%string /\
  s_node (k_in (ex_kcrun ex_kcmoves)) = [] ++ xA :: [xB] ++ yC :: [yD; yE].
Proof.
  split; [exists [], [xB; xC; xD]; split; [reflexivity|cbn; lia]|]. split.
  { unfold ex_kcmoves, ex_crash, ex_crash0, ex_pulls, ex_pull. cbn -[elements]. repeat constructor; apply elements_fair. }
  split; [apply ex_after_first|]. split.
  { intros ok late H. unfold ex_kcmoves, ex_crash, ex_crash0, ex_pulls, ex_pull in H. cbn in H. repeat (apply elem_of_cons in H as [H|H]; [try discriminate H; by injection H|]). inversion H. }
  split.
  { replace (k_chains _) with [ex_one; ex_two; ex_two; ex_two] by (vm_compute; reflexivity). apply ex_node.
    + intros c Hc. repeat (apply elem_of_cons in Hc as [-> |Hc]; [auto|]). inversion Hc.
    + intros [|[|[|[|i]]]] Hi j Hj; try discriminate; destruct j as [|[|[|[|j]]]]; try lia; discriminate. }
  repeat split; vm_compute; reflexivity.
Qed.

(** Two pulls, and the process stops inside the third, which would give B to the consumer; the four pulls after that fail. *)
Definition ex_kfirst : list kcact := ex_pulls 2 ++ (KAct <$> (KPull elements :: replicate 8 (KHandler true false))).
Example C67_stack_first_lost_case : let k := ex_kcrun ex_kfirst in
  Forall kcact_fair ex_kfirst /\ good_node hex_decode ex_dec ex_conf true 2 (k_chains k) /\ w_accepted (k_world k) = [] /\
  (exists k1, k_step hex_decode ex_dec ex_conf true (Some (start_of xA)) k KCaller = Some k1 /\ ids (w_accepted (k_world k1)) = ["42"]%string) /\
  map snd (drop 2 (w_results (k_world (ex_kcrun (ex_kfirst ++ [KCrash 1 elements] ++ ex_pulls 4))))) = [PErr; PErr; PErr; PErr].
Proof.
  cbv zeta. split.
  { unfold ex_kfirst, ex_pulls, ex_pull. cbn -[elements]. repeat constructor; apply elements_fair. }
  split; [replace (k_chains _) with [ex_one] by (vm_compute; reflexivity); apply ex_node|].
  { intros c Hc. apply elem_of_list_singleton in Hc as ->. auto. }
  { intros [|i] Hi j Hj; try discriminate; destruct j as [|j]; try lia; discriminate. }
  split; [vm_compute; reflexivity|]. split; [|vm_compute; reflexivity].
  assert (X : match k_step hex_decode ex_dec ex_conf true (Some (start_of xA)) (ex_kcrun ex_kfirst) KCaller with Some k1 => ids (w_accepted (k_world k1)) | None => [] end = ["42"]%string) by (vm_compute; reflexivity).
  destruct (k_step hex_decode ex_dec ex_conf true (Some (start_of xA)) (ex_kcrun ex_kfirst) KCaller) as [k1|]; [|discriminate]. exists k1. split; [reflexivity|exact X].
Qed.

Definition all_StackCrashProps := (C67_stack_chain, C67_stack_starts, C67_stack_first_lost, C67_stack_delivers, C67_stack_case, C67_stack_first_lost_case).
Print Assumptions all_StackCrashProps.
