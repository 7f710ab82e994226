(** C49 for the fork-handling source, what has to happen: if the node keeps its chain and its answers are no errors, then the consumer
    comes to have exactly the node's chain from its start to the node's last block, for every fair schedule; and when it does not. *)
From Coq Require Import NArith Lia.
From stdpp Require Import prelude numbers gmap strings list.
From Verif Require Import MultiverseModel MultiverseProps SourceModel SourceSpec SourceProofs SourceRunProofs TimeModel UtilModel CardanoModel CardanoSpec CardanoProofs
  StackModel StackSpec StackProofs StackRunProofs StackProps StackLiveProofs StackForkProofs.
Local Open Scope N_scope.

Section C49.
  Context (read_id : string -> option string) (decode_block : string -> option mblock) (cfg : config) (chk : bool).
  Notation is_block := (is_block decode_block cfg chk).
  Notation good_node := (good_node read_id decode_block cfg chk).
  Notation kf_run b0 := (kf_run read_id decode_block cfg chk (Some (start_of b0))).
  Notation kf_step b0 := (kf_step read_id decode_block cfg chk (Some (start_of b0))).
  Notation blk := (blk decode_block cfg chk).

  Lemma flive_seen b0 k a k' : live_fact a -> kf_step b0 k a = Some k' -> f_base k' = f_base k /\ exists o, f_seen k' = f_seen k ++ o /\ chains o = [].
  Proof.
    intros [_ La] E. destruct a as [enum order| |ok late|c|]; try contradiction; cbn [StackModel.kf_step] in E.
    - destruct (f_wait k); [discriminate|]. destruct (kf_asks _ _ _).
      + cbn [CardanoModel.step] in E. destruct (s_c (f_in k)); try discriminate. destruct (s_open (f_in k)); [|discriminate]. injection E as <-. split; [done|]. by eexists.
      + injection E as <-. split; [done|]. exists []. by rewrite app_nil_r.
    - unfold kf_inner in E. cbn [CardanoModel.step] in E. destruct (caller cfg (f_in k)) as [[s' o]|] eqn:Es; [|discriminate].
      assert (C : chains o = []) by (destruct (caller_cases _ _ _ _ Es) as [(f & _ & _ & [-> | ->])|[(f & _ & _ & ->)|(_ & _ & x & ans & -> & _ & Hc & _)]]; done).
      destruct (f_wait k) as [[]|]; [destruct (answer_of o)|]; injection E as <-; eauto.
    - unfold kf_inner in E. cbn [CardanoModel.step] in E. destruct (handler _ _ _ _ (f_in k) ok late) as [s'|] eqn:Eh; [|discriminate].
      assert (k' = FStack (f_world k) (f_wait k) s' (f_seen k ++ []) (f_base k)) as -> by (destruct (f_wait k) as [[]|]; injection E as <-; reflexivity).
      split; [done|]. by exists [].
  Qed.
  Lemma flive_run_seen b0 ls : Forall live_fact ls -> forall k, let k' := kf_run b0 k ls in f_base k' = f_base k /\ exists o, f_seen k' = f_seen k ++ o /\ chains o = [].
  Proof.
    induction 1 as [|a ls La _ IH]; intro k; cbn [StackModel.kf_run]; [split; [done|]; exists []; by rewrite app_nil_r|].
    destruct (kf_step b0 k a) as [k1|] eqn:E; [|apply IH]. destruct (flive_seen _ _ _ _ La E) as (A2 & o & A4 & A5).
    destruct (IH k1) as (B2 & o' & B4 & B5). rewrite B2, B4, A4, <- app_assoc. split; [done|].
    exists (o ++ o'). split; [done|]. rewrite chains_app, A5, B5. done.
  Qed.
  Lemma flive_chains b0 past ls k : Forall live_fact ls -> rchains past (kf_run b0 k ls) = rchains past k.
  Proof.
    intro H. destruct (flive_run_seen b0 ls H k) as (A & o & B & C). rewrite !rchains_had. unfold had. rewrite A, B, chains_app, C, app_nil_r. reflexivity.
  Qed.
  Lemma kf_run_app b0 l l' : forall k, kf_run b0 k (l ++ l') = kf_run b0 (kf_run b0 k l) l'.
  Proof. induction l as [|a l IH]; intro k; [reflexivity|]. cbn [app StackModel.kf_run]. apply IH. Qed.
  Lemma live_fair ls : Forall live_fact ls -> Forall fact_fair ls /\ Forall ok_fact ls.
  Proof. intro H. split; eapply Forall_impl; try exact H; intros a [H1 H2]; [exact H1|]. by destruct a. Qed.

  Lemma asked_some c0 l t1 f t2 : snd (CardanoModel.run read_id decode_block cfg chk (initial c0) l) = t1 ++ Asked f :: t2 -> f <> [].
  Proof.
    intro E. apply run_at in E as (l1 & a & l2 & s' & _ & _ & Es). destruct a; cbn [CardanoModel.step] in Es.
    all: try (repeat match type of Es with context [match ?y with _ => _ end] => destruct y end; discriminate).
    destruct (caller_cases _ _ _ _ Es) as [(g & _ & _ & [X|X])|[(g & _ & _ & X)|(_ & _ & x & ans & X & Hx & _)]]; try discriminate.
    - injection X as ->. by destruct g.
    - injection X as <-. by destruct (Hx f).
  Qed.

  (** ** the node's last block is received *)
  Lemma fork_tip d c0 pre b0 b1 post past Rp k t1 f t2 e t3 cs c x : c0 = pre ++ b0 :: b1 :: post -> (d <= length post)%nat ->
    kfinvp read_id decode_block cfg chk d pre b0 b1 false past Rp k -> kfok read_id decode_block cfg chk k -> node_ok read_id decode_block cfg chk d c0 (rchains past k) ->
    f_seen k = t1 ++ Asked f :: t2 ++ e :: t3 -> Forall not_asked t2 -> e = Ended \/ e = GotNone -> rchains past k = cs ++ [c] -> chains t2 = [] -> chains (e :: t3) = [] -> last c = Some x ->
    (exists y, settled d (R_of Rp t1) y) \/ (forall c', c' ∈ cs -> c' `prefix_of` c) -> blk x ∈ f_received (f_world k).
  Proof.
    intros E0 L K Kok Ok Es Nt He Ech C2 C3 Hx Hor. destruct (kfok_clean _ _ _ _ _ _ _ _ Kok Ok) as (Gd & l & Hl & Cl).
    pose proof K as (_ & _ & _ & I & (HsR & _) & _). rewrite rchains_had in Ok, Ech. set (cb := f_base k) in *.
    assert (Ec : in_force cb t1 = c).
    { unfold in_force. rewrite Es in Ech. unfold had in Ech. rewrite chains_app in Ech. change (chains (Asked f :: t2 ++ e :: t3)) with (chains (t2 ++ e :: t3)) in Ech.
      rewrite chains_app, C2, C3, !app_nil_r in Ech. clear - Ech.
      assert (Y : forall (y : list nblock) cs, last (y :: cs) = Some (List.last cs y)).
      { intros y cs'. revert y. induction cs' as [|c' cs' IH]; intro y; [reflexivity|]. change (last (y :: c' :: cs')) with (last (c' :: cs')). rewrite IH. f_equal. clear. revert c'. induction cs'; intro c'; [reflexivity|]. cbn. destruct cs'; [reflexivity|]. apply (IHcs' c'). }
      apply (f_equal last) in Ech. rewrite last_snoc, last_app, Y in Ech. by injection Ech. }
    apply HsR. rewrite Es in I, Ok, Ech |- *.
    destruct (ended_tip read_id decode_block cfg chk d c0 pre b0 b1 post false E0 L past cb Rp l t1 f t2 e t3) as [(c1 & c2 & (u & v & E & Hc2) & Np)|(c1 & k1 & x' & Hc1 & _ & Hl' & Hin)].
    - intros c1 k1 Hin Hk Hk1. destruct Hor as [Hset|Hpre].
      + apply (asked_on read_id decode_block cfg chk d c0 pre b0 b1 post false E0 L past cb Rp t1 f (t2 ++ e :: t3) Ok I (or_introl Hset) c1 k1 Hk Hk1).
      + rewrite C2 in Hin. apply elem_of_list_singleton in Hin as ->. rewrite Ec in *.
        assert (All : forall c', c' ∈ had past cb (t1 ++ Asked f :: t2 ++ e :: t3) -> c' `prefix_of` c).
        { rewrite Ech. intros c' [Hc'|Hc']%elem_of_app; [by apply Hpre|]. by apply elem_of_list_singleton in Hc' as ->. }
        assert (Fne : f <> []) by (eapply (asked_some cb l t1 f (t2 ++ e :: t3)); rewrite Hl; exact Es).
        destruct f as [|q f]; [done|]. destruct (si_asked _ _ _ _ _ _ _ _ _ _ _ _ I t1 (q :: f) (t2 ++ e :: t3) eq_refl) as (W1 & _).
        destruct (W1 q ltac:(left)) as (p & -> & [-> |(y & Hy & Hp)]).
        * exists b0. split; [|left]. assert (c ∈ had past cb (t1 ++ Asked (to_point (start_of b0) :: f) :: t2 ++ e :: t3)) as Hc by (rewrite Ech; apply elem_of_app; right; left).
          destruct (n_prefix _ _ _ _ _ _ _ _ _ _ E0 L _ Ok c Hc) as [z ->]. apply elem_of_app. left. apply elem_of_app. right. left.
        * pose proof (si_prov _ _ _ _ _ _ _ _ _ _ _ _ I t1 _ eq_refl _ Hy) as Py. destruct (prov_block _ _ _ _ _ _ _ Py) as (c' & y' & Hc' & Hy' & ->).
          destruct (blk_node read_id decode_block cfg chk c' y' (n_good _ _ _ _ _ _ _ Ok c' Hc') Hy') as (Ey & _). rewrite Ey in Hp. injection Hp as <-.
          exists y'. split; [|left]. destruct (All c' Hc') as [z ->]. apply elem_of_app. by left.
    - rewrite Hl. exact Es.
    - exact Nt.
    - exact He.
    - exact Gd.
    - exact Cl.
    - exact Ok.
    - exact I.
    - rewrite C2 in E. destruct u as [|u0 u]; [|destruct u; discriminate]. injection E as <- <-. apply elem_of_list_singleton in Hc2 as ->. by destruct Np.
    - rewrite C2 in Hc1. apply elem_of_list_singleton in Hc1 as ->. rewrite Ec, Hx in Hl'. by injection Hl' as <-.
  Qed.

  (** in a process that follows others *)
  Lemma fork_delivers d c0 pre b0 b1 post past Rp k al cs c b : c0 = pre ++ b0 :: b1 :: post -> (d <= length post)%nat ->
    kfinvp read_id decode_block cfg chk d pre b0 b1 false past Rp k -> kfok read_id decode_block cfg chk k -> node_ok read_id decode_block cfg chk d c0 (rchains past k) ->
    s_open (f_in k) = true -> rchains past k = cs ++ [c] -> last c = Some b -> (forall c', c' ∈ cs -> b ∉ c') -> at_tip decode_block cfg chk b k ->
    (exists x, settled d (f_received (f_world k)) x) \/ (forall c', c' ∈ cs -> c' `prefix_of` c) -> flively al ->
    exists n, forall m, (n <= m)%nat -> let k' := kf_run b0 k (map al (seq 0 m)) in
      exists pre del, c = pre ++ b0 :: del /\ Forall2 is_block del (f_chain (f_world k')).
  Proof.
    intros E0 L K Kok Ok O Ech Hx Hnew Htip Hor Lv.
    assert (La : forall i j, Forall live_fact (map al (seq i j))).
    { intros i j. apply Forall_forall. intros a Ha. apply elem_of_list_fmap in Ha as (x & -> & _). apply Lv. }
    assert (R : freaches read_id decode_block cfg chk b0 (fanswered (f_seen k)) k).
    { eapply (flive_reaches _ _ _ _ _ _ _ _ _ _ E0 L past Rp (rchains past k) (f_seen k) Ok false). split; [exact K|]. split; [exact Kok|]. split; [reflexivity|]. split; [exact O|]. exists []. by rewrite app_nil_r. }
    assert (An : exists n, fanswered (f_seen k) (kf_run b0 k (map al (seq 0 n)))) by (eapply freaches_fair; eassumption). destruct An as [n An]. exists n.
    set (kn := kf_run b0 k (map al (seq 0 n))) in *.
    (* the invariant at every moment of the schedule *)
    assert (Inv : forall m, let k' := kf_run b0 k (map al (seq 0 m)) in kfinvp read_id decode_block cfg chk d pre b0 b1 false past Rp k' /\ kfok read_id decode_block cfg chk k' /\ rchains past k' = rchains past k /\
      at_tip decode_block cfg chk b k').
    { intros m k'. assert (Ec : rchains past k' = rchains past k) by (apply flive_chains, La). destruct (live_fair _ (La 0%nat m)) as [Fa Fo].
      split; [eapply (kfinvp_run _ _ _ _ _ _ _ _ _ _ _ E0 L); [done|exact Fa|exact K|fold k'; rewrite Ec; exact Ok]|]. split; [by apply kfok_run|]. split; [exact Ec|].
      eapply (kf_fresh_run _ _ _ _ _ _ _ _ _ _ E0 L past Rp cs c b); [exact Hx|exact Hnew|exact Fa|exact K|exact Htip|fold k'; rewrite Ec; exact Ok|fold k'; rewrite Ec; exact Ech]. }
    (* at n the last block was received *)
    destruct An as (t1 & f & t2 & e & t3 & Es & Nt & He & [z ->] & Hq).
    assert (Rn : blk b ∈ f_received (f_world kn)).
    { destruct (Inv n) as (Kn & Kokn & Ecn & _). fold kn in Kn, Kokn, Ecn.
      destruct (flive_run_seen b0 _ (La 0%nat n) k) as (_ & o & So & Co). fold kn in So.
      assert (o = z ++ Asked f :: t2 ++ e :: t3) as ->. { rewrite Es, <- app_assoc in So. by apply app_inv_head in So. }
      rewrite chains_app in Co. apply app_eq_nil in Co as [Cz Co]. change (chains (t2 ++ e :: t3) = []) in Co. rewrite chains_app in Co. apply app_eq_nil in Co as [C2 C3].
      eapply (fork_tip d c0 pre b0 b1 post past Rp kn (f_seen k ++ z) f t2 e t3 cs c b); eauto; [rewrite Ecn; exact Ok|rewrite Ecn; exact Ech|].
      destruct Hor as [[x Hset]|Hp]; [left|by right].
      pose proof K as (_ & _ & _ & _ & (HsR & _) & _). pose proof Kn as (_ & _ & _ & I & _). rewrite R_of_app.
      eapply settled_more; [|eapply settled_ext; [intro y; symmetry; apply HsR|exact Hset]].
      rewrite <- R_of_app. pose proof (si_grows _ _ _ _ _ _ _ _ _ _ _ _ I) as Gr. rewrite Es, R_of_app in Gr. by apply grows_prefix in Gr. }
    (* and then nothing changes *)
    assert (Stay : forall j, let k' := kf_run b0 k (map al (seq 0 (n + j))) in blk b ∈ f_received (f_world k') /\ fh_events (f_source (f_world k')) = []).
    { induction j as [|j IH]; [rewrite Nat.add_0_r; auto|]. cbv zeta in *. destruct (Inv (n + S j)%nat) as (K' & _ & _ & T').
      destruct (Inv (n + j)%nat) as (Kj & _ & _ & Tj). rewrite Nat.add_succ_r in *. rewrite seq_S, List.map_app, kf_run_app in *. cbn [map StackModel.kf_run] in *. rewrite Nat.add_0_l in *.
      set (kj := kf_run b0 k (map al (seq 0 (n + j)))) in *. destruct (kf_step b0 kj (al (n + j)%nat)) as [k'|] eqn:E; [|exact IH]. destruct IH as [Rj Qj].
      assert (Er : f_received (f_world k') = f_received (f_world kj)).
      { destruct (kf_step_received _ _ _ _ _ _ _ _ _ _ _ _ _ Kj E) as [?|(e' & _ & Hr)]; [done|]. exfalso.
        unfold at_tip in T'. rewrite Hr in T'. rewrite last_snoc in T'. assert (X : blk b ∈ f_received (f_world kj) ++ [of_event e']) by (apply elem_of_app; by left). specialize (T' X). injection T' as T'.
        destruct K' as (_ & _ & _ & _ & (_ & _ & ND & _) & _). rewrite Hr, T' in ND. apply NoDup_app in ND as (_ & ND & _). apply (ND _ Rj). left. }
      rewrite Er. split; [exact Rj|]. eapply kf_step_queue; eauto. }
    intros m Hm k'. destruct (Inv m) as (K' & _ & Ec' & T'). fold k' in K', Ec', T'. destruct (Stay (m - n)%nat) as [Rm Qm]. replace (n + (m - n))%nat with m in * by lia. fold k' in Rm, Qm.
    destruct (rchain_at _ _ _ _ _ _ _ _ _ _ _ E0 L past Rp k' c b K') as (del & Edel & Econ); [by rewrite Ec'|rewrite Ec', Ech; apply elem_of_app; right; left|exact Hx|by apply T'|].
    exists pre, del. split; [exact Edel|]. unfold consumed in Econ. rewrite Qm in Econ. cbn [foldl] in Econ. rewrite Econ.
    apply Forall2_fmap_r. apply Forall_Forall2_diag. apply Forall_forall. intros y Hy. destruct Ok as [G _]. eapply blk_is; [exact G|rewrite Ech; apply elem_of_app; right; left|].
    rewrite Edel. apply elem_of_app. right. by right.
  Qed.

  (** After any moves, dropped pulls included, let c be the chain that the node has and let its last block be new: no chain that the node
      had before has it.  Let there be a received block that is below d others, or let the node never have gone back.  Then let the
      consumer call pull again and again and let each of the two tasks run again and again, in any order, and let the node keep c.
      There is a moment from which on the consumer's chain is c, from the block after the start to the last. *)
  Theorem C49_fork_delivers d c0 b0 l al cs c b : start_deep d c0 b0 -> Forall fact_fair l -> (forall ok late, KFHandler ok late ∈ l -> ok = true) ->
    let k := kf_run b0 (kf_start d c0) l in good_node d (kf_chains k) ->
    kf_chains k = cs ++ [c] -> last c = Some b -> (forall c', c' ∈ cs -> b ∉ c') ->
    (exists x, settled d (f_received (f_world k)) x) \/ (forall c', c' ∈ cs -> c' `prefix_of` c) -> flively al ->
    exists n, forall m, (n <= m)%nat -> let k' := kf_run b0 k (map al (seq 0 m)) in
      exists pre del, c = pre ++ b0 :: del /\ Forall2 is_block del (f_chain (f_world k')).
  Proof.
    intros Sd Hf Hok k G Ech Hx Hnew Hor Lv. pose proof (deep_split _ _ _ Sd) as (pre & b1 & post & E0 & L).
    pose proof (kf_run_node_ok read_id decode_block cfg chk d c0 b0 l G) as Ok. fold k in Ok.
    apply (fork_delivers d c0 pre b0 b1 post [] [] k al cs c b); try done.
    - eapply (kfinv_run _ _ _ _ _ _ _ _ _ _ _ E0 L); [done|done|apply kfinv_start|exact Ok].
    - apply kfok_run; [|by exists []]. apply Forall_forall. intros [| |ok late| |] Hin; try exact Logic.I. by apply (Hok ok late).
    - apply kf_run_open. reflexivity.
    - eapply (kf_fresh_run _ _ _ _ _ _ _ _ _ _ E0 L [] [] cs c b); [exact Hx|exact Hnew|done|apply kfinv_start|intro X; inversion X|exact Ok|exact Ech].
  Qed.
End C49.

(** ** concrete cases *)
Definition ex_fturn (n : nat) : fact := match (n mod 3)%nat with O => KFPull elements id | 1%nat => KFCaller | _ => KFHandler true false end.
Lemma ex_flively : flively ex_fturn.
Proof.
  split; [|split; [|split]].
  - intro n. unfold ex_fturn. destruct (n mod 3)%nat as [|[|]]; split; cbn; try done. split; [apply elements_fair|done].
  - intro n. exists (n * 3)%nat, elements, id. split; [lia|]. unfold ex_fturn. by rewrite Nat.mod_mul.
  - intro n. exists (1 + n * 3)%nat. split; [lia|]. unfold ex_fturn. by rewrite Nat.mod_add.
  - intro n. exists (2 + n * 3)%nat, false. split; [lia|]. unfold ex_fturn. by rewrite Nat.mod_add.
Qed.
(** The node has B, C, D, all of them are received, and then it takes c, d, e for C, D. *)
Definition ex_fgo : list fact := mjoin (replicate 4 ex_fpull) ++ [KFNode ex_two].
Example C49_fork_delivers_case :
  let run := kf_run hex_decode ex_dec ex_conf true (Some (start_of xA)) (kf_start 2 ex_one) in let k := run ex_fgo in
  start_deep 2 ex_one xA /\ Forall fact_fair ex_fgo /\ (forall ok late, KFHandler ok late ∈ ex_fgo -> ok = true) /\
  good_node hex_decode ex_dec ex_conf true 2 (kf_chains k) /\ kf_chains k = [ex_one] ++ [ex_two] /\ last ex_two = Some yE /\ (forall c', c' ∈ [ex_one] -> yE ∉ c') /\
  (exists x, settled 2 (f_received (f_world k)) x) /\ flively ex_fturn /\
  ids (f_chain (f_world k)) = ["42"; "43"; "44"]%string /\
  ids (f_chain (f_world (run (ex_fgo ++ map ex_fturn (seq 0 90))))) = ["42"; "63"; "64"; "65"]%string.
Proof.
  cbv zeta. split; [exists [], [xB; xC; xD]; split; [reflexivity|cbn; lia]|]. split; [|split; [|split; [|split; [|split; [|split; [|split; [|split; [|split]]]]]]]].
  - unfold ex_fgo, ex_fpull. cbn -[elements]. all_fair.
  - intros ok late H. unfold ex_fgo, ex_fpull in H. cbn in H. repeat (apply elem_of_cons in H as [H|H]; [try discriminate H; by injection H|]). inversion H.
  - replace (kf_chains _) with [ex_one; ex_two] by (vm_compute; reflexivity). apply ex_two_chains.
  - vm_compute. reflexivity.
  - reflexivity.
  - intros c' Hc'. apply elem_of_list_singleton in Hc' as ->. intro H. unfold ex_one in H. repeat (apply elem_of_cons in H as [H|H]; [discriminate H|]). inversion H.
  - assert (E : exists x y z, f_received (f_world (kf_run hex_decode ex_dec ex_conf true (Some (start_of xA)) (kf_start 2 ex_one) ex_fgo)) = [x; y; z] /\
      b_num x <= b_num z /\ b_num y <= b_num z /\ b_parent z = b_id y /\ b_parent y = b_id x).
    { do 3 eexists. split; [vm_compute; reflexivity|]. vm_compute. repeat split; congruence. }
    destruct E as (x & y & z & -> & H1 & H2 & H3 & H4). exists x, z. split.
    + split; [right; right; left|]. intros w Hw. repeat (apply elem_of_cons in Hw as [-> |Hw]; [done|]). inversion Hw.
    + apply back_link with (p := y); [right; right; left|done|]. apply back_link with (p := x); [right; left|done|]. constructor. left.
  - apply ex_flively.
  - vm_compute. reflexivity.
  - vm_compute. reflexivity.
Qed.

(** ** what does not hold *)
(** If the node goes back to a chain that it had, so that its last block is not new, the node finds that the consumer is up to date, as
    the source still asks with that block.  The consumer stays on the chain that the node has left, although a received block is below
    d others and each request is answered to its end. *)
Definition ex_three : list nblock := [xA; xB; yC; yD].
Definition ex_fback : list fact := mjoin (replicate 5 ex_fpull) ++ [KFNode ex_three] ++ mjoin (replicate 5 ex_fpull) ++ [KFNode ex_one] ++ mjoin (replicate 6 ex_fpull).
Lemma ex_back_chains : good_node hex_decode ex_dec ex_conf true 2 [ex_one; ex_three; ex_one].
Proof.
  assert (H1 : forall c, c ∈ [ex_one; ex_three; ex_one] -> c = ex_one \/ c = ex_three) by (intros c Hc; repeat (apply elem_of_cons in Hc as [-> |Hc]; [auto|]); inversion Hc).
  pose proof (ex_chain ex_two (or_intror eq_refl)) as [T1 T2].
  split.
  - intros c Hc. destruct (H1 c Hc) as [-> | ->]; [apply ex_chain; by left|]. split.
    + intros b Hb. apply T1. unfold ex_two. change [xA; xB; yC; yD; yE] with (ex_three ++ [yE]). apply elem_of_app. by left.
    + intros i a b Ha Hb. apply (T2 i a b); change ex_two with (ex_three ++ [yE]); by apply lookup_app_l_Some.
  - intros c c' b b' Hc Hc' Hb Hb' E.
    assert (X : b ∈ ex_one ++ ex_three) by (destruct (H1 c Hc) as [-> | ->]; apply elem_of_app; auto).
    assert (X' : b' ∈ ex_one ++ ex_three) by (destruct (H1 c' Hc') as [-> | ->]; apply elem_of_app; auto). clear Hb Hb' Hc Hc'.
    cbn in X, X'. repeat (apply elem_of_cons in X as [-> |X]; [repeat (apply elem_of_cons in X' as [-> |X']; [first [reflexivity|discriminate E]|]); inversion X'|]). inversion X.
  - intros i j c c' Hi Hj _. destruct (H1 c ltac:(by eapply elem_of_list_lookup_2)) as [-> | ->], (H1 c' ltac:(by eapply elem_of_list_lookup_2)) as [-> | ->].
    + exists [xC; xD]. reflexivity.
    + exists [yC; yD]. reflexivity.
    + exists [xC; xD]. reflexivity.
    + exists [yC; yD]. reflexivity.
Qed.
Theorem C49_fork_back_refuted : exists d c0 b0 l t f, let k := kf_run hex_decode ex_dec ex_conf true (Some (start_of b0)) (kf_start d c0) l in
  start_deep d c0 b0 /\ Forall fact_fair l /\ (forall ok late, KFHandler ok late ∈ l -> ok = true) /\ good_node hex_decode ex_dec ex_conf true d (kf_chains k) /\
  (exists x, settled d (f_received (f_world k)) x) /\ f_seen k = t ++ [Asked f; GotNone] /\ s_node (f_in k) = [xA; xB; xC; xD] /\
  ids (f_chain (f_world k)) = ["42"; "63"; "64"]%string /\ fh_events (f_source (f_world k)) = [].
Proof.
  exists 2%nat, ex_one, xA, ex_fback. do 2 eexists. cbv zeta. split; [exists [], [xB; xC; xD]; split; [reflexivity|cbn; lia]|]. split; [|split; [|split; [|split; [|split; [|split; [|split]]]]]].
  - unfold ex_fback, ex_fpull. cbn -[elements]. all_fair.
  - intros ok late H. unfold ex_fback, ex_fpull in H. cbn in H. repeat (apply elem_of_cons in H as [H|H]; [try discriminate H; by injection H|]). inversion H.
  - replace (kf_chains _) with [ex_one; ex_three; ex_one] by (vm_compute; reflexivity). apply ex_back_chains.
  - assert (E : exists x y z u v, f_received (f_world (kf_run hex_decode ex_dec ex_conf true (Some (start_of xA)) (kf_start 2 ex_one) ex_fback)) = [x; y; z; u; v] /\
      b_num x <= b_num z /\ b_num y <= b_num z /\ b_num u <= b_num z /\ b_num v <= b_num z /\ b_parent z = b_id y /\ b_parent y = b_id x).
    { do 5 eexists. split; [vm_compute; reflexivity|]. vm_compute. repeat split; congruence. }
    destruct E as (x & y & z & u & v & -> & H1 & H2 & H2' & H2'' & H3 & H4). exists x, z. split.
    + split; [right; right; left|]. intros w Hw. repeat (apply elem_of_cons in Hw as [-> |Hw]; [done|]). inversion Hw.
    + apply back_link with (p := y); [right; right; left|done|]. apply back_link with (p := x); [right; left|done|]. constructor. left.
  - match goal with |- ?a = ?t ++ _ => let a' := eval vm_compute in a in transitivity a'; [vm_compute; reflexivity|];
      let b := eval vm_compute in (take (length a' - 2) a') in unify t b end. reflexivity.
  - vm_compute. reflexivity.
  - vm_compute. reflexivity.
  - vm_compute. reflexivity.
Qed.

Definition C49_fork_all := (C49_fork_delivers, C49_fork_back_refuted).
Print Assumptions C49_fork_all.
