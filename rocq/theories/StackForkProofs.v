(** The fork-handling source over the Cardano source: why the consumer comes to the node's chain. *)
From Coq Require Import NArith Lia.
From stdpp Require Import prelude numbers gmap strings list.
From Verif Require Import MultiverseModel MultiverseSpec MultiverseProofs MultiverseProps SourceModel SourceSpec SourceProofs SourceRunProofs SourceForkProofs SourceForkGrowProofs
  TimeModel UtilModel CardanoModel CardanoSpec CardanoProofs CardanoProps.
From Verif Require CardanoLiveProps.
From Verif Require Import StackModel StackSpec StackProofs StackRunProofs StackLiveProofs.
Local Open Scope N_scope.

(** once there is a settled block there always is *)
Lemma settled_more d R Q x : grows d (R ++ Q) -> settled d R x -> exists y, settled d (R ++ Q) y.
Proof.
  intros G Hx. induction Q as [|b Q IH] using rev_ind; [rewrite app_nil_r; eauto|].
  rewrite app_assoc in *. pose proof (grows_tree _ _ G) as T. apply grows_snoc_inv in G as [G Hb]. destruct (IH G) as [y (t & [Ht Hm] & Hy)]. clear IH Hx.
  set (S := R ++ Q) in *. assert (Sub : forall z, z ∈ S -> z ∈ S ++ [b]) by (intros; apply elem_of_app; by left).
  assert (Low : b_num b <= b_num t -> exists y, settled d (S ++ [b]) y).
  { intro L. exists y, t. split; [split; [by apply Sub|]|by eapply back_mono]. intros z Hz. apply elem_of_app in Hz as [Hz|Hz]; [by apply Hm|]. by apply elem_of_list_singleton in Hz as ->. }
  destruct Hb as [(E & _)|[Hb|(p & Hp & Hpar & Hnum & _ & _ & Hset)]].
  - rewrite E in Ht. inversion Ht.
  - apply Low. by apply Hm.
  - destruct (decide (b_num b <= b_num t)) as [?|Hgt]; [by apply Low|].
    pose proof (Hm p Hp) as Lp. destruct (Hset y) as [n Hn]; [exists t; split; [split; done|done]|].
    pose proof (grows_tree _ _ G) as T0. pose proof (back_num _ _ _ _ T0 Hn) as N1. pose proof (back_num _ _ _ _ T0 Hy) as N2. assert (n = d) as -> by lia.
    assert (B : back (S ++ [b]) (Datatypes.S d) b y). { econstructor; [apply elem_of_app; right; left|exact Hpar|]. by eapply back_mono. }
    apply back_split in B as (z & Bz & _). exists z, b. split; [|exact Bz]. split; [apply elem_of_app; right; left|].
    intros w Hw. apply elem_of_app in Hw as [Hw|Hw]; [specialize (Hm w Hw); lia|]. by apply elem_of_list_singleton in Hw as ->.
Qed.

Section Fork.
  Context (read_id : string -> option string) (decode_block : string -> option mblock) (cfg : config) (chk : bool).
  Context (d : nat) (c0 pre : list nblock) (b0 b1 : nblock) (post : list nblock).
  Context (E0 : c0 = pre ++ b0 :: b1 :: post) (L0 : (d <= length post)%nat).
  Context (past : list (list nblock)) (Rp : list block).
  Notation node_ok := (node_ok read_id decode_block cfg chk d c0).
  Notation kf_step := (kf_step read_id decode_block cfg chk (Some (start_of b0))).
  Notation kf_run := (kf_run read_id decode_block cfg chk (Some (start_of b0))).
  Notation kf_inner := (kf_inner read_id decode_block cfg chk).
  Notation step := (CardanoModel.step read_id decode_block cfg chk).
  Notation run := (CardanoModel.run read_id decode_block cfg chk).
  Notation kfinv := (kfinvp read_id decode_block cfg chk d pre b0 b1 false past Rp).
  Notation rchains := (rchains past).
  Notation inv := (CardanoProofs.inv read_id decode_block cfg chk).
  Notation blk := (blk decode_block cfg chk).
  Notation H_of cs := (map blk <$> cs).

  (** ** the moves of the Cardano source, when the node's answers are no errors *)
  Definition ok_fact (a : fact) : Prop := match a with KFHandler ok _ => ok = true | _ => True end.
  Definition kfok (k : fstack) : Prop := exists l, run (initial (f_base k)) l = (f_in k, f_seen k) /\ Forall ok_action l.
  Lemma kfok_step k a k' : ok_fact a -> kf_step k a = Some k' -> kfok k -> kfok k'.
  Proof.
    intros Ha E (l & Hl & Hok).
    assert (K : forall act s o w wt, ok_action act -> step (f_in k) act = Some (s, o) -> kfok (FStack w wt s (f_seen k ++ o) (f_base k))).
    { intros act s o w wt Hact Es. exists (l ++ [act]). split; [eapply run_snoc; [exact Hl|exact Es]|]. apply Forall_app. split; [done|]. by constructor. }
    assert (Ki : forall act, ok_action act -> kf_inner k act = Some k' -> kfok k').
    { intros act Hact E'. unfold StackModel.kf_inner in E'. destruct (step (f_in k) act) as [[s o]|] eqn:Es; [|discriminate].
      destruct (f_wait k) as [[enum from]|], (answer_of o) as [ans|]; injection E' as <-; by eapply K. }
    destruct a as [enum order| |ok late|c|]; cbn [StackModel.kf_step] in E; [|by eapply Ki; [|exact E]..|].
    - destruct (f_wait k); [discriminate|]. destruct (kf_asks _ _ _) as [cps|].
      + destruct (step (f_in k) _) as [[s o]|] eqn:Es; [|discriminate]. injection E as <-. by eapply K; [|exact Es].
      + injection E as <-. by exists l.
    - destruct (f_wait k); [|discriminate]. destruct (step (f_in k) Cancel) as [[s o]|] eqn:Es; [|discriminate]. injection E as <-. by eapply K; [|exact Es].
  Qed.
  Lemma kfok_run l : Forall ok_fact l -> forall k, kfok k -> kfok (kf_run k l).
  Proof.
    induction 1 as [|a l Ha _ IH]; intros k K; [exact K|]. cbn [StackModel.kf_run]. destruct (kf_step k a) as [k'|] eqn:E; [|by apply IH]. apply IH. by eapply kfok_step.
  Qed.
  Lemma kfok_clean k : kfok k -> node_ok (rchains k) -> Forall (good decode_block cfg chk) (f_base k) /\ exists l, run (initial (f_base k)) l = (f_in k, f_seen k) /\ Forall (clean decode_block cfg chk) l.
  Proof.
    intros (l & Hl & Hok) Ok.
    assert (Gd : forall c, c ∈ rchains k -> Forall (good decode_block cfg chk) c).
    { intros c Hc. apply Forall_forall. intros b Hb. destruct (gc_block _ _ _ _ _ (n_good read_id decode_block cfg chk d c0 _ Ok c Hc) b Hb) as (_ & _ & m & e' & _ & _ & _ & _ & Hev). exists (MBlock e'). exact Hev. }
    split; [apply Gd; apply elem_of_app; right; left|]. exists l. split; [done|].
    apply Forall_forall. intros a Hin. pose proof (proj1 (Forall_forall _ _) Hok a Hin) as Hoa. destruct a as [f'| | | | |ok late|c]; try exact Logic.I; [exact Hoa|].
    apply Gd. rewrite rchains_had. unfold had. apply elem_of_app. right. right. pose proof (run_nodes read_id decode_block cfg chk l c (initial (f_base k)) Hin) as X. by rewrite Hl in X.
  Qed.
  Lemma kfok_in k : kfok k -> node_ok (rchains k) -> exists v, inv true (f_in k) v.
  Proof.
    intros K Ok. destruct (kfok_clean k K Ok) as (Gd & l & Hl & Cl). pose proof (reach read_id decode_block cfg chk true (f_base k) l) as X. rewrite Hl in X. eexists. by apply X.
  Qed.

  (** ** the last block of the node's chain *)
  Lemma kf_step_received k a k' : kfinv k -> kf_step k a = Some k' -> f_received (f_world k') = f_received (f_world k) \/
    exists e, f_seen k' = f_seen k ++ [Got (MBlock e)] /\ f_received (f_world k') = f_received (f_world k) ++ [of_event e].
  Proof.
    intros (_ & _ & _ & _ & _ & Hw) E.
    assert (Ki : forall act, kf_inner k act = Some k' -> f_received (f_world k') = f_received (f_world k) \/
      exists e, f_seen k' = f_seen k ++ [Got (MBlock e)] /\ f_received (f_world k') = f_received (f_world k) ++ [of_event e]).
    { intros act E'. unfold StackModel.kf_inner in E'. destruct (step (f_in k) act) as [[s o]|] eqn:Es; [|discriminate].
      destruct (f_wait k) as [[enum from]|] eqn:Ew, (answer_of o) as [ans|] eqn:Ea; apply (inj Some) in E' as <-; [|by left..].
      destruct Hw as (_ & _ & cps & Hcp & _). unfold kf_asks in Hcp. destruct (fh_events (f_source (f_world k))) eqn:Eq; [|discriminate].
      destruct (fh_checkpoints point_of enum (f_source (f_world k)) from) as [|cps0] eqn:Ecp; [discriminate|].
      cbn [f_world f_seen]. rewrite (fh_received (f_world k) enum from ans cps0 Eq Ecp).
      destruct ans as [| |[t|b]]; try (left; apply app_nil_r). destruct (mv_get _ _); [left; apply app_nil_r|]. right.
      destruct o as [|[| |[p|e|]| | | |] [|]]; try discriminate Ea; cbn in Ea; try (destruct p; discriminate Ea). injection Ea as <-. eauto. }
    destruct a as [enum order| |ok late|c|]; cbn [StackModel.kf_step] in E; [|by apply Ki in E..|].
    - destruct (f_wait k); [discriminate|]. destruct (kf_asks enum (kf_from (Some (start_of b0)) k) k) as [cps|] eqn:Ecp.
      + destruct (step (f_in k) _) as [[s o]|]; [|discriminate]. injection E as <-. by left.
      + left. apply (inj Some) in E as <-. cbn [f_world]. by apply fh_quiet.
    - destruct (f_wait k); [|discriminate]. destruct (step (f_in k) _) as [[s o]|]; [|discriminate]. injection E as <-. by left.
  Qed.

  Lemma kf_step_queue k a k' : kfinv k -> kf_step k a = Some k' -> f_received (f_world k') = f_received (f_world k) -> fh_events (f_source (f_world k)) = [] ->
    fh_events (f_source (f_world k')) = [].
  Proof.
    intros (_ & _ & _ & _ & _ & Hw) E Hr Hq.
    assert (Ki : forall act, kf_inner k act = Some k' -> fh_events (f_source (f_world k')) = []).
    { intros act E'. unfold StackModel.kf_inner in E'. destruct (step (f_in k) act) as [[s o]|] eqn:Es; [|discriminate].
      destruct (f_wait k) as [[enum from]|] eqn:Ew, (answer_of o) as [ans|] eqn:Ea; apply (inj Some) in E' as <-; [|exact Hq..].
      cbn [f_world] in *. revert Hr. unfold f_step, fh_pull. rewrite Hq. destruct (fh_checkpoints _ _ _ _); [intros _; exact Hq|].
      destruct ans as [| |[t|b]]; try (intros _; exact Hq). destruct (mv_get _ _); [intros _; exact Hq|]. destruct (insert_and_gc _ _ _ _) as [[m' sel]| |]; [|intros _; exact Hq..].
      destruct (fh_switch point_of m' [] (fh_last (f_source (f_world k))) b from) as [q' r'] eqn:Esw.
      pose proof (fh_switch_not_none point_of m' [] (fh_last (f_source (f_world k))) b from) as Hn. rewrite Esw in Hn. cbn in Hn |- *. intro X.
      exfalso. apply (f_equal length) in X. rewrite app_length in X. destruct r'; cbn in X; try lia. by destruct Hn. }
    destruct a as [enum order| |ok late|c|]; cbn [StackModel.kf_step] in E; [|by apply Ki in E..|].
    - destruct (f_wait k); [discriminate|]. destruct (kf_asks enum (kf_from (Some (start_of b0)) k) k) as [cps|] eqn:Ecp.
      + destruct (step (f_in k) _) as [[s o]|]; [|discriminate]. injection E as <-. exact Hq.
      + apply (inj Some) in E as <-. cbn [f_world]. unfold kf_asks in Ecp. rewrite Hq in Ecp. unfold f_step, fh_pull. rewrite Hq. destruct (fh_checkpoints _ _ _ _); [exact Hq|discriminate].
    - destruct (f_wait k); [|discriminate]. destruct (step (f_in k) _) as [[s o]|]; [|discriminate]. injection E as <-. exact Hq.
  Qed.

  Definition at_tip (x : nblock) (k : fstack) : Prop := blk x ∈ f_received (f_world k) -> last (f_received (f_world k)) = Some (blk x).

  Lemma kf_fresh cs1 c x k a k' : last c = Some x -> (forall c', c' ∈ cs1 -> x ∉ c') -> kfinv k -> kfinv k' -> kf_step k a = Some k' ->
    node_ok (rchains k') -> rchains k' = cs1 ++ [c] -> at_tip x k -> at_tip x k'.
  Proof.
    intros Hl Hno K K' E Ok Ech J. unfold at_tip in *. destruct (kf_step_received k a k' K E) as [-> |(e & Hs & Hr)]; [exact J|].
    rewrite Hr. rewrite last_snoc. intros [Hin|Hin]%elem_of_app; [|apply elem_of_list_singleton in Hin as <-; reflexivity]. exfalso. specialize (J Hin).
    assert (Ec : rchains k = rchains k').
    { destruct (rstep_chains _ _ _ _ _ past _ _ _ E) as [more M]. rewrite !rchains_had in *. unfold had in *. rewrite Hs in *. rewrite chains_app in *.
      change (chains [Got (MBlock e)]) with (@nil (list nblock)) in *. rewrite app_nil_r, <- app_assoc in *. apply app_inv_head in M. assert (f_base k' = f_base k) as -> by (by injection M as -> _). reflexivity. }
    assert (Hxc : x ∈ c) by (apply last_Some in Hl as [q ->]; apply elem_of_app; right; left).
    assert (Hc : c ∈ rchains k') by (rewrite Ech; apply elem_of_app; right; left).
    destruct (rchain_at _ _ _ _ _ _ _ _ _ _ _ E0 L0 past Rp k c x K) as (del & Edel & Econ); [by rewrite Ec|by rewrite Ec|done|done|].
    pose proof K as (_ & Ac & _ & I & (HsR & G & ND & _) & _). pose proof K' as ((l & Hrun) & _ & _ & I' & (HsR' & G' & ND' & _) & _).
    assert (Eb : f_base k' = f_base k). { rewrite !rchains_had in Ec. unfold had in Ec. apply app_inv_head in Ec. by injection Ec as -> _. }
    destruct (got_on read_id decode_block cfg chk d c0 pre b0 b1 post false L0 past (f_base k) Rp l (f_seen k) e cs1 c x) as (b' & Hb' & Eb'); try done.
    { rewrite <- Eb, Hrun. exact Hs. }
    { rewrite <- rchains_had, Ec. exact Ok. }
    { rewrite <- rchains_had, Ec. exact Ech. }
    { by apply HsR. }
    assert (In' : of_event e ∈ R_of Rp (f_seen k')) by (apply HsR'; rewrite Hr; apply elem_of_app; right; left).
    pose proof (si_prov _ _ _ _ _ _ _ _ _ _ _ _ I' (f_seen k') [] ltac:(by rewrite app_nil_r) _ In') as Pb. rewrite <- rchains_had in Pb.
    apply elem_of_list_lookup in Hb' as [i Hi].
    assert (HC : map blk c ∈ H_of (rchains k')) by (apply n_elem; eauto).
    pose proof (prov_idx (H_of (rchains k')) (map blk pre) (blk b0) (blk b1) (n_start _ _ _ _ _ _ _ _ _ _ E0 L0 _ Ok) (n_linked _ _ _ _ _ _ _ Ok) _ _ (map blk c) i Pb HC) as Hidx.
    rewrite list_lookup_fmap, Hi in Hidx. cbn in Hidx. rewrite Eb', List.map_length in Hidx. specialize (Hidx eq_refl).
    assert (b' ∈ del). { rewrite Edel in Hi. rewrite lookup_app_r in Hi by lia. destruct (i - length pre)%nat as [|j] eqn:Ej; [lia|]. cbn in Hi. by eapply elem_of_list_lookup_2. }
    destruct (fork_consumed d _ Ac G ND) as (_ & Hcon & _).
    assert (of_event e ∈ f_received (f_world k)) as Dup. { apply Hcon. rewrite Econ, <- Eb'. by apply elem_of_list_fmap_1. }
    rewrite Hr in ND'. apply NoDup_app in ND' as (_ & X & _). apply (X _ Dup). left.
  Qed.

  Lemma kf_had x k : kfinv k -> x ∈ f_received (f_world k) -> exists c b, c ∈ rchains k /\ b ∈ c /\ x = blk b.
  Proof.
    intros (_ & _ & _ & I & (HsR & _) & _) Hin. apply HsR in Hin. pose proof (si_prov _ _ _ _ _ _ _ _ _ _ _ _ I (f_seen k) [] ltac:(by rewrite app_nil_r) _ Hin) as Pb.
    rewrite <- rchains_had in Pb. exact (prov_block _ _ _ _ _ _ _ Pb).
  Qed.

  Lemma kf_fresh_run cs1 c x l : last c = Some x -> (forall c', c' ∈ cs1 -> x ∉ c') -> Forall fact_fair l -> forall k, kfinv k -> at_tip x k ->
    node_ok (rchains (kf_run k l)) -> rchains (kf_run k l) = cs1 ++ [c] -> at_tip x (kf_run k l).
  Proof.
    intros Hl Hno. induction 1 as [|a l Ha _ IH]; intros k K J Ok Ech; cbn [StackModel.kf_run] in *; [exact J|].
    destruct (kf_step k a) as [k'|] eqn:E; [|by apply IH].
    destruct (rrun_chains read_id decode_block cfg chk b0 past l k') as [more M].
    assert (Ok' : node_ok (rchains k')) by (rewrite M in Ok; apply node_ok_prefix in Ok; [exact Ok|unfold StackRunProofs.rchains; intro Y; apply app_eq_nil in Y as [_ Y]; discriminate Y]).
    assert (K' : kfinv k') by (eapply (kfinvp_step _ _ _ _ _ _ _ _ _ _ _ E0 L0 past Rp); eauto).
    apply IH; try done. destruct more as [|m more _] using rev_ind.
    - rewrite app_nil_r in M. rewrite M in Ech. eapply kf_fresh; [exact Hl|exact Hno|exact K|exact K'|exact E|exact Ok'|exact Ech|exact J].
    - assert (rchains k' ++ more = cs1) as Em. { rewrite M, app_assoc in Ech. by apply app_inj_tail in Ech as [? _]. }
      assert (Hxc : x ∈ c) by (apply last_Some in Hl as [q ->]; apply elem_of_app; right; left).
      intro Hin. exfalso. destruct (kf_had _ _ K' Hin) as (c' & b & Hc' & Hb & Exb).
      assert (x = b) as <-.
      { apply (n_hash read_id decode_block cfg chk d c0 _ Ok c c'); try done; [rewrite Ech; apply elem_of_app; right; left|rewrite M; apply elem_of_app; by left|by rewrite Exb]. }
      apply (Hno c'); [|done]. rewrite <- Em. apply elem_of_app. by left.
  Qed.

  (** ** the pulls come to the end of a request *)
  Inductive freaches (P : fstack -> Prop) (k : fstack) : Prop :=
  | fr_done : P k -> freaches P k
  | fr_go : (forall enum order, fair enum -> is_Some (kf_step k (KFPull enum order))) \/ is_Some (kf_step k KFCaller) \/ (forall late, is_Some (kf_step k (KFHandler true late))) ->
      (forall a k', live_fact a -> kf_step k a = Some k' -> freaches P k') -> freaches P k.
  Lemma freaches_fair P k al : flively al -> freaches P k -> forall m, exists n, P (kf_run k (map al (seq m n))).
  Proof.
    intros (La & Lp & Lc & Lh). induction 1 as [k Hk|k En _ IH]; intro m; [exists 0%nat; exact Hk|].
    assert (X : exists m', (m <= m')%nat /\ is_Some (kf_step k (al m'))).
    { destruct En as [En|[En|En]].
      - destruct (Lp m) as (m' & enum & order & Hm & E). exists m'. split; [done|]. pose proof (La m') as X. rewrite E in *. apply En. apply X.
      - destruct (Lc m) as (m' & Hm & E). exists m'. rewrite E. auto.
      - destruct (Lh m) as (m' & late & Hm & E). exists m'. rewrite E. auto. }
    destruct X as (m' & Hm & S). remember (m' - m)%nat as j eqn:Ej. revert m Hm Ej. induction j as [|j IHj]; intros m Hm Ej.
    - assert (m' = m) as -> by lia. destruct S as [k' Hk']. destruct (IH _ _ (La m) Hk' (Datatypes.S m)) as [n Hn]. exists (Datatypes.S n). cbn [seq map StackModel.kf_run]. rewrite Hk'. exact Hn.
    - destruct (kf_step k (al m)) as [k'|] eqn:E.
      + destruct (IH _ _ (La m) E (Datatypes.S m)) as [n Hn]. exists (Datatypes.S n). cbn [seq map StackModel.kf_run]. rewrite E. exact Hn.
      + destruct (IHj (Datatypes.S m)) as [n Hn]; [lia|lia|]. exists (Datatypes.S n). cbn [seq map StackModel.kf_run]. rewrite E. exact Hn.
  Qed.

  Lemma kf_step_open k a k' : kf_step k a = Some k' -> s_open (f_in k) = true -> s_open (f_in k') = true.
  Proof.
    intros E O.
    assert (In : forall a, a = Caller \/ (exists ok late, a = Handler ok late) \/ (exists c, a = Node c) -> kf_inner k a = Some k' -> s_open (f_in k') = true).
    { intros a' Ha E'. unfold StackModel.kf_inner in E'. destruct (step (f_in k) a') as [[s o]|] eqn:Es; [|discriminate].
      assert (s_open s = true). { destruct Ha as [-> |[(ok & late & ->)|[c ->]]]; cbn in Es.
        - apply caller_open in Es. congruence.
        - destruct (handler _ _ _ _ _ _ _) as [s1|] eqn:Eh; [|discriminate]. injection Es as <- _. apply CardanoLiveProps.handler_nearer in Eh as (_ & -> & _). exact O.
        - injection Es as <- _. exact O. }
      destruct (f_wait k) as [[]|]; [destruct (answer_of o)|]; injection E' as <-; done. }
    destruct a; cbn [StackModel.kf_step] in E; try (eapply In; [|exact E]; eauto; fail).
    - destruct (f_wait k); [discriminate|]. destruct (kf_asks _ _ _); [|injection E as <-; exact O].
      cbn in E. destruct (s_c (f_in k)); try discriminate. rewrite O in E. by injection E as <-.
    - destruct (f_wait k); [|discriminate]. cbn in E. destruct (s_c (f_in k)); try discriminate; by injection E as <-.
  Qed.
  Lemma kf_run_open l : forall k, s_open (f_in k) = true -> s_open (f_in (kf_run k l)) = true.
  Proof.
    induction l as [|a l IH]; intros k O; [exact O|]. cbn [StackModel.kf_run]. destruct (kf_step k a) as [k'|] eqn:E; [|by apply IH]. apply IH. by eapply kf_step_open.
  Qed.

  (** a pull that asks nothing gives what is queued *)
  Lemma fh_asks_none enum from k : fair enum -> (exists s D, ginv d (f_world k) s D) -> kf_asks enum from k = None -> exists e q, fh_events (f_source (f_world k)) = e :: q.
  Proof.
    intros Hf (s & D & Gi) E. unfold kf_asks in E. destruct (fh_events (f_source (f_world k))) as [|e q]; [|eauto]. exfalso.
    destruct Gi as [Rl F0 I Hconf Hdep Hlast _].
    assert (conf_ok (fh_mv (f_source (f_world k))) (fh_confirmed (f_source (f_world k)))) as Hco.
    { rewrite Hconf. intros key Hk. destruct (last D) as [c|] eqn:El; [|done]. injection Hk as <-.
      exists c. apply (rel_get_in _ _ _ Rl). apply (i_elem _ _ _ _ I). unfold kept. rewrite El. pose proof (i_top _ _ _ _ I) as Ht. rewrite El in Ht. split; [apply Ht|lia]. }
    rewrite (fh_checkpoints_ok point_of points_ok_point_of enum _ _ s Hf Rl Hco) in E. discriminate.
  Qed.

  Definition fanswered (t0 : list seen) (k : fstack) : Prop :=
    exists t1 f t2 e t3, f_seen k = t1 ++ Asked f :: t2 ++ e :: t3 /\ Forall not_asked t2 /\ (e = Ended \/ e = GotNone) /\ t0 `prefix_of` t1 /\ fh_events (f_source (f_world k)) = [].
  Definition flive_inv (cs : list (list nblock)) (t0 : list seen) (p : bool) (k : fstack) : Prop :=
    kfinv k /\ kfok k /\ rchains k = cs /\ s_open (f_in k) = true /\
    if p then s_current (f_in k) <> None /\ (forall f, s_c (f_in k) <> CSend f) /\
              exists u1 f u2, f_seen k = (t0 ++ u1) ++ Asked f :: u2 /\ Forall not_asked u2
    else exists u, f_seen k = t0 ++ u.

  Lemma flive_end cs t0 k o e : flive_inv cs t0 true k -> forall k', f_seen k' = f_seen k ++ o -> o = [e] -> e = Ended \/ e = GotNone ->
    fh_events (f_source (f_world k')) = [] -> fanswered t0 k'.
  Proof.
    intros (_ & _ & _ & _ & _ & _ & u1 & f & u2 & E & N) k' E' -> He Hq. exists (t0 ++ u1), f, u2, e, []. split; [rewrite E', E, <- app_assoc; reflexivity|].
    split; [done|]. split; [done|]. split; [by exists u1|done].
  Qed.

  Lemma flive_enabled cs t0 p k : node_ok cs -> flive_inv cs t0 p k ->
    (forall enum order, fair enum -> is_Some (kf_step k (KFPull enum order))) \/ is_Some (kf_step k KFCaller) \/ (forall late, is_Some (kf_step k (KFHandler true late))).
  Proof.
    intros Ok (K & Kok & Ec & O & _). rewrite <- Ec in Ok. destruct (kfok_in k Kok Ok) as [v I]. destruct K as (_ & _ & _ & _ & _ & Hw).
    destruct (f_wait k) as [[enum from]|] eqn:Ew.
    - destruct Hw as (Hf & _ & cps & _ & _ & _ & cps' & _ & Hc). assert (Hn : s_c (f_in k) <> CIdle) by (destruct Hc as [X|[X|X]]; rewrite X; discriminate).
      assert (T : forall a s' o, step (f_in k) a = Some (s', o) -> is_Some (kf_inner k a)).
      { intros a s' o Es. unfold StackModel.kf_inner. rewrite Es, Ew. destruct (answer_of o); eauto. }
      right. destruct (CardanoLiveProps.not_stuck _ _ _ _ _ _ _ I Hn) as [[[s' o] Hs]|Hs]; [left|right].
      + eapply T, Hs.
      + intro late. destruct (Hs true late) as [[s' o] Hs']. eapply T, Hs'.
    - left. intros enum order Hf. cbn [StackModel.kf_step]. rewrite Ew. destruct (kf_asks _ _ _); [|eauto]. cbn [CardanoModel.step]. rewrite Hw, O. eauto.
  Qed.

  Definition fA (p : bool) (k : fstack) : nat := let B := length (s_node (f_in k)) in (if p then 0 else S (S B)) + todo B (f_in k).
  Notation queue k := (length (fh_events (f_source (f_world k)))).
  Definition flower (p p' : bool) (k k' : fstack) : Prop :=
    (fA p' k' < fA p k)%nat \/ ((fA p' k' <= fA p k)%nat /\ ((queue k' < queue k)%nat \/ (queue k' = queue k /\
    ((posc (s_c (f_in k')) < posc (s_c (f_in k)))%nat \/ (posc (s_c (f_in k')) = posc (s_c (f_in k)) /\
     ((length (s_requests (f_in k')) < length (s_requests (f_in k)))%nat \/
     (length (s_requests (f_in k')) = length (s_requests (f_in k)) /\
      ((CardanoLiveProps.pos1 (s_h (f_in k')) < CardanoLiveProps.pos1 (s_h (f_in k)))%nat \/
       (CardanoLiveProps.pos1 (s_h (f_in k')) = CardanoLiveProps.pos1 (s_h (f_in k)) /\ (CardanoLiveProps.pos2 (s_h (f_in k')) < CardanoLiveProps.pos2 (s_h (f_in k)))%nat))))))))).

  Lemma flive_move cs t0 p k a k' : node_ok cs -> flive_inv cs t0 p k -> live_fact a -> kf_step k a = Some k' ->
    fanswered t0 k' \/ exists p', flive_inv cs t0 p' k' /\ flower p p' k k'.
  Proof.
    intros Ok Lk [Lf La] E. pose proof Lk as (K & Kok & Ec & O & Hp). pose proof Ok as Ok0. rewrite <- Ec in Ok0. destruct (kfok_in k Kok Ok0) as [v Iv].
    pose proof (kf_step_open _ _ _ E O) as O'.
    assert (Kok' : kfok k') by (eapply kfok_step; [|exact E|exact Kok]; destruct a; done).
    assert (Kn : rchains k' = rchains k -> kfinv k').
    { intro X. eapply (kfinvp_step _ _ _ _ _ _ _ _ _ _ _ E0 L0 past Rp); [done|exact Lf|exact K|exact E|rewrite X, Ec; exact Ok]. }
    destruct a as [enum order| |ok late|c|]; try contradiction; cbn [StackModel.kf_step] in E.
    - destruct Lf as [Hf Ho]. pose proof K as (_ & _ & Gi & _ & _ & Hw). destruct (f_wait k) eqn:Ew; [discriminate|].
      destruct (kf_asks enum (kf_from (Some (start_of b0)) k) k) as [cps|] eqn:Ecp.
      + cbn [CardanoModel.step] in E. rewrite Hw, O in E. injection E as <-. set (cl := Called (to_point <$> order cps)) in *.
        assert (Ech : rchains (FStack (f_world k) (Some (enum, kf_from (Some (start_of b0)) k)) (set_c (f_in k) (CRecv (to_point <$> order cps))) (f_seen k ++ [cl]) (f_base k)) = rchains k).
        { unfold StackRunProofs.rchains, kf_chains. cbn [f_base f_seen]. rewrite bind_app. cbn. by rewrite app_nil_r. }
        right. exists p. split.
        * split; [apply Kn, Ech|]. split; [exact Kok'|]. split; [rewrite Ech; exact Ec|]. split; [exact O'|]. cbn [f_in f_seen set_c s_current s_c]. destruct p.
          -- destruct Hp as (H1 & H2 & u1 & f & u2 & Hs & Nt). split; [exact H1|]. split; [discriminate|]. exists u1, f, (u2 ++ [cl]).
             split; [rewrite Hs, <- app_assoc; reflexivity|]. apply Forall_app. split; [done|]. repeat constructor.
          -- destruct Hp as [u ->]. rewrite <- app_assoc. eauto.
        * right. split; [apply Nat.eq_le_incl; reflexivity|]. right. split; [reflexivity|]. left. cbn [f_in set_c s_c posc]. rewrite Hw. cbn. lia.
      + destruct (fh_asks_none _ _ _ Hf Gi Ecp) as (ev & q & Eq). apply (inj Some) in E as <-.
        right. exists p. split.
        * split; [by apply Kn|]. split; [exact Kok'|]. split; [exact Ec|]. split; [exact O'|]. exact Hp.
        * right. split; [apply Nat.eq_le_incl; reflexivity|]. left. cbn [f_world]. unfold f_step, fh_pull. rewrite Eq. cbn. lia.
    - unfold StackModel.kf_inner in E. cbn [CardanoModel.step] in E. destruct (caller cfg (f_in k)) as [[s' o]|] eqn:Es; [|discriminate].
      assert (Hk : f_in k' = s' /\ f_seen k' = f_seen k ++ o /\ f_base k' = f_base k /\ (answer_of o = None -> f_world k' = f_world k)).
      { destruct (f_wait k) as [[enum from]|]; [destruct (answer_of o)|]; injection E as <-; auto; repeat split; done. }
      destruct Hk as (Hin & Hs & Hba & Hwo). destruct (caller_todo _ _ _ _ _ _ _ _ Iv Es) as (N & _ & Cs).
      assert (Ech : rchains k' = rchains k).
      { unfold StackRunProofs.rchains, kf_chains. rewrite Hba, Hs, bind_app. replace (o ≫= _) with ([] : list (list nblock)); [by rewrite app_nil_r|].
        destruct Cs as [(f & _ & _ & _ & _ & [[_ ->]| ->])|[(f & f' & _ & _ & _ & _ & ->)|[(m & _ & _ & _ & _ & _ & ->)|(_ & _ & _ & _ & ->)]]]; reflexivity. }
      specialize (Kn Ech).
      assert (Eq : queue k' = queue k \/ exists m, o = [Got m]).
      { pose proof K as (_ & _ & _ & _ & _ & Hw). destruct Cs as [(f & _ & _ & _ & _ & Ho)|[(f & f' & _ & _ & _ & _ & Ho)|[(m & _ & _ & _ & _ & _ & Ho)|(_ & _ & _ & _ & Ho)]]].
        - left. rewrite Hwo; [done|]. destruct Ho as [[_ ->]| ->]; reflexivity.
        - left. rewrite Hwo; [done|]. by rewrite Ho.
        - right. eauto.
        - left. destruct (f_wait k) as [[enum from]|] eqn:Ew; [|subst o; cbn in E; injection E as <-; reflexivity].
          subst o. cbn in E. injection E as <-. cbn [f_world]. destruct Hw as (_ & _ & cps & Hcp & _). unfold kf_asks in Hcp. unfold f_step, fh_pull.
          destruct (fh_events (f_source (f_world k))) eqn:Eq; [|discriminate]. destruct (fh_checkpoints _ _ _ _); [discriminate|]. cbn. by rewrite Eq. }
      assert (Eq0 : s_c (f_in k) <> CIdle -> fh_events (f_source (f_world k)) = []).
      { intro Hn. pose proof K as (_ & _ & _ & _ & _ & Hw). destruct (f_wait k) as [[enum from]|]; [|contradiction]. destruct Hw as (_ & _ & cps & Hcp & _). unfold kf_asks in Hcp.
        by destruct (fh_events (f_source (f_world k))). }
      assert (Eqe : s_c (f_in k) <> CIdle -> (forall m, o <> [Got m]) -> fh_events (f_source (f_world k')) = []).
      { intros Hn Hg. destruct Eq as [Eq|[m ->]]; [|by destruct (Hg m)]. rewrite (Eq0 Hn) in Eq. by destruct (fh_events (f_source (f_world k'))). }
      destruct Cs as [(f & C1 & C2 & T & Cu & Ho)|[(f & f' & C1 & C2 & T & Cu & Ho)|[(m & C1 & C1' & C2 & T & Cu & Ho)|(C1 & C2 & T & Cu & Ho)]]].
      + destruct p.
        * destruct Ho as [[X _]|Ho]; [by destruct Hp|]. left. eapply flive_end; [exact Lk|exact Hs|exact Ho|by left|]. apply Eqe; [rewrite C1; discriminate|rewrite Ho; discriminate].
        * right. exists false. split.
          -- split; [done|]. split; [exact Kok'|]. split; [congruence|]. split; [exact O'|]. destruct Hp as [u Hu]. exists (u ++ o). rewrite Hs, Hu, app_assoc. reflexivity.
          -- assert (An : answer_of o = None) by (destruct Ho as [[_ ->]| ->]; reflexivity).
             right. unfold fA. rewrite Hin, N. split; [lia|]. right. rewrite (Hwo An). split; [done|]. left. rewrite C1, C2. cbn. lia.
      + destruct p; [by destruct Hp as (_ & X & _); destruct (X f)|]. right. exists true. split.
        * split; [done|]. split; [exact Kok'|]. split; [congruence|]. split; [exact O'|]. rewrite Hin, C2. split; [done|]. split; [discriminate|]. destruct Hp as [u Hu]. exists u, f', []. split; [rewrite Hs, Hu, Ho; reflexivity|constructor].
        * left. unfold fA. rewrite Hin, N. lia.
      + right. exists p. split.
        * split; [done|]. split; [exact Kok'|]. split; [congruence|]. split; [exact O'|]. rewrite Hin, Cu, C2. destruct p.
          -- destruct Hp as (H1 & H2 & u1 & f & u2 & Hu & Nt). split; [exact H1|]. split; [discriminate|]. exists u1, f, (u2 ++ o). split; [rewrite Hs, Hu, <- app_assoc; reflexivity|].
             apply Forall_app. split; [done|]. rewrite Ho. repeat constructor.
          -- destruct Hp as [u Hu]. exists (u ++ o). rewrite Hs, Hu, app_assoc. reflexivity.
        * left. unfold fA. rewrite Hin, N. destruct p; lia.
      + destruct p; [left; eapply flive_end; [exact Lk|exact Hs|exact Ho|by right|]; apply Eqe; [rewrite C1; discriminate|rewrite Ho; discriminate]|]. right. exists false. split.
        * split; [done|]. split; [exact Kok'|]. split; [congruence|]. split; [exact O'|]. destruct Hp as [u Hu]. exists (u ++ o). rewrite Hs, Hu, app_assoc. reflexivity.
        * right. unfold fA. rewrite Hin, N. split; [lia|]. right. destruct Eq as [Eq|[m X]]; [|rewrite Ho in X; discriminate].
          split; [exact Eq|]. left. rewrite C1, C2. cbn. lia.
    - subst ok. unfold StackModel.kf_inner in E. cbn [CardanoModel.step] in E. destruct (handler _ _ _ _ (f_in k) true late) as [s'|] eqn:Eh; [|discriminate].
      assert (k' = FStack (f_world k) (f_wait k) s' (f_seen k ++ []) (f_base k)) as -> by (destruct (f_wait k) as [[]|]; injection E as <-; reflexivity).
      rewrite app_nil_r in *. assert (Ech : forall w e, rchains (FStack (f_world k) w e (f_seen k) (f_base k)) = rchains k) by reflexivity.
      destruct (handler_todo _ _ _ _ _ _ _ _ Iv Eh) as (T & N & Cu). destruct (CardanoLiveProps.handler_nearer _ _ _ _ _ _ _ _ Eh) as (H1 & H2 & H3).
      right. exists p. split.
      + split; [apply Kn, Ech|]. split; [exact Kok'|]. split; [exact Ec|]. split; [exact O'|]. cbn [f_in f_seen]. rewrite Cu, H1. exact Hp.
      + right. unfold fA. cbn [f_in]. rewrite N, H1. split; [lia|]. right. split; [reflexivity|]. right. split; [reflexivity|]. exact H3.
  Qed.

  Lemma flive_reaches cs t0 : node_ok cs -> forall p k, flive_inv cs t0 p k -> freaches (fanswered t0) k.
  Proof.
    intro Ok.
    enough (X : forall a g c r x y p k, flive_inv cs t0 p k -> (fA p k <= a)%nat -> (queue k <= g)%nat -> (posc (s_c (f_in k)) <= c)%nat -> length (s_requests (f_in k)) = r ->
      CardanoLiveProps.pos1 (s_h (f_in k)) = x -> CardanoLiveProps.pos2 (s_h (f_in k)) = y -> freaches (fanswered t0) k) by (intros p k Lk; eapply X; eauto).
    induction a as [a IHa] using lt_wf_ind. induction g as [g IHg] using lt_wf_ind.
    induction c as [c IHc] using lt_wf_ind. induction r as [r IHr] using lt_wf_ind. induction x as [x IHx] using lt_wf_ind. induction y as [y IHy] using lt_wf_ind.
    intros p k Lk Ha Hg Hc Hr Hx Hy. apply fr_go; [eapply flive_enabled; eauto|]. intros act k' La E.
    destruct (flive_move _ _ _ _ _ _ Ok Lk La E) as [D|(p' & Lk' & Low)]; [by apply fr_done|].
    destruct Low as [Low|[Le [Low|[Eq0 [Low|[Eq [Low|[Eq2 [Low|[Eq3 Low]]]]]]]]]].
    - eapply (IHa (fA p' k')); eauto; lia.
    - eapply (IHg (queue k')); eauto; lia.
    - eapply (IHc (posc (s_c (f_in k')))); eauto; lia.
    - eapply (IHr (length (s_requests (f_in k')))); eauto; lia.
    - eapply (IHx (CardanoLiveProps.pos1 (s_h (f_in k')))); eauto; lia.
    - eapply (IHy (CardanoLiveProps.pos2 (s_h (f_in k')))); eauto; lia.
  Qed.
End Fork.
