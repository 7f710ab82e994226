(** What a request may still give, and why the pulls of a stack come to its end. *)
From Coq Require Import NArith Lia.
From stdpp Require Import prelude numbers gmap strings list.
From Verif Require Import MultiverseModel MultiverseProps SourceModel SourceSpec SourceRunProofs TimeModel UtilModel CardanoModel CardanoSpec CardanoProofs CardanoProps.
From Verif Require CardanoLiveProps.
From Verif Require Import StackModel StackSpec StackProofs StackRunProofs.
Local Open Scope N_scope.

Lemma upto_length c t l : upto c t = Some l -> (length l <= length c)%nat.
Proof.
  revert l. induction c as [|b c IH]; intros l; cbn [upto]; [discriminate|]. destruct (decide _); [intros [= <-]; cbn; lia|].
  destruct (upto c t) as [l'|]; [|discriminate]. intros [= <-]. specialize (IH _ eq_refl). cbn. lia.
Qed.
Lemma range_length c f t l : range c f t = Some l -> (length l <= length c)%nat.
Proof.
  revert l. induction c as [|b c IH]; intros l; cbn [range]; [discriminate|]. destruct (decide _); [apply upto_length|].
  intro H. specialize (IH _ H). cbn. lia.
Qed.

Section Inner.
  Context (read_id : string -> option string) (decode : string -> option mblock) (cfg : config) (chk : bool).
  Notation handler := (handler read_id decode cfg chk).
  Notation inv := (inv read_id decode cfg chk).

  (** how many messages the handler may still send for the request it has, if the node's chain has B blocks *)
  Definition pot (B : nat) (p : hpc) : nat :=
    match p with
    | HConn _ _ | HAsk _ _ _ | HTip _ _ _ _ => S B
    | HRange _ _ _ _ => B
    | HSkip bs _ | HStream bs _ => length bs
    | HSend _ bs _ => S (length bs)
    | HIdle | HExit | HDead => 0
    end.
  Definition queued (s : state) (ch : nat) : bool := existsb (fun r => snd r =? ch)%nat (s_requests s).
  (** and how many the caller may still get of the current request *)
  Definition todo (B : nat) (s : state) : nat :=
    match s_current s with
    | None => 0
    | Some ch => length (c_queue (chan_of s ch)) + (if decide (holds (s_h s) = Some ch) then pot B (s_h s) else if queued s ch then S B else 0)
    end.

  Lemma todo_move B s p ch p' : s_h s = p -> holds p = Some ch -> holds p' = Some ch -> (pot B p' <= pot B p)%nat -> forall b, (todo B (set_h s p' b) <= todo B s)%nat.
  Proof.
    intros E H H' L b. unfold todo. cbn [s_current s_h set_h]. destruct (s_current s) as [c|]; [|lia]. rewrite E, H, H'. change (chan_of (set_h s p' b) c) with (chan_of s c).
    destruct (decide (Some ch = Some c)); [lia|]. change (queued (set_h s p' b) c) with (queued s c). lia.
  Qed.
  Lemma todo_sent B s s1 p ch p' m : s_h s = p -> holds p = Some ch -> holds p' = Some ch -> (S (pot B p') <= pot B p)%nat -> send s ch m = SSent s1 ->
    forall b, (todo B (set_h s1 p' b) <= todo B s)%nat.
  Proof.
    intros E H H' L Hs b. unfold send in Hs. destruct (c_rx _); [|discriminate]. destruct (_ <? _); [|discriminate]. injection Hs as <-.
    unfold todo. cbn [s_current s_h set_h set_chan]. destruct (s_current s) as [c|]; [|lia]. rewrite E, H, H'.
    change (chan_of (set_h ?x p' b) c) with (chan_of x c).
    change (queued _ c) with (queued s c). rewrite chan_set. destruct (decide (ch = c)) as [-> |Hn].
    - rewrite !decide_True by reflexivity. cbn [c_queue]. rewrite app_length. cbn. lia.
    - rewrite !decide_False by congruence. lia.
  Qed.
  Lemma todo_finish B g s v ch ok : inv g s v -> holds (s_h s) = Some ch -> (todo B (finish s ch ok) <= todo B s)%nat.
  Proof.
    intros I H. unfold todo, finish. cbn [s_current s_h set_h close_tx set_chan holds]. destruct (s_current s) as [c|]; [|lia].
    change (chan_of (set_h ?x HIdle ok) c) with (chan_of x c). change (queued _ c) with (queued s c). rewrite chan_close, H. rewrite (decide_False (P := None = Some c)) by discriminate.
    destruct (decide (ch = c)) as [-> |Hn].
    - rewrite decide_True by reflexivity. cbn [c_queue].
      assert (Q : queued s c = false); [|rewrite Q; lia].
      unfold queued. destruct (existsb _ _) eqn:Ex; [|reflexivity]. exfalso. apply existsb_exists in Ex as ([f c'] & Hin & Ec). cbn in Ec. apply Nat.eqb_eq in Ec as ->.
      apply elem_of_list_In in Hin. destruct (i_fresh_r _ _ _ _ _ _ _ I f c Hin) as (_ & _ & N & _). contradiction.
    - rewrite decide_False by congruence. lia.
  Qed.

  Lemma handler_todo s v late s' : inv true s v -> handler s true late = Some s' -> (todo (length (s_node s)) s' <= todo (length (s_node s)) s)%nat /\ s_node s' = s_node s /\ s_current s' = s_current s.
  Proof.
    intros I H. set (B := length (s_node s)).
    assert (K : (todo B s' <= todo B s)%nat /\ s_current s' = s_current s).
    { unfold CardanoModel.handler in H.
      destruct (s_h s) as [|f ch|f sk ch|p t sk ch|p t sk ch|bs ch|bs ch|m bs ch| |] eqn:Eh; try discriminate.
      - destruct (s_requests s) as [|[f ch] rest] eqn:Er.
        + destruct (s_open s); [discriminate|]. injection H as <-. split; [|reflexivity]. unfold todo. cbn [s_current s_h set_h holds]. destruct (s_current s) as [c|]; [|lia].
          change (chan_of (set_h s HExit false) c) with (chan_of s c). rewrite Eh. cbn [holds]. rewrite !(decide_False (P := None = Some c)) by discriminate.
          change (queued (set_h s HExit false) c) with (queued s c). lia.
        + injection H as <-. split; [|reflexivity]. pose proof (i_one _ _ _ _ _ _ _ I) as L. rewrite Er in L. destruct rest; [|cbn in L; lia].
          unfold todo. cbn [s_current s_h holds]. destruct (s_current s) as [c|]; [|lia].
          change (chan_of _ c) with (chan_of s c). rewrite Eh. cbn [holds]. rewrite (decide_False (P := None = Some c)) by discriminate.
          unfold queued. rewrite Er. cbn [s_requests existsb snd]. rewrite orb_false_r. destruct (Nat.eqb_spec ch c) as [-> |Hn].
          * rewrite decide_True by reflexivity. cbn [pot]. change (chan_of (St _ _ _ _ _ _ _ _ _) c) with (chan_of s c). lia.
          * rewrite decide_False by congruence. change (chan_of (St _ _ _ _ _ _ _ _ _) c) with (chan_of s c). lia.
      - rewrite orb_true_r in H. injection H as <-. split; [|reflexivity]. destruct (bool_decide _); eapply todo_move; try exact Eh; reflexivity || (cbn; lia).
      - destruct (points_to_node _ _); [|injection H as <-; split; [|reflexivity]; eapply todo_finish; [exact I|rewrite Eh; reflexivity]].
        destruct (intersect _ _); [|injection H as <-; split; [|reflexivity]; eapply todo_finish; [exact I|rewrite Eh; reflexivity]].
        destruct (decide _); injection H as <-; (split; [|reflexivity]); [eapply todo_finish; [exact I|rewrite Eh; reflexivity]|]. eapply todo_move; try exact Eh; reflexivity || (cbn; lia).
      - destruct late; [|injection H as <-; split; [|reflexivity]; eapply todo_move; try exact Eh; reflexivity || (cbn; lia)].
        destruct (send s ch _) eqn:Es; [| |discriminate]; injection H as <-.
        + split; [eapply todo_sent; try exact Es; try exact Eh; reflexivity || (cbn; lia)|].
          unfold send in Es. destruct (c_rx _); [|discriminate]. destruct (_ <? _); [|discriminate]. by injection Es as <-.
        + split; [|reflexivity]. eapply todo_move; try exact Eh; reflexivity || (cbn; lia).
      - destruct (range _ _ _) as [bs|] eqn:Er; injection H as <-; (split; [|reflexivity]); [|eapply todo_finish; [exact I|rewrite Eh; reflexivity]].
        apply range_length in Er. destruct sk; eapply todo_move; try exact Eh; reflexivity || (cbn; lia).
      - injection H as <-. split; [|reflexivity]. eapply todo_move; try exact Eh; try reflexivity. cbn. destruct bs; cbn; lia.
      - destruct bs as [|b bs]; [injection H as <-; split; [|reflexivity]; eapply todo_finish; [exact I|rewrite Eh; reflexivity]|].
        destruct (i_good _ _ _ _ _ _ _ I eq_refl) as (_ & G & _). rewrite Eh in G. cbn in G. apply Forall_cons in G as [[e Ge] _]. rewrite Ge in H.
        injection H as <-. split; [|reflexivity]. eapply todo_move; try exact Eh; reflexivity || (cbn; lia).
      - destruct (send s ch m) eqn:Es; [| |discriminate]; injection H as <-.
        + split; [eapply todo_sent; try exact Es; try exact Eh; reflexivity || (cbn; lia)|].
          unfold send in Es. destruct (c_rx _); [|discriminate]. destruct (_ <? _); [|discriminate]. by injection Es as <-.
        + split; [|reflexivity]. eapply todo_finish; [exact I|rewrite Eh; reflexivity]. }
    split; [apply K|]. split; [|apply K].
    unfold CardanoModel.handler in H.
    repeat match type of H with
           | context [match send ?a ?b ?c with _ => _ end] => let E := fresh in destruct (send a b c) eqn:E; [apply CardanoLiveProps.send_same in E as (_ & _ & _ & E)| |]
           | Some (die s ?ch) = _ => injection H as <-; unfold die; cbn [s_node]; apply (CardanoLiveProps.closes_same (s_requests (close_tx s ch)) (close_tx s ch))
           | Some _ = Some _ => injection H as <-; first [assumption|reflexivity]
           | None = Some _ => discriminate
           | context [match ?x with _ => _ end] => destruct x
           end.
  Qed.

  (** the moves of the caller *)
  Lemma caller_todo s v s' o : inv true s v -> caller cfg s = Some (s', o) -> let B := length (s_node s) in
    s_node s' = s_node s /\ s_open s' = s_open s /\
    ((exists f, s_c s = CRecv f /\ s_c s' = CSend f /\ todo B s' = todo B s /\ s_current s' = s_current s /\ (s_current s = None /\ o = [] \/ o = [Ended])) \/
     (exists f f', s_c s = CSend f /\ s_c s' = CWait /\ (todo B s' <= S B)%nat /\ s_current s' <> None /\ o = [Asked f']) \/
     (exists m, s_c s <> CIdle /\ (forall f, s_c s <> CSend f) /\ s_c s' = CIdle /\ S (todo B s') = todo B s /\ s_current s' = s_current s /\ o = [Got m]) \/
     (s_c s = CWait /\ s_c s' = CIdle /\ todo B s' = todo B s /\ s_current s' = s_current s /\ o = [GotNone])).
  Proof.
    intros I H B. unfold caller in H.
    assert (Rv : forall ch m s1, s_current s = Some ch -> recv s ch = RMsg m s1 -> s_node s1 = s_node s /\ s_open s1 = s_open s /\ S (todo B (set_c s1 CIdle)) = todo B s /\ s_current s1 = s_current s).
    { intros ch m s1 Cu R. unfold recv in R. destruct (c_queue (chan_of s ch)) as [|m' q] eqn:Eq; [destruct (c_tx _); discriminate|]. injection R as -> <-.
      split; [reflexivity|]. split; [reflexivity|]. split; [|reflexivity]. unfold todo. cbn [s_current set_c set_chan s_h]. rewrite Cu.
      change (chan_of (set_c ?x CIdle) ch) with (chan_of x ch). rewrite chan_set, decide_True by reflexivity. cbn [c_queue]. rewrite Eq. cbn [length].
      change (queued _ ch) with (queued s ch). reflexivity. }
    destruct (s_c s) as [|f|f|] eqn:Ec; [discriminate| | |].
    - destruct (s_current s) as [ch|] eqn:Cu.
      + destruct (recv s ch) as [m s1| |] eqn:Er; [| |discriminate]; injection H as <- <-.
        * destruct (Rv ch m s1 eq_refl Er) as (R1 & R2 & R3 & R4). split; [exact R1|]. split; [exact R2|]. right. right. left. exists m. repeat split; auto; discriminate.
        * split; [reflexivity|]. split; [reflexivity|]. left. exists f. repeat split; auto.
      + injection H as <- <-. split; [reflexivity|]. split; [reflexivity|]. left. exists f. repeat split; auto.
    - assert (Hop : s_open s = true) by (apply (i_open _ _ _ _ _ _ _ I); rewrite Ec; discriminate).
      destruct (i_good _ _ _ _ _ _ _ I eq_refl) as (_ & _ & Hnd).
      assert (Hne : s_h s <> HExit). { intro X. pose proof (i_exit _ _ _ _ _ _ _ I X). congruence. }
      destruct (s_requests s) as [|r rs] eqn:Er; [|destruct (s_h s); try discriminate; contradiction].
      assert (H' : (let s0 := drop_rx s (s_current s) in Some (St (s_node s0) CWait (Some (s_next s)) (s_open s0) [(match f with [] => [cf_from cfg] | _ => f end, s_next s)] (s_h s0) (s_handle s0)
                 (<[s_next s := Chan [] true true]> (s_chans s0)) (S (s_next s)), [Asked (match f with [] => [cf_from cfg] | _ => f end)])) = Some (s', o)).
      { destruct (s_h s); try exact H; contradiction. }
      clear H. cbn zeta in H'. injection H' as <- <-.
      assert (Hsame : s_node (drop_rx s (s_current s)) = s_node s /\ s_open (drop_rx s (s_current s)) = s_open s /\ s_h (drop_rx s (s_current s)) = s_h s) by (destruct (s_current s); auto).
      destruct Hsame as (S1 & S2 & S3). split; [exact S1|]. split; [exact S2|]. right. left. exists f, (match f with [] => [cf_from cfg] | _ => f end).
      split; [reflexivity|]. split; [reflexivity|]. split; [|split; [discriminate|reflexivity]].
      unfold todo. cbn [s_current s_h]. unfold chan_of. cbn [s_chans]. rewrite lookup_insert. unfold queued. cbn. rewrite S3.
      destruct (decide (holds (s_h s) = Some (s_next s))) as [Hh|Hh].
      + destruct (i_fresh_h _ _ _ _ _ _ _ I _ Hh) as [L _]. lia.
      + rewrite Nat.eqb_refl. cbn. lia.
    - pose proof (i_wait _ _ _ _ _ _ _ I Ec) as Hcu. destruct (s_current s) as [ch|] eqn:Cu; [|contradiction].
      destruct (recv s ch) as [m s1| |] eqn:Er; [| |discriminate]; injection H as <- <-.
      + destruct (Rv ch m s1 eq_refl Er) as (R1 & R2 & R3 & R4). split; [exact R1|]. split; [exact R2|]. right. right. left. exists m. repeat split; auto; discriminate.
      + split; [reflexivity|]. split; [reflexivity|]. right. right. right. repeat split; auto.
  Qed.
End Inner.

(** ** the confirming source over the Cardano source *)
Section Live.
  Context (read_id : string -> option string) (decode_block : string -> option mblock) (cfg : config) (chk : bool).
  Context (d : nat) (c0 pre : list nblock) (b0 b1 : nblock) (post : list nblock).
  Context (E0 : c0 = pre ++ b0 :: b1 :: post) (L0 : (d <= length post)%nat).
  Notation good_node := (good_node read_id decode_block cfg chk).
  Notation node_ok := (node_ok read_id decode_block cfg chk d c0).
  Notation k_step := (k_step read_id decode_block cfg chk (Some (start_of b0))).
  Notation k_run := (k_run read_id decode_block cfg chk (Some (start_of b0))).
  Notation step := (CardanoModel.step read_id decode_block cfg chk).
  Notation kinv := (kinv read_id decode_block cfg chk d pre b0 b1 true true).
  Notation inv := (inv read_id decode_block cfg chk).

  Inductive kreaches (P : stack -> Prop) (k : stack) : Prop :=
  | kr_done : P k -> kreaches P k
  | kr_go : (forall enum, fair enum -> is_Some (k_step k (KPull enum))) \/ is_Some (k_step k KCaller) \/ (forall late, is_Some (k_step k (KHandler true late))) ->
      (forall a k', live_act a -> k_step k a = Some k' -> kreaches P k') -> kreaches P k.

  Lemma kreaches_fair P k al : lively al -> kreaches P k -> forall m, exists n, P (k_run k (map al (seq m n))).
  Proof.
    intros (La & Lp & Lc & Lh). induction 1 as [k Hk|k En _ IH]; intro m; [exists 0%nat; exact Hk|].
    assert (X : exists m', (m <= m')%nat /\ is_Some (k_step k (al m'))).
    { destruct En as [En|[En|En]].
      - destruct (Lp m) as (m' & enum & Hm & E). exists m'. split; [done|]. pose proof (La m') as X. rewrite E in *. by apply En.
      - destruct (Lc m) as (m' & Hm & E). exists m'. rewrite E. auto.
      - destruct (Lh m) as (m' & late & Hm & E). exists m'. rewrite E. auto. }
    destruct X as (m' & Hm & S). remember (m' - m)%nat as j eqn:Ej. revert m Hm Ej. induction j as [|j IHj]; intros m Hm Ej.
    - assert (m' = m) as -> by lia. destruct S as [k' Hk']. destruct (IH _ _ (La m) Hk' (Datatypes.S m)) as [n Hn]. exists (Datatypes.S n). cbn [seq map StackModel.k_run]. rewrite Hk'. exact Hn.
    - destruct (k_step k (al m)) as [k'|] eqn:E.
      + destruct (IH _ _ (La m) E (Datatypes.S m)) as [n Hn]. exists (Datatypes.S n). cbn [seq map StackModel.k_run]. rewrite E. exact Hn.
      + destruct (IHj (Datatypes.S m)) as [n Hn]; [lia|lia|]. exists (Datatypes.S n). cbn [seq map StackModel.k_run]. rewrite E. exact Hn.
  Qed.

  Lemma caller_open s s' o : caller cfg s = Some (s', o) -> s_open s' = s_open s.
  Proof.
    unfold caller. destruct (s_c s) as [|f|f|]; [discriminate| | |].
    - destruct (s_current s) as [ch|]; [|by intros [= <- _]]. unfold recv. destruct (c_queue _); [destruct (c_tx _); [discriminate|]|]; by intros [= <- _].
    - destruct (s_h s); try (by intros [= <- _]); (destruct (s_requests s); [|discriminate]; intros [= <- _]; cbn; by destruct (s_current s)).
    - destruct (s_current s) as [ch|]; [|discriminate]. unfold recv. destruct (c_queue _); [destruct (c_tx _); [discriminate|]|]; by intros [= <- _].
  Qed.
  Lemma k_step_open k a k' : k_step k a = Some k' -> s_open (k_in k) = true -> s_open (k_in k') = true.
  Proof.
    intros E O.
    assert (In : forall a, a = Caller \/ (exists ok late, a = Handler ok late) \/ (exists c, a = Node c) -> k_inner read_id decode_block cfg chk (Some (start_of b0)) k a = Some k' -> s_open (k_in k') = true).
    { intros a' Ha E'. unfold k_inner in E'. destruct (step (k_in k) a') as [[s o]|] eqn:Es; [|discriminate].
      assert (s_open s = true). { destruct Ha as [-> |[(ok & late & ->)|[c ->]]]; cbn in Es.
        - apply caller_open in Es. congruence.
        - destruct (handler _ _ _ _ _ _ _) as [s1|] eqn:Eh; [|discriminate]. injection Es as <- _. apply CardanoLiveProps.handler_nearer in Eh as (_ & -> & _). exact O.
        - injection Es as <- _. exact O. }
      destruct (k_wait k); [destruct (answer_of o); [destruct (w_step _ _ _ _); [|discriminate]|]|]; injection E' as <-; done. }
    destruct a; cbn [StackModel.k_step] in E; try (eapply In; [|exact E]; eauto; fail).
    - destruct (k_wait k); [discriminate|]. destruct (ms_checkpoints _ _ _ _); [destruct (w_step _ _ _ _); [|discriminate]; injection E as <-; exact O|].
      cbn in E. destruct (s_c (k_in k)); try discriminate. rewrite O in E. by injection E as <-.
    - destruct (k_wait k); [|discriminate]. cbn in E. destruct (s_c (k_in k)); try discriminate; by injection E as <-.
    - destruct (w_step _ _ _ _); [|discriminate]. by injection E as <-.
  Qed.
  Lemma k_run_open l : forall k, s_open (k_in k) = true -> s_open (k_in (k_run k l)) = true.
  Proof.
    induction l as [|a l IH]; intros k O; [exact O|]. cbn [StackModel.k_run]. destruct (k_step k a) as [k'|] eqn:E; [|by apply IH]. apply IH. by eapply k_step_open.
  Qed.

  Lemma kinv_in k : kinv k -> node_ok (k_chains k) -> exists v, inv true (k_in k) v.
  Proof.
    intros ((l & Hl & Hok) & _) Ok.
    assert (Gd : forall c, c ∈ k_chains k -> Forall (good decode_block cfg chk) c).
    { intros c Hc. apply Forall_forall. intros b Hb. destruct (gc_block _ _ _ _ _ (n_good read_id decode_block cfg chk d c0 _ Ok c Hc) b Hb) as (_ & _ & m & e' & _ & _ & _ & _ & Hev). exists (MBlock e'). exact Hev. }
    assert (Cl : Forall (clean decode_block cfg chk) l).
    { apply Forall_forall. intros a Hin. pose proof (proj1 (Forall_forall _ _) (Hok eq_refl) a Hin) as Hoa. destruct a as [f'| | | | |ok late|c]; try exact Logic.I; [exact Hoa|].
      apply Gd. rewrite k_chains_had. unfold had. apply elem_of_app. right. right. pose proof (run_nodes read_id decode_block cfg chk l c (initial (k_base k)) Hin) as X. by rewrite Hl in X. }
    pose proof (reach read_id decode_block cfg chk true (k_base k) l) as X. rewrite Hl in X. eexists. apply X; [intros _|intros _; exact Cl].
    apply Gd. rewrite k_chains_had. unfold had. apply elem_of_app. right. left.
  Qed.

  (** a request was made after t0, and it was answered to its end *)
  Definition answered (t0 : list seen) (k : stack) : Prop :=
    exists t1 f t2 e t3, k_seen k = t1 ++ Asked f :: t2 ++ e :: t3 /\ Forall not_asked t2 /\ (e = Ended \/ e = GotNone) /\ t0 `prefix_of` t1.
  Definition live_inv (cs : list (list nblock)) (t0 : list seen) (p : bool) (k : stack) : Prop :=
    kinv k /\ k_chains k = cs /\ s_open (k_in k) = true /\
    if p then s_current (k_in k) <> None /\ (forall f, s_c (k_in k) <> CSend f) /\
              exists u1 f u2, k_seen k = (t0 ++ u1) ++ Asked f :: u2 /\ Forall not_asked u2
    else exists u, k_seen k = t0 ++ u.
  Definition posc (p : cpc) : nat := match p with CWait => 4 | CIdle => 3 | CRecv _ => 2 | CSend _ => 1 end.

  Lemma live_end cs t0 k o e : live_inv cs t0 true k -> forall k', k_seen k' = k_seen k ++ o -> o = [e] -> e = Ended \/ e = GotNone -> answered t0 k'.
  Proof.
    intros (_ & _ & _ & _ & _ & u1 & f & u2 & E & N) k' E' -> He. exists (t0 ++ u1), f, u2, e, []. split; [rewrite E', E, <- app_assoc; reflexivity|].
    split; [done|]. split; [done|]. by exists u1.
  Qed.

  Lemma live_enabled cs t0 p k : node_ok cs -> live_inv cs t0 p k ->
    (forall enum, fair enum -> is_Some (k_step k (KPull enum))) \/ is_Some (k_step k KCaller) \/ (forall late, is_Some (k_step k (KHandler true late))).
  Proof.
    intros Ok (K & Ec & O & _). rewrite <- Ec in Ok. destruct (kinv_in k K Ok) as [v I]. destruct K as (_ & (s & D & W & Ha) & _ & Hw). specialize (Ha eq_refl).
    destruct (k_wait k) as [enum|] eqn:Ew.
    - destruct Hw as (Hf & cps & _ & Hc). assert (Hn : s_c (k_in k) <> CIdle) by (destruct Hc as [X|[X|X]]; rewrite X; discriminate).
      assert (T : forall a s' o, step (k_in k) a = Some (s', o) -> is_Some (k_inner read_id decode_block cfg chk (Some (start_of b0)) k a)).
      { intros a s' o Es. unfold k_inner. rewrite Es, Ew. destruct (answer_of o) as [ans|]; [|eauto].
        destruct (w_step_total point_of d (Some (start_of b0)) (k_world k) s D (SourceSpec.Pull enum ans true) Hf W) as [w Hws]. rewrite Hws. eauto. }
      right. destruct (CardanoLiveProps.not_stuck _ _ _ _ _ _ _ I Hn) as [[[s' o] Hs]|Hs]; [left|right].
      + eapply T, Hs.
      + intro late. destruct (Hs true late) as [[s' o] Hs']. eapply T, Hs'.
    - left. intros enum Hf. cbn [StackModel.k_step]. rewrite Ew.
      pose proof (checkpoints_ok point_of points_ok_point_of enum d (Some (start_of b0)) (k_world k) s D Hf W) as [[_ X]|(x & X & _)].
      + rewrite X. cbn [CardanoModel.step]. rewrite Hw, O. eauto.
      + exfalso. rewrite Ha in X. apply (f_equal length) in X. rewrite app_length in X. cbn in X. lia.
  Qed.

  Definition mA (p : bool) (k : stack) : nat := let B := length (s_node (k_in k)) in (if p then 0 else S (S B)) + todo B (k_in k).
  Definition lower (p p' : bool) (k k' : stack) : Prop :=
    (mA p' k' < mA p k)%nat \/ ((mA p' k' <= mA p k)%nat /\
    ((posc (s_c (k_in k')) < posc (s_c (k_in k)))%nat \/ (posc (s_c (k_in k')) = posc (s_c (k_in k)) /\
     ((length (s_requests (k_in k')) < length (s_requests (k_in k)))%nat \/
     (length (s_requests (k_in k')) = length (s_requests (k_in k)) /\
      ((CardanoLiveProps.pos1 (s_h (k_in k')) < CardanoLiveProps.pos1 (s_h (k_in k)))%nat \/
       (CardanoLiveProps.pos1 (s_h (k_in k')) = CardanoLiveProps.pos1 (s_h (k_in k)) /\ (CardanoLiveProps.pos2 (s_h (k_in k')) < CardanoLiveProps.pos2 (s_h (k_in k)))%nat))))))).

  Lemma live_move cs t0 p k a k' : node_ok cs -> live_inv cs t0 p k -> live_act a -> k_step k a = Some k' ->
    answered t0 k' \/ exists p', live_inv cs t0 p' k' /\ lower p p' k k'.
  Proof.
    intros Ok Lk La E. pose proof Lk as (K & Ec & O & Hp). pose proof Ok as Ok0. rewrite <- Ec in Ok0. destruct (kinv_in k K Ok0) as [v Iv].
    pose proof (k_step_open _ _ _ E O) as O'.
    assert (Kn : k_chains k' = k_chains k -> kinv k').
    { intro X. eapply (kinv_step _ _ _ _ _ _ _ _ _ _ _ E0 L0); [| |exact K|exact E|rewrite X, Ec; exact Ok]; destruct a; try contradiction; try exact Logic.I; done || (intros _; exact La). }
    destruct a as [enum| |ok late|c| |enum]; cbn [live_act] in La; try contradiction; cbn [StackModel.k_step] in E.
    - destruct K as (_ & (s & D & W & Ha) & _ & Hw). specialize (Ha eq_refl). destruct (k_wait k) eqn:Ew; [discriminate|].
      pose proof (checkpoints_ok point_of points_ok_point_of enum d (Some (start_of b0)) (k_world k) s D La W) as [[_ X]|(x & X & _)].
      2:{ exfalso. rewrite Ha in X. apply (f_equal length) in X. rewrite app_length in X. cbn in X. lia. }
      rewrite X in E. cbn [CardanoModel.step] in E. rewrite Hw, O in E. injection E as <-.
      assert (Ech : forall w e, k_chains (Stack (k_world k) w e (k_seen k ++ [Called (to_point <$> omap (fun k0 => mv_get (ms_mv (w_source (k_world k))) k0 ≫= point_of) (enum (mv_tips (ms_mv (w_source (k_world k))))) ++ option_list (resume_point point_of (Some (start_of b0)) (w_accepted (k_world k))))]) (k_past k) (k_base k)) = k_chains k).
      { intros w e. unfold k_chains. cbn [k_past k_base k_seen]. rewrite bind_app. cbn. by rewrite app_nil_r. }
      right. exists p. split.
      + split; [apply Kn, Ech|]. split; [rewrite Ech; exact Ec|]. split; [exact O'|]. cbn [k_in k_seen set_c s_current s_c]. destruct p.
        * destruct Hp as (H1 & H2 & u1 & f & u2 & Hs & Nt). split; [exact H1|]. split; [discriminate|]. exists u1, f, (u2 ++ [Called (to_point <$> omap (fun k0 => mv_get (ms_mv (w_source (k_world k))) k0 ≫= point_of) (enum (mv_tips (ms_mv (w_source (k_world k))))) ++ option_list (resume_point point_of (Some (start_of b0)) (w_accepted (k_world k))))]).
          split; [rewrite Hs, <- app_assoc; reflexivity|]. apply Forall_app. split; [done|]. repeat constructor. 
        * destruct Hp as [u ->]. rewrite <- app_assoc. eauto.
      + right. split; [apply Nat.eq_le_incl; reflexivity|]. left. cbn [k_in set_c s_c posc]. rewrite Hw. cbn. lia.
    - unfold k_inner in E. cbn [CardanoModel.step] in E. destruct (caller cfg (k_in k)) as [[s' o]|] eqn:Es; [|discriminate].
      assert (Hk : k_in k' = s' /\ k_seen k' = k_seen k ++ o /\ k_past k' = k_past k /\ k_base k' = k_base k).
      { destruct (k_wait k); [destruct (answer_of o); [destruct (w_step _ _ _ _); [|discriminate]|]|]; injection E as <-; auto. }
      destruct Hk as (Hin & Hs & Hpa & Hba). destruct (caller_todo _ _ _ _ _ _ _ _ Iv Es) as (N & _ & Cs).
      assert (Ech : k_chains k' = k_chains k).
      { unfold k_chains. rewrite Hpa, Hba, Hs, bind_app. replace (o ≫= _) with ([] : list (list nblock)); [by rewrite app_nil_r|].
        destruct Cs as [(f & _ & _ & _ & _ & [[_ ->]| ->])|[(f & f' & _ & _ & _ & _ & ->)|[(m & _ & _ & _ & _ & _ & ->)|(_ & _ & _ & _ & ->)]]]; reflexivity. }
      specialize (Kn Ech).
      destruct Cs as [(f & C1 & C2 & T & Cu & Ho)|[(f & f' & C1 & C2 & T & Cu & Ho)|[(m & C1 & C1' & C2 & T & Cu & Ho)|(C1 & C2 & T & Cu & Ho)]]].
      + destruct p.
        * destruct Ho as [[X _]|Ho]; [by destruct Hp|]. left. eapply live_end; [exact Lk|exact Hs|exact Ho|by left].
        * right. exists false. split.
          -- split; [done|]. split; [congruence|]. split; [exact O'|]. destruct Hp as [u Hu]. exists (u ++ o). rewrite Hs, Hu, app_assoc. reflexivity.
          -- right. unfold mA. rewrite Hin, N. split; [lia|]. left. rewrite C1, C2. cbn. lia.
      + destruct p; [by destruct Hp as (_ & X & _); destruct (X f)|]. right. exists true. split.
        * split; [done|]. split; [congruence|]. split; [exact O'|]. rewrite Hin, C2. split; [done|]. split; [discriminate|]. destruct Hp as [u Hu]. exists u, f', []. split; [rewrite Hs, Hu, Ho; reflexivity|constructor].
        * left. unfold mA. rewrite Hin, N. lia.
      + right. exists p. split.
        * split; [done|]. split; [congruence|]. split; [exact O'|]. rewrite Hin, Cu, C2. destruct p.
          -- destruct Hp as (H1 & H2 & u1 & f & u2 & Hu & Nt). split; [exact H1|]. split; [discriminate|]. exists u1, f, (u2 ++ o). split; [rewrite Hs, Hu, <- app_assoc; reflexivity|].
             apply Forall_app. split; [done|]. rewrite Ho. repeat constructor.
          -- destruct Hp as [u Hu]. exists (u ++ o). rewrite Hs, Hu, app_assoc. reflexivity.
        * left. unfold mA. rewrite Hin, N. destruct p; lia.
      + destruct p; [left; eapply live_end; [exact Lk|exact Hs|exact Ho|by right]|]. right. exists false. split.
        * split; [done|]. split; [congruence|]. split; [exact O'|]. destruct Hp as [u Hu]. exists (u ++ o). rewrite Hs, Hu, app_assoc. reflexivity.
        * right. unfold mA. rewrite Hin, N. split; [lia|]. left. rewrite C1, C2. cbn. lia.
    - subst ok. unfold k_inner in E. cbn [CardanoModel.step] in E. destruct (handler _ _ _ _ (k_in k) true late) as [s'|] eqn:Eh; [|discriminate].
      assert (k' = Stack (k_world k) (k_wait k) s' (k_seen k ++ []) (k_past k) (k_base k)) as -> by (destruct (k_wait k); injection E as <-; reflexivity).
      rewrite app_nil_r in *. assert (Ech : forall w e, k_chains (Stack (k_world k) w e (k_seen k) (k_past k) (k_base k)) = k_chains k) by reflexivity.
      destruct (handler_todo _ _ _ _ _ _ _ _ Iv Eh) as (T & N & Cu). destruct (CardanoLiveProps.handler_nearer _ _ _ _ _ _ _ _ Eh) as (H1 & H2 & H3).
      right. exists p. split.
      + split; [apply Kn, Ech|]. split; [exact Ec|]. split; [exact O'|]. cbn [k_in k_seen]. rewrite Cu, H1. exact Hp.
      + right. unfold mA. cbn [k_in]. rewrite N, H1. split; [lia|]. right. split; [reflexivity|]. exact H3.
  Qed.

  Lemma live_reaches cs t0 : node_ok cs -> forall p k, live_inv cs t0 p k -> kreaches (answered t0) k.
  Proof.
    intro Ok.
    enough (X : forall a c r x y p k, live_inv cs t0 p k -> (mA p k <= a)%nat -> (posc (s_c (k_in k)) <= c)%nat -> length (s_requests (k_in k)) = r ->
      CardanoLiveProps.pos1 (s_h (k_in k)) = x -> CardanoLiveProps.pos2 (s_h (k_in k)) = y -> kreaches (answered t0) k) by (intros p k Lk; eapply X; eauto).
    induction a as [a IHa] using lt_wf_ind. induction c as [c IHc] using lt_wf_ind. induction r as [r IHr] using lt_wf_ind. induction x as [x IHx] using lt_wf_ind. induction y as [y IHy] using lt_wf_ind.
    intros p k Lk Ha Hc Hr Hx Hy. apply kr_go; [eapply live_enabled; eauto|]. intros act k' La E.
    destruct (live_move _ _ _ _ _ _ Ok Lk La E) as [D|(p' & Lk' & Low)]; [by apply kr_done|].
    destruct Low as [Low|[Le [Low|[Eq [Low|[Eq2 [Low|[Eq3 Low]]]]]]]].
    - eapply (IHa (mA p' k')); eauto; lia.
    - eapply (IHc (posc (s_c (k_in k')))); eauto; lia.
    - eapply (IHr (length (s_requests (k_in k')))); eauto; lia.
    - eapply (IHx (CardanoLiveProps.pos1 (s_h (k_in k')))); eauto; lia.
    - eapply (IHy (CardanoLiveProps.pos2 (s_h (k_in k')))); eauto; lia.
  Qed.
End Live.
