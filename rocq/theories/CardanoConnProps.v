(** C38, the connection to the node: it is made once and kept for as long as nothing goes wrong, and a lost one is made again. *)
From Coq Require Import ZArith Lia.
From stdpp Require Import gmap strings list.
From Verif Require Import TimeModel UtilModel CardanoModel CardanoSpec CardanoProofs CardanoProps.
Open Scope N_scope.

Section Conn.
  Context (read_id : string -> option string) (decode : string -> option mblock) (cfg : config) (chk : bool).
  Notation event_of := (from_serialized_block decode cfg chk).
  Notation step := (step read_id decode cfg chk).
  Notation run := (run read_id decode cfg chk).
  Notation handler := (handler read_id decode cfg chk).
  Notation inv := (inv read_id decode cfg chk).
  Notation good := (good decode cfg chk).

  (** the text of the point is a hash *)
  Definition readable (p : point) : Prop := is_Some (point_to_node read_id p).
  (** nothing goes wrong: no call to the node fails, its blocks decode, pulls are from readable points, and the caller neither stops the
      source nor clears its buffers (it may give pulls up) *)
  Definition smooth (a : action) : Prop :=
    match a with
    | Handler ok _ => ok = true
    | Node c => Forall good c
    | Pull f => Forall readable f
    | Clear | Stop => False
    | _ => True
    end.

  Lemma readable_all f : Forall readable f -> is_Some (points_to_node read_id f).
  Proof.
    unfold points_to_node. induction 1 as [|p f [q Hq] _ [qs Hqs]]; [eexists; reflexivity|]. cbn [mapM]. 
    exists (q :: qs). cbn. rewrite Hq. cbn. cbn in Hqs. rewrite Hqs. reflexivity.
  Qed.

  Definition asks (p : hpc) : list point := match p with HConn f _ | HAsk f _ _ => f | _ => [] end.
  Record held (s : state) : Prop := {
    h_handle : s_h s <> HExit -> s_h s <> HDead -> s_handle s = true;
    h_open : s_open s = true;
    h_rx : forall ch, holds (s_h s) = Some ch -> c_rx (chan_of s ch) = true;
    h_req : forall f ch, (f, ch) ∈ s_requests s -> c_rx (chan_of s ch) = true /\ Forall readable f;
    h_asks : Forall readable (asks (s_h s));
    h_pull : match s_c s with CRecv f | CSend f => Forall readable f | _ => True end
  }.

  Lemma held_chan s s' : held s ->
    s_open s' = true -> s_requests s' = s_requests s -> s_h s' = s_h s -> s_handle s' = s_handle s ->
    (forall ch, c_rx (chan_of s' ch) = c_rx (chan_of s ch)) ->
    match s_c s' with CRecv f | CSend f => Forall readable f | _ => True end -> held s'.
  Proof.
    intros [] Eo Er Eh Ed Ec Ep. constructor; rewrite ?Eh, ?Ed; auto.
    - intros ch H. rewrite Ec. auto.
    - intros f ch H. rewrite Er in H. rewrite Ec. auto.
  Qed.

  Lemma recv_rx s ch m s1 : recv s ch = RMsg m s1 -> forall ch', c_rx (chan_of s1 ch') = c_rx (chan_of s ch').
  Proof.
    unfold recv. destruct (c_queue (chan_of s ch)) as [|m0 q]; [destruct (c_tx _); discriminate|]. intro H. injection H as <- <-. intro ch'.
    rewrite chan_set. destruct (decide (ch = ch')) as [<-|]; reflexivity.
  Qed.
  Lemma recv_same s ch m s1 : recv s ch = RMsg m s1 -> s_open s1 = s_open s /\ s_requests s1 = s_requests s /\ s_h s1 = s_h s /\ s_handle s1 = s_handle s.
  Proof.
    unfold recv. destruct (c_queue (chan_of s ch)) as [|m0 q]; [destruct (c_tx _); discriminate|]. intro H. injection H as <- <-. auto.
  Qed.

  Lemma held_caller s v s' o : readable (cf_from cfg) -> inv false s v -> held s -> caller cfg s = Some (s', o) -> held s'.
  Proof.
    intros Rf I H E. unfold caller in E. pose proof (h_open s H) as Ho. pose proof (h_pull s H) as Hp. destruct (s_c s) as [|from|from|] eqn:Ec; [discriminate| | |].
    - destruct (s_current s) as [ch|] eqn:Eu.
      + destruct (recv s ch) as [m s1| |] eqn:R; [| |discriminate]; injection E as <- <-.
        * destruct (recv_same _ _ _ _ R) as (A & B & C & D). apply (held_chan s); cbn [set_c s_open s_requests s_h s_handle s_c]; auto; [congruence|]. apply (recv_rx _ _ _ _ R).
        * apply (held_chan s); cbn [set_c s_open s_requests s_h s_handle s_c]; auto.
      + injection E as <- <-. apply (held_chan s); cbn [set_c s_open s_requests s_h s_handle s_c]; auto.
    - assert (D : held (set_c s CIdle)) by (apply (held_chan s); cbn [set_c s_open s_requests s_h s_handle s_c]; auto).
      assert (N : forall x, s_requests s = [] ->
        Some (let s0 := drop_rx s (s_current s) in St (s_node s0) CWait (Some (s_next s)) (s_open s0) [(match from with [] => [cf_from cfg] | _ => from end, s_next s)] (s_h s0) (s_handle s0)
                 (<[s_next s := Chan [] true true]> (s_chans s0)) (S (s_next s)), [Asked (match from with [] => [cf_from cfg] | _ => from end)]) = Some x -> held (fst x)).
      { intros x Er Hx. injection Hx as <-. cbn [fst].
        assert (Rg : Forall readable (match from with [] => [cf_from cfg] | _ => from end)) by (destruct from; [constructor; auto|exact Hp]).
        set (s0 := drop_rx s (s_current s)).
        assert (F : s_open s0 = s_open s /\ s_h s0 = s_h s /\ s_handle s0 = s_handle s) by (unfold s0; destruct (s_current s); auto). destruct F as (F1 & F2 & F3).
        assert (Cy : forall n c cur o r h hd nx ch, chan_of (St n c cur o r h hd (<[s_next s := Chan [] true true]> (s_chans s0)) nx) ch = if decide (s_next s = ch) then Chan [] true true else chan_of s0 ch).
        { intros. unfold chan_of. cbn [s_chans]. destruct (decide (s_next s = ch)) as [<-|K]; [rewrite lookup_insert|rewrite lookup_insert_ne by exact K]; reflexivity. }
        destruct H. constructor; cbn [s_open s_requests s_h s_handle s_c]; rewrite ?F1, ?F2, ?F3; auto.
        - intros ch Hh. rewrite Cy. destruct (decide (s_next s = ch)) as [<-|K]; [reflexivity|]. unfold s0. destruct (s_current s) as [ch0|] eqn:Eu; cbn [drop_rx]; [|auto].
          rewrite chan_set. destruct (decide (ch0 = ch)) as [<-|K']; [|auto]. exfalso.
          destruct (i_send _ _ _ _ _ _ _ I from ch0 Ec Eu) as [_ X]. destruct (i_fresh_h _ _ _ _ _ _ _ I ch0 Hh) as [_ Y]. congruence.
        - intros f ch Hr. apply elem_of_list_singleton in Hr. injection Hr as -> ->. rewrite Cy, decide_True by reflexivity. split; [reflexivity|exact Rg]. }
      destruct (s_h s) eqn:Eh; try (injection E as <- <-; exact D);
        (destruct (s_requests s) as [|r rs] eqn:Er; [|discriminate]; cbn zeta in N; rewrite ?Eh in E, N; apply (N (s', o) eq_refl E)).
    - destruct (s_current s) as [ch|] eqn:Eu; [|discriminate]. destruct (recv s ch) as [m s1| |] eqn:R; [| |discriminate]; injection E as <- <-.
      + destruct (recv_same _ _ _ _ R) as (A & B & C & D). apply (held_chan s); cbn [set_c s_open s_requests s_h s_handle s_c]; auto; [congruence|]. apply (recv_rx _ _ _ _ R).
      + apply (held_chan s); cbn [set_c s_open s_requests s_h s_handle s_c]; auto.
  Qed.

  (** the handler goes on with the connection *)
  Lemma held_move s s1 p : held s -> s_open s1 = s_open s -> s_requests s1 = s_requests s -> s_c s1 = s_c s ->
    (forall ch, c_rx (chan_of s1 ch) = c_rx (chan_of s ch)) ->
    (forall ch, holds p = Some ch -> holds (s_h s) = Some ch) -> Forall readable (asks p) -> held (set_h s1 p true).
  Proof.
    intros [] Eo Er Ec Ex Hp Ha. constructor; cbn [set_h s_open s_requests s_h s_handle s_c]; rewrite ?Eo, ?Ec; auto.
    - intros ch H. rewrite chan_set_h, Ex. auto.
    - intros f ch H. rewrite Er in H. rewrite chan_set_h, Ex. auto.
  Qed.
  Lemma close_rx s ch ch' : c_rx (chan_of (close_tx s ch) ch') = c_rx (chan_of s ch').
  Proof. unfold close_tx. rewrite chan_set. destruct (decide (ch = ch')) as [<-|]; reflexivity. Qed.
  Lemma held_finish s ch : held s -> held (finish s ch true).
  Proof. intro H. unfold finish. apply (held_move s); auto; [intro; apply close_rx|discriminate|constructor]. Qed.
  Lemma send_rx s ch m s1 : send s ch m = SSent s1 -> s_open s1 = s_open s /\ s_requests s1 = s_requests s /\ s_c s1 = s_c s /\ forall ch', c_rx (chan_of s1 ch') = c_rx (chan_of s ch').
  Proof.
    unfold send. destruct (c_rx (chan_of s ch)) eqn:X; [|discriminate]. destruct (_ <? _); [|discriminate]. intro H. injection H as <-.
    repeat split. intro ch'. rewrite chan_set. destruct (decide (ch = ch')) as [<-|]; [rewrite X|]; reflexivity.
  Qed.
  Lemma send_open s ch m : c_rx (chan_of s ch) = true -> send s ch m <> SClosed.
  Proof. intros H. unfold send. rewrite H. destruct (_ <? _); discriminate. Qed.

  Lemma held_handler s v late s' : readable (cf_genesis cfg) -> inv true s v -> held s -> handler s true late = Some s' -> held s'.
  Proof.
    intros Rg I H E. unfold CardanoModel.handler in E. pose proof (h_rx s H) as Hx. pose proof (h_asks s H) as Ha. pose proof (h_handle s H) as Hd.
    destruct (s_h s) as [|f ch|f sk ch|p t sk ch|p t sk ch|bs ch|bs ch|m bs ch| |] eqn:Eh; try discriminate; cbn [holds asks] in Hx, Ha.
    - destruct (s_requests s) as [|[f ch] rest] eqn:Er; [rewrite (h_open s H) in E; discriminate|]. injection E as <-. destruct H.
      assert (In1 : (f, ch) ∈ s_requests s) by (rewrite Er; left). destruct (h_req0 _ _ In1) as [A B].
      constructor; cbn [s_open s_requests s_h s_handle s_c holds asks]; auto.
      + intros ch' X. injection X as <-. exact A.
      + intros f' ch' X. apply (h_req0 f' ch'). rewrite Er. right. exact X.
    - rewrite Hd in E by discriminate. cbn [orb] in E. injection E as <-. apply (held_move s); auto.
      + intro ch'. rewrite Eh. destruct (bool_decide _); cbn [holds]; auto.
      + destruct (bool_decide _); cbn [asks]; auto.
    - destruct (readable_all _ Ha) as [ps Hps]. rewrite Hps in E. destruct (intersect _ _) as [q|]; [|injection E as <-; apply held_finish; exact H].
      destruct (decide _); injection E as <-; [apply held_finish; exact H|]. apply (held_move s); auto; first [rewrite Eh; auto; fail|constructor].
    - assert (M : held (set_h s (HRange p t sk ch) true)) by (apply (held_move s); auto; first [rewrite Eh; auto; fail|constructor]).
      destruct late; [|injection E as <-; exact M]. destruct (send s ch _) as [s1| |] eqn:Es; [|injection E as <-; exact M|discriminate].
      injection E as <-. destruct (send_rx _ _ _ _ Es) as (A & B & C & D). apply (held_move s); auto; first [rewrite Eh; auto; fail|constructor].
    - destruct (range _ _ _); injection E as <-; [|apply held_finish; exact H].
      apply (held_move s); auto; [rewrite Eh; destruct sk; cbn [holds]; auto|destruct sk; constructor].
    - injection E as <-. apply (held_move s); auto; first [rewrite Eh; auto; fail|constructor].
    - destruct bs as [|b bs]; [injection E as <-; apply held_finish; exact H|].
      destruct (i_good _ _ _ _ _ _ _ I eq_refl) as (_ & G & _). rewrite Eh in G. cbn [blocks_at] in G. apply Forall_cons in G as [[m Gm] _].
      rewrite Gm in E. injection E as <-. apply (held_move s); auto; first [rewrite Eh; auto; fail|constructor].
    - destruct (send s ch m) as [s1| |] eqn:Es; [|exfalso; revert Es; apply send_open, Hx; reflexivity|discriminate].
      injection E as <-. destruct (send_rx _ _ _ _ Es) as (A & B & C & D). apply (held_move s); auto; first [rewrite Eh; auto; fail|constructor].
  Qed.

  Lemma smooth_clean a : smooth a -> clean decode cfg chk a.
  Proof. destruct a; cbn; auto. Qed.

  Lemma held_step s v a s' o : readable (cf_from cfg) -> readable (cf_genesis cfg) -> inv true s v -> inv false s v -> held s -> smooth a -> step s a = Some (s', o) -> held s'.
  Proof.
    intros Rf Rg I J H Ha E. destruct a as [from| | | | |ok late|c]; cbn [CardanoModel.step smooth] in E, Ha; try contradiction.
    - destruct (s_c s); try discriminate. destruct (s_open s) eqn:Eo; [|discriminate]. injection E as <- <-. apply (held_chan s); cbn [set_c s_open s_requests s_h s_handle s_c]; auto.
    - apply (held_caller s v s' o); assumption.
    - pose proof (h_open s H). destruct (s_c s) eqn:Ec; [discriminate| | |]; injection E as <- <-; (apply (held_chan s); cbn [set_c s_open s_requests s_h s_handle s_c]; auto).
    - subst ok. destruct (handler s true late) as [s1|] eqn:Eh; [|discriminate]. injection E as <- <-. apply (held_handler s v late); assumption.
    - injection E as <- <-. apply (held_chan s); cbn [s_open s_requests s_h s_handle s_c]; auto; [apply h_open|apply h_pull]; exact H.
  Qed.

  Lemma held_run l : forall s v, readable (cf_from cfg) -> readable (cf_genesis cfg) -> inv true s v -> inv false s v -> held s -> Forall smooth l -> held (fst (run s l)).
  Proof.
    induction l as [|a l IH]; intros s v Rf Rg I J H Hl; cbn [CardanoModel.run]; [exact H|]. apply Forall_cons in Hl as [Ha Hl].
    destruct (step s a) as [[s' o]|] eqn:E; [|apply (IH s v); assumption].
    assert (X : held (fst (run s' l))).
    { apply (IH s' (looks v o)); auto.
      - apply (inv_step _ _ _ _ true s v a s' o I); [intros _; apply smooth_clean; exact Ha|exact E].
      - apply (inv_step _ _ _ _ false s v a s' o J); [discriminate|exact E].
      - apply (held_step s v a s' o); assumption. }
    destruct (run s' l). exact X.
  Qed.

  (** C38: while nothing goes wrong the one connection the source was made with serves every request, however the calls interleave: the
      task is alive and has a connection whenever it is looked at *)
  Theorem C38_connection_kept c0 l :
    readable (cf_from cfg) -> readable (cf_genesis cfg) -> Forall good c0 -> Forall smooth l ->
    let s := fst (run (initial c0) l) in s_handle s = true /\ s_h s <> HDead /\ s_h s <> HExit.
  Proof.
    intros Rf Rg Hc Hl.
    assert (I : inv true (initial c0) (c0, None)) by (apply inv_initial; auto).
    assert (J : inv false (initial c0) (c0, None)) by (apply inv_initial; discriminate).
    assert (H : held (fst (run (initial c0) l))).
    { apply (held_run l _ (c0, None)); auto. constructor; cbn; auto; try discriminate. intros f ch X. inversion X. }
    assert (K : inv true (fst (run (initial c0) l)) (looks (c0, None) (snd (run (initial c0) l)))).
    { apply inv_run; [exact I|]. intros _. eapply Forall_impl; [exact Hl|]. apply smooth_clean. }
    intro s. assert (N1 : s_h s <> HDead) by (apply (i_good _ _ _ _ _ _ _ K eq_refl)).
    assert (N2 : s_h s <> HExit).
    { intro X. apply (i_exit _ _ _ _ _ _ _ K) in X. rewrite (h_open _ H) in X. discriminate. }
    split; [|auto]. apply (h_handle _ H); assumption.
  Qed.

  (** C38: a connection that was lost is made again for the next request: whatever happened, once the task has taken a request, one
      call to the node that succeeds gives it a connection and the request goes on *)
  Theorem C38_connection_again c0 l f ch late :
    s_h (fst (run (initial c0) l)) = HConn f ch ->
    exists s, step (fst (run (initial c0) l)) (Handler true late) = Some (s, []) /\ s_handle s = true /\
      s_requests s = s_requests (fst (run (initial c0) l)) /\
      exists g skip, s_h s = HAsk g skip ch /\
        ((f = [BlockHeader 0 (cf_genesis_parent cfg)] /\ g = [cf_genesis cfg] /\ skip = false) \/ (f <> [BlockHeader 0 (cf_genesis_parent cfg)] /\ g = f /\ skip = true)).
  Proof.
    intro H. cbn [CardanoModel.step]. unfold CardanoModel.handler. rewrite H, orb_true_r. eexists. split; [reflexivity|]. split; [reflexivity|]. split; [reflexivity|].
    case_bool_decide; do 2 eexists; (split; [reflexivity|auto]).
  Qed.

  (** the next move of the background task is a call to the node: to connect when it has no connection, to find the best point, to ask for
      the range, or to take the next block *)
  Definition calls_node (s : state) : Prop :=
    match s_h s with
    | HConn _ _ => s_handle s = false
    | HAsk _ _ _ | HRange _ _ _ _ | HSkip _ _ | HStream _ _ => True
    | _ => False
    end.
  (** C38: a call to the node that fails ends the request it was made for, and that connection is not used again: what was brought can
      still be pulled, nothing is added to it, and the task waits for the next request without a connection *)
  Theorem C38_connection_lost s late ch : calls_node s -> holds (s_h s) = Some ch ->
    exists s', step s (Handler false late) = Some (s', []) /\ s_handle s' = false /\ s_h s' = HIdle /\ s_requests s' = s_requests s /\ s_c s' = s_c s /\
      chan_of s' ch = Chan (c_queue (chan_of s ch)) false (c_rx (chan_of s ch)) /\ (forall ch', ch' <> ch -> chan_of s' ch' = chan_of s ch').
  Proof.
    intros C H. unfold calls_node in C. cbn [CardanoModel.step]. unfold CardanoModel.handler.
    assert (F : exists s', Some (finish s ch false, @nil seen) = Some (s', []) /\ s_handle s' = false /\ s_h s' = HIdle /\ s_requests s' = s_requests s /\ s_c s' = s_c s /\
      chan_of s' ch = Chan (c_queue (chan_of s ch)) false (c_rx (chan_of s ch)) /\ (forall ch', ch' <> ch -> chan_of s' ch' = chan_of s ch')).
    { eexists. split; [reflexivity|]. repeat (split; [reflexivity|]). unfold finish, close_tx. split.
      - rewrite chan_set_h, chan_set, decide_True by reflexivity. reflexivity.
      - intros ch' N. rewrite chan_set_h, chan_set, decide_False by congruence. reflexivity. }
    destruct (s_h s); try contradiction; cbn [holds] in H; injection H as <-; try exact F.
    - rewrite C. cbn [orb]. exact F.
    - destruct (points_to_node _ _); exact F.
  Qed.
End Conn.

(** two whole requests, a pull given up and a block that appears: one connection *)
Notation ex_conn_run l := (run hex_decode ex_decode (ex_cfg 0) true (initial [ex_A; ex_B; ex_C]) l).
Definition ex_smooth : list action :=
  [Pull [BlockHeader 10 "41"]; Caller; Caller; h_ok; h_ok; h_ok; h_late; Caller; Pull [BlockHeader 10 "41"]; Cancel;
   Pull [BlockHeader 10 "41"]; h_ok; h_ok; h_ok; h_ok; Caller; h_ok; h_ok; h_ok; Node [ex_A; ex_B; ex_C; ex_D];
   Pull [BlockHeader 11 "42"]; Caller; Pull [BlockHeader 12 "43"]; Caller; Caller; h_ok; h_ok; h_ok; h_ok; h_ok; h_ok; h_ok; h_ok; Caller; h_ok].
Example C38_connection_kept_case : readable hex_decode (cf_from (ex_cfg 0)) /\ readable hex_decode (cf_genesis (ex_cfg 0)) /\
  Forall (good ex_decode (ex_cfg 0) true) [ex_A; ex_B; ex_C] /\ Forall (smooth hex_decode ex_decode (ex_cfg 0) true) ex_smooth /\
  let r := ex_conn_run ex_smooth in s_h (fst r) = HIdle /\ s_handle (fst r) = true /\
  snd r = [Called [BlockHeader 10 "41"]; Asked [BlockHeader 10 "41"]; Got (MTip (NPoint 12 "C")); Called [BlockHeader 10 "41"]; Called [BlockHeader 10 "41"];
           Got (ex_event "B" "A" 1 11 2); NodeHas [ex_A; ex_B; ex_C; ex_D]; Called [BlockHeader 11 "42"]; Got (ex_event "C" "B" 2 12 2);
           Called [BlockHeader 12 "43"]; Ended; Asked [BlockHeader 12 "43"]; Got (ex_event "D" "C" 3 13 2)].
Proof.
  split; [eexists; reflexivity|]. split; [eexists; reflexivity|]. split; [repeat constructor; eexists; reflexivity|].
  split; [repeat (constructor; [cbn; repeat first [exact Logic.I|reflexivity|constructor; [eexists; reflexivity|]|constructor]|]); constructor|]. vm_compute. auto.
Qed.
(** a call that fails loses it, and the next request gets it again *)
Example C38_connection_again_case : let l := [Pull [BlockHeader 10 "41"]; Caller; Caller; h_ok; h_ok; Handler false false; Caller; Pull [BlockHeader 10 "41"]; Caller; Caller; h_ok] in
  s_handle (fst (ex_conn_run l)) = false /\ s_h (fst (ex_conn_run l)) = HConn [BlockHeader 10 "41"] 1 /\
  snd (ex_conn_run (l ++ [h_ok; h_ok; h_ok; h_ok; h_ok; h_ok; h_ok; Caller])) =
    [Called [BlockHeader 10 "41"]; Asked [BlockHeader 10 "41"]; GotNone; Called [BlockHeader 10 "41"]; Ended; Asked [BlockHeader 10 "41"]; Got (ex_event "B" "A" 1 11 2)].
Proof. vm_compute. auto. Qed.
(** clear_buffers while blocks are on their way makes the handler drop the connection although the node did nothing wrong *)
Example C38_connection_cleared_case : let l := [Pull [BlockHeader 10 "41"]; Caller; Caller; h_ok; h_ok; h_ok; h_ok; h_ok; h_ok; h_ok; Cancel; Clear; h_ok] in
  s_handle (fst (ex_conn_run l)) = false /\ s_h (fst (ex_conn_run l)) = HIdle.
Proof. vm_compute. auto. Qed.

Example C38_connection_lost_case : let s := fst (ex_conn_run [Pull [BlockHeader 10 "41"]; Caller; Caller; h_ok; h_ok; h_ok; h_late; h_ok; h_ok; h_ok; h_ok]) in
  calls_node s /\ s_h s = HStream [ex_C] 0 /\ chan_of s 0 = Chan [MTip (NPoint 12 "C"); ex_event "B" "A" 1 11 2] true true.
Proof. vm_compute. auto. Qed.

Definition C38_conn_all := (C38_connection_lost, C38_connection_kept, C38_connection_again).
Print Assumptions C38_conn_all.
