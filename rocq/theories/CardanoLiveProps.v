(** C38, what has to happen: a pull returns, and a source that was stopped stops, for every fair schedule. *)
From Coq Require Import ZArith Lia Wf_nat.
From stdpp Require Import gmap strings list.
From Verif Require Import TimeModel UtilModel CardanoModel CardanoSpec CardanoProofs CardanoProps.
Open Scope N_scope.

(** an endless schedule of the two tasks and the node, in which each task runs again and again *)
Definition fair (al : nat -> action) : Prop :=
  (forall n, match al n with Caller | Handler _ _ | Node _ => True | _ => False end) /\
  (forall n, exists m, (n <= m)%nat /\ al m = Caller) /\
  (forall n, exists m ok late, (n <= m)%nat /\ al m = Handler ok late).
Definition first (al : nat -> action) (n : nat) : list action := map al (seq 0 n).

Section Live.
  Context (read_id : string -> option string) (decode : string -> option mblock) (cfg : config) (chk : bool).
  Notation event_of := (from_serialized_block decode cfg chk).
  Notation step := (step read_id decode cfg chk).
  Notation run := (run read_id decode cfg chk).
  Notation handler := (handler read_id decode cfg chk).
  Notation inv := (inv read_id decode cfg chk).
  Notation good := (good decode cfg chk).
  Notation trace c0 l := (snd (run (initial c0) l)).

  Definition at_node (s : state) (c : list nblock) : state :=
    St c (s_c s) (s_current s) (s_open s) (s_requests s) (s_h s) (s_handle s) (s_chans s) (s_next s).

  (** a move of the handler takes it nearer to being idle *)
  Definition pos1 (p : hpc) : nat :=
    match p with HConn _ _ => 6 | HAsk _ _ _ => 5 | HTip _ _ _ _ => 4 | HRange _ _ _ _ => 3 | HSkip _ _ => 2 | HStream _ _ | HSend _ _ _ => 1 | HIdle | HExit | HDead => 0 end.
  Definition pos2 (p : hpc) : nat := match p with HStream bs _ => 2 * length bs | HSend _ bs _ => 2 * length bs + 1 | HIdle => 1 | _ => 0 end.
  Definition posc (p : cpc) : nat := match p with CRecv _ => 2 | CSend _ => 1 | _ => 0 end.
  Definition left_ (s : state) : nat := 2 * posc (s_c s) + length (s_requests s).

  Lemma closes_same l : forall s, let s' := foldl (fun s r => close_tx s (snd (A := list point) r)) s l in
    s_c s' = s_c s /\ s_open s' = s_open s /\ s_node s' = s_node s.
  Proof. induction l as [|r l IH]; intro s; cbn [foldl]; [auto|]. apply (IH (close_tx s (snd r))). Qed.
  Lemma send_same s ch m s1 : send s ch m = SSent s1 -> s_c s1 = s_c s /\ s_open s1 = s_open s /\ s_requests s1 = s_requests s /\ s_node s1 = s_node s.
  Proof. intro H. unfold send in H. destruct (c_rx _); [|discriminate]. destruct (_ <? _); [|discriminate]. injection H as <-. auto. Qed.

  Ltac near := cbn; rewrite ?app_nil_r; split; [auto; congruence|]; split; [auto; congruence|]; first [left; lia | right; split; [auto; lia|]; first [left; lia|right; lia]].

  Lemma handler_nearer s ok late s' : handler s ok late = Some s' ->
    s_c s' = s_c s /\ s_open s' = s_open s /\
    ((length (s_requests s') < length (s_requests s))%nat \/
     (length (s_requests s') = length (s_requests s) /\
      ((pos1 (s_h s') < pos1 (s_h s))%nat \/ (pos1 (s_h s') = pos1 (s_h s) /\ (pos2 (s_h s') < pos2 (s_h s))%nat)))).
  Proof.
    intro H. unfold CardanoModel.handler in H.
    destruct (s_h s) as [|f ch|f sk ch|p t sk ch|p t sk ch|bs ch|bs ch|m bs ch| |] eqn:Eh; try discriminate.
    - destruct (s_requests s) as [|[f ch] rest] eqn:Er.
      + destruct (s_open s) eqn:Eo; [discriminate|]. injection H as <-. cbn. rewrite Er. near.
      + injection H as <-. near.
    - destruct (_ || _); injection H as <-; cbn; [|near]. destruct (bool_decide _); near.
    - destruct (points_to_node _ _); [|injection H as <-; near]. destruct ok; [|injection H as <-; near].
      destruct (intersect _ _); [|injection H as <-; near]. destruct (decide _); injection H as <-; near.
    - destruct late; [|injection H as <-; near]. destruct (send s ch _) eqn:Es; [| |discriminate].
      + apply send_same in Es as (H1 & H2 & H3 & _). injection H as <-. cbn. rewrite H1, H2, H3. near.
      + injection H as <-. near.
    - destruct ok; [|injection H as <-; near]. destruct (range _ _ _); injection H as <-; cbn; [|near]. destruct sk; near.
    - destruct ok; injection H as <-; near.
    - destruct ok; [|injection H as <-; near]. destruct bs as [|b bs]; [injection H as <-; near|].
      destruct (event_of (nb_raw b)); injection H as <-; [cbn; split; [auto|]; split; [auto|]; right; split; [auto|]; right; lia|].
      unfold die. cbn [s_c s_open s_requests s_h pos1 length]. destruct (closes_same (s_requests (close_tx s ch)) (close_tx s ch)) as (H1 & H2 & _).
      split; [exact H1|]. split; [exact H2|]. destruct (s_requests s); cbn; [right; split; [reflexivity|]; left; lia|left; lia].
    - destruct (send s ch m) eqn:Es; [| |discriminate].
      + apply send_same in Es as (H1 & H2 & H3 & _). injection H as <-. cbn. rewrite H1, H2, H3. split; [auto|]. split; [auto|]. right. split; [auto|]. right. lia.
      + injection H as <-. near.
  Qed.
  Lemma caller_nearer s s' o : caller cfg s = Some (s', o) -> s_c s' = CIdle \/ (left_ s' < left_ s)%nat.
  Proof.
    intro H. unfold caller in H. unfold left_. destruct (s_c s) eqn:Ec; [discriminate| | |].
    - destruct (s_current s); [|injection H as <- _; cbn; lia]. destruct (recv s _); [injection H as <- _; auto| |discriminate]. injection H as <- _. cbn. lia.
    - destruct (s_h s); try (injection H as <- _; auto); (destruct (s_requests s) eqn:Er; [|discriminate]; injection H as <- _; right; cbn; lia).
    - destruct (s_current s); [|discriminate]. destruct (recv s _); [| |discriminate]; injection H as <- _; auto.
  Qed.

  (** one of the tasks can go on *)
  Lemma not_stuck g s v : inv g s v -> s_c s <> CIdle -> is_Some (step s Caller) \/ forall ok late, is_Some (step s (Handler ok late)).
  Proof.
    intros I Hc.
    (* when the current channel has something, or has ended, the caller can go on *)
    assert (Rd : forall ch, s_current s = Some ch -> recv s ch <> RWait -> (forall f, s_c s <> CSend f) -> is_Some (step s Caller)).
    { intros ch Cu R Hn. cbn [CardanoModel.step]. unfold caller. destruct (s_c s) as [|f|f|]; [contradiction| |destruct (Hn f eq_refl)|]; rewrite Cu;
        destruct (recv s ch); try contradiction; eauto. }
    (* a channel that is full and is still read *)
    assert (Fu : forall ch m, holds (s_h s) = Some ch -> send s ch m = SWait -> is_Some (step s Caller)).
    { intros ch m Ho Se. unfold send in Se. destruct (c_rx (chan_of s ch)) eqn:Rx; [|discriminate]. destruct (_ <? _) eqn:Lt; [discriminate|].
      assert (Cu := i_rx _ _ _ _ _ _ _ I ch Rx). destruct (i_fresh_h _ _ _ _ _ _ _ I ch Ho) as [_ Tx]. apply (Rd ch Cu).
      - unfold recv. destruct (c_queue (chan_of s ch)); [|discriminate]. cbn in Lt. discriminate.
      - intros f Hf. destruct (i_send _ _ _ _ _ _ _ I f ch Hf Cu) as [_ Tx']. congruence. }
    (* nothing is queued and the handler has nothing *)
    assert (Qu : s_requests s = [] -> holds (s_h s) = None -> is_Some (step s Caller)).
    { intros Hr Hh. destruct (s_c s) as [|f|f|] eqn:Ec; [contradiction| | |].
      - destruct (s_current s) as [ch|] eqn:Cu; [|cbn [CardanoModel.step]; unfold caller; rewrite Ec, Cu; eauto].
        apply (Rd ch eq_refl); [|intros f' X; congruence].
        assert (Sg := i_seg _ _ _ _ _ _ _ I). destruct (snd v) as [[[f' cs] ms]|]; [|congruence]. destruct Sg as (_ & _ & Sg). specialize (Sg ch Cu). cbn zeta in Sg. unfold recv.
        destruct Sg as [[K _]|[[K _]|(_ & _ & Tx & _)]]; [rewrite Hr in K; inversion K|congruence|]. rewrite Tx. destruct (c_queue _); discriminate.
      - cbn [CardanoModel.step]. unfold caller. rewrite Ec, Hr. destruct (s_h s); eauto.
      - assert (Cu := i_wait _ _ _ _ _ _ _ I Ec). destruct (s_current s) as [ch|] eqn:Cu'; [|contradiction].
        apply (Rd ch eq_refl); [|intros f' X; congruence].
        assert (Sg := i_seg _ _ _ _ _ _ _ I). destruct (snd v) as [[[f' cs] ms]|]; [|congruence]. destruct Sg as (_ & _ & Sg). specialize (Sg ch Cu'). cbn zeta in Sg. unfold recv.
        destruct Sg as [[K _]|[[K _]|(_ & _ & Tx & _)]]; [rewrite Hr in K; inversion K|congruence|]. rewrite Tx. destruct (c_queue _); discriminate. }
    assert (Hd : forall p, s_h s = p -> (forall ok late, is_Some (handler s ok late)) -> forall ok late, is_Some (step s (Handler ok late))).
    { intros p _ H ok late. cbn [CardanoModel.step]. destruct (H ok late) as [x ->]. eauto. }
    destruct (s_h s) as [|f ch|f sk ch|p t sk ch|p t sk ch|bs ch|bs ch|m bs ch| |] eqn:Eh.
    - destruct (s_requests s) as [|[f ch] rest] eqn:Er; [left; apply Qu; reflexivity|]. right. apply (Hd HIdle eq_refl). intros ok late. unfold CardanoModel.handler. rewrite Eh, Er. eauto.
    - right. apply (Hd _ eq_refl). intros ok late. unfold CardanoModel.handler. rewrite Eh. destruct (_ || _); eauto.
    - right. apply (Hd _ eq_refl). intros ok late. unfold CardanoModel.handler. rewrite Eh. destruct (points_to_node _ _); [|eauto]. destruct ok; [|eauto]. destruct (intersect _ _); [|eauto]. destruct (decide _); eauto.
    - destruct (send s ch (MTip t)) eqn:Es.
      + right. apply (Hd _ eq_refl). intros ok late. unfold CardanoModel.handler. rewrite Eh, Es. destruct late; eauto.
      + right. apply (Hd _ eq_refl). intros ok late. unfold CardanoModel.handler. rewrite Eh, Es. destruct late; eauto.
      + left. apply (Fu ch (MTip t)); auto.
    - right. apply (Hd _ eq_refl). intros ok late. unfold CardanoModel.handler. rewrite Eh. destruct ok; [|eauto]. destruct (range _ _ _); eauto.
    - right. apply (Hd _ eq_refl). intros ok late. unfold CardanoModel.handler. rewrite Eh. destruct ok; eauto.
    - right. apply (Hd _ eq_refl). intros ok late. unfold CardanoModel.handler. rewrite Eh. destruct ok; [|eauto]. destruct bs; [eauto|]. destruct (event_of _); eauto.
    - destruct (send s ch m) eqn:Es.
      + right. apply (Hd _ eq_refl). intros ok late. unfold CardanoModel.handler. rewrite Eh, Es. eauto.
      + right. apply (Hd _ eq_refl). intros ok late. unfold CardanoModel.handler. rewrite Eh, Es. eauto.
      + left. apply (Fu ch m); auto.
    - exfalso. assert (X := i_exit _ _ _ _ _ _ _ I Eh). rewrite (i_open _ _ _ _ _ _ _ I Hc) in X. discriminate.
    - left. apply Qu; [|reflexivity]. destruct (s_requests s) as [|[f ch] rest] eqn:Er; [reflexivity|]. exfalso.
      destruct (i_fresh_r _ _ _ _ _ _ _ I f ch) as (_ & _ & _ & X & _); [rewrite Er; left|]. contradiction.
  Qed.

  (** ** what is reached whatever the tasks do *)
  Inductive reaches (done : state -> Prop) : state -> Prop :=
  | reached s : done s -> reaches done s
  | reaches_on s :
      (forall c, is_Some (step (at_node s c) Caller) \/ forall ok late, is_Some (step (at_node s c) (Handler ok late))) ->
      (forall c a s' o, match a with Caller | Handler _ _ => True | _ => False end -> step (at_node s c) a = Some (s', o) -> reaches done s') ->
      reaches done s.

  Lemma fair_shift al k : fair al -> fair (fun n => al (k + n)%nat).
  Proof.
    intros (H1 & H2 & H3). split; [intro n; apply H1|]. split.
    - intro n. destruct (H2 (k + n)%nat) as (m & Hm & E). exists (m - k)%nat. split; [lia|]. rewrite <- E. f_equal. lia.
    - intro n. destruct (H3 (k + n)%nat) as (m & ok & late & Hm & E). exists (m - k)%nat, ok, late. split; [lia|]. rewrite <- E. f_equal. lia.
  Qed.
  Lemma first_S al n : first al (S n) = al 0%nat :: first (fun k => al (1 + k)%nat) n.
  Proof. unfold first. cbn [seq map]. f_equal. rewrite <- seq_shift, map_map. reflexivity. Qed.

  Lemma reaches_fair (done : state -> Prop) : (forall s c, done s -> done (at_node s c)) -> forall s, reaches done s -> forall al, fair al -> exists n, done (fst (run s (first al n))).
  Proof.
    intros Dn s R. induction R as [s D|s En Mv IH]; intros al F; [exists 0%nat; exact D|].
    (* the next action that is possible whatever the chain *)
    assert (Nx : exists k, forall c, is_Some (step (at_node s c) (al k)) /\ match al k with Caller | Handler _ _ => True | _ => False end).
    { destruct F as (_ & H2 & H3).
      assert (Same : forall c c', is_Some (step (at_node s c) Caller) -> is_Some (step (at_node s c') Caller)).
      { intros c c'. cbn [CardanoModel.step]. unfold caller. cbn [s_c s_current s_h s_requests at_node]. unfold recv, chan_of. cbn [s_chans at_node].
        destruct (s_c s); auto; [destruct (s_current s); [|eauto]; destruct (c_queue _); [destruct (c_tx _)|]; eauto|destruct (s_h s), (s_requests s); eauto|
        destruct (s_current s); [|eauto]; destruct (c_queue _); [destruct (c_tx _)|]; eauto]. }
      destruct (En []) as [C|C].
      - destruct (H2 0%nat) as (k & _ & Ek). exists k. intro c. rewrite Ek. split; [apply (Same [] c C)|exact Logic.I].
      - destruct (step (at_node s []) Caller) as [x|] eqn:Ec.
        + destruct (H2 0%nat) as (k & _ & Ek). exists k. intro c. rewrite Ek. split; [apply (Same [] c); rewrite Ec; eauto|exact Logic.I].
        + destruct (H3 0%nat) as (k & ok & late & _ & Ek). exists k. intro c. rewrite Ek. split; [|exact Logic.I].
          destruct (En c) as [K|K]; [|apply K]. apply (Same c []) in K. rewrite Ec in K. destruct K; discriminate. }
    destruct Nx as [k Nx].
    (* up to then, either nothing but the node's chain changes, or a task moves earlier *)
    assert (G : forall k s0 c al, s0 = at_node s c -> fair al -> (forall c, is_Some (step (at_node s c) (al k)) /\ match al k with Caller | Handler _ _ => True | _ => False end) ->
              exists n, done (fst (run s0 (first al n)))).
    { clear k al F Nx. induction k as [|k IHk]; intros s0 c al -> F Nx.
      - destruct (Nx c) as [[[s' o] Es] Ha]. destruct (IH c (al 0%nat) s' o Ha Es (fun n => al (1 + n)%nat) (fair_shift al 1 F)) as [n Hn].
        exists (S n). rewrite first_S. cbn [CardanoModel.run]. rewrite Es. destruct (run s' _) as [s2 o2] eqn:Er. cbn [fst] in Hn |- *. exact Hn.
      - assert (F' := fair_shift al 1 F). assert (Fa := proj1 F 0%nat).
        destruct (step (at_node s c) (al 0%nat)) as [[s' o]|] eqn:Es.
        + destruct (al 0%nat) as [from| | | | |ok late|c'] eqn:Ea; try contradiction.
          * destruct (IH c Caller s' o Logic.I Es _ F') as [n Hn]. exists (S n). rewrite first_S, Ea. cbn [CardanoModel.run]. rewrite Es. destruct (run s' _). exact Hn.
          * destruct (IH c (Handler ok late) s' o Logic.I Es _ F') as [n Hn]. exists (S n). rewrite first_S, Ea. cbn [CardanoModel.run]. rewrite Es. destruct (run s' _). exact Hn.
          * cbn [CardanoModel.step] in Es. injection Es as <- _. destruct (IHk (at_node s c') c' (fun n => al (1 + n)%nat) eq_refl F' Nx) as [n Hn].
            exists (S n). rewrite first_S, Ea. cbn [CardanoModel.run CardanoModel.step]. change (St c' _ _ _ _ _ _ _ _) with (at_node s c'). destruct (run (at_node s c') _). exact Hn.
        + destruct (IHk (at_node s c) c (fun n => al (1 + n)%nat) eq_refl F' Nx) as [n Hn]. exists (S n). rewrite first_S. cbn [CardanoModel.run]. rewrite Es. exact Hn. }
    destruct s as [n0 c0 cu op rq hp hd chs nx]. apply (G k _ n0 al eq_refl F Nx).
  Qed.

  Lemma inv_node g s v c : g = false -> inv g s v -> inv g (at_node s c) (looks v [NodeHas c]).
  Proof. intros -> I. apply (inv_step read_id decode cfg chk false s v (Node c) _ _ I); [discriminate|reflexivity]. Qed.

  Lemma pull_reaches : forall n1 n2 n3 s v, (left_ s < n1)%nat -> (pos1 (s_h s) < n2)%nat -> (pos2 (s_h s) < n3)%nat -> inv false s v -> reaches (fun s => s_c s = CIdle) s.
  Proof.
    induction n1 as [|n1 IH1]; [lia|]. induction n2 as [|n2 IH2]; [lia|]. induction n3 as [|n3 IH3]; [lia|]. intros s v L1 L2 L3 I.
    assert (D : s_c s = CIdle \/ s_c s <> CIdle) by (destruct (s_c s); [left; reflexivity|right; discriminate..]). destruct D as [D|D]; [apply reached, D|]. apply reaches_on.
    - intro c. apply (not_stuck false (at_node s c) _ (inv_node false s v c eq_refl I)). exact D.
    - intros c a s' o Ha Es. assert (Ic := inv_node false s v c eq_refl I). assert (I' := inv_step read_id decode cfg chk false _ _ a s' o Ic ltac:(discriminate) Es).
      destruct a as [|  | | | |ok late| ]; try contradiction; cbn [CardanoModel.step] in Es.
      + apply caller_nearer in Es as [Es|Es]; [apply reached, Es|]. change (left_ (at_node s c)) with (left_ s) in Es.
        apply (IH1 (S (pos1 (s_h s'))) (S (pos2 (s_h s'))) s' _ ltac:(lia) ltac:(lia) ltac:(lia) I').
      + destruct (handler (at_node s c) ok late) as [s1|] eqn:Eh; [|discriminate]. injection Es as <- <-. apply handler_nearer in Eh as (E1 & _ & E2).
        cbn [at_node s_c s_requests s_h] in E1, E2. unfold left_ in *. destruct E2 as [E2|[E2 [E3|[E3 E4]]]].
        * apply (IH1 (S (pos1 (s_h s1))) (S (pos2 (s_h s1))) s1 _ ltac:(rewrite E1; lia) ltac:(lia) ltac:(lia) I').
        * apply (IH2 (S (pos2 (s_h s1))) s1 _ ltac:(rewrite E1; lia) ltac:(lia) ltac:(lia) I').
        * apply (IH3 s1 _ ltac:(rewrite E1; lia) ltac:(lia) ltac:(lia) I').
  Qed.

  (** A pull returns: however the source was used before, in every fair schedule, whatever the node does. *)
  Theorem C38_pull_returns c0 l al : fair al -> exists n, s_c (fst (run (fst (run (initial c0) l)) (first al n))) = CIdle.
  Proof.
    intro F. apply (reaches_fair (fun s => s_c s = CIdle)); [auto| |exact F].
    eapply pull_reaches; [apply Nat.lt_succ_diag_r..|]. apply (reach read_id decode cfg chk false c0 l); discriminate.
  Qed.

  (** ** stop *)
  Definition stopped (s : state) : Prop := s_open s = false /\ s_c s = CIdle /\ s_current s = None.
  Lemma stop_reaches : forall n1 n2 n3 s v, (length (s_requests s) < n1)%nat -> (pos1 (s_h s) < n2)%nat -> (pos2 (s_h s) < n3)%nat -> inv false s v -> stopped s ->
    reaches (fun s => s_h s = HExit \/ s_h s = HDead) s.
  Proof.
    induction n1 as [|n1 IH1]; [lia|]. induction n2 as [|n2 IH2]; [lia|]. induction n3 as [|n3 IH3]; [lia|]. intros s v L1 L2 L3 I (Ho & Hi & Hn).
    assert (Hs : forall c ch m, send (at_node s c) ch m = SClosed).
    { intros c ch m. unfold send. destruct (c_rx (chan_of (at_node s c) ch)) eqn:Rx; [|reflexivity]. assert (X := i_rx _ _ _ _ _ _ _ I ch Rx). congruence. }
    destruct (s_h s) as [|f ch|f sk ch|p t sk ch|p t sk ch|bs ch|bs ch|m bs ch| |] eqn:Eh; try (apply reached; auto; fail); apply reaches_on.
    1, 3, 5, 7, 9, 11, 13, 15:
      intro c; right; intros ok late; cbn [CardanoModel.step]; (cut (is_Some (handler (at_node s c) ok late)); [intros [x ->]; eauto|]); unfold CardanoModel.handler; change (s_h (at_node s c)) with (s_h s); rewrite Eh; rewrite ?Hs; cbn [at_node s_h s_requests s_open s_handle s_node]; rewrite ?Ho;
      repeat match goal with |- context [match ?y with _ => _ end] => destruct y end; eauto.
    all: intros c a s' o Ha Es; assert (Ic := inv_node false s v c eq_refl I); assert (I' := inv_step read_id decode cfg chk false _ _ a s' o Ic ltac:(discriminate) Es);
      (destruct a as [|  | | | |ok late| ]; try contradiction; cbn [CardanoModel.step] in Es; [unfold caller in Es; cbn [at_node s_c] in Es; rewrite Hi in Es; discriminate|]);
      destruct (handler (at_node s c) ok late) as [s1|] eqn:Eg; [|discriminate]; injection Es as <- <-;
      (assert (St1 : stopped s1);
       [destruct (handler_nearer _ _ _ _ Eg) as (E1 & E0 & _); split; [rewrite E0; exact Ho|]; split; [rewrite E1; exact Hi|];
        unfold CardanoModel.handler in Eg; change (s_h (at_node s c)) with (s_h s) in Eg; rewrite Eh in Eg; rewrite ?Hs in Eg; cbn [at_node s_h s_requests s_open s_handle s_node] in Eg;
        repeat match type of Eg with context [match ?y with _ => _ end] => destruct y end; try discriminate; injection Eg as <-; try exact Hn;
        unfold die; cbn [s_current];
        (assert (Cs : forall l s, s_current (foldl (fun s r => close_tx s (snd (A := list point) r)) s l) = s_current s) by (clear; induction l as [|r l IH]; intro s; cbn [foldl]; [reflexivity|rewrite IH; reflexivity]));
        rewrite Cs; exact Hn|]);
      apply handler_nearer in Eg as (_ & _ & E2); cbn [at_node s_requests s_h] in E2; rewrite Eh in E2; destruct E2 as [E2|[E2 [E3|[E3 E4]]]];
      [apply (IH1 (S (pos1 (s_h s1))) (S (pos2 (s_h s1))) s1 _ ltac:(lia) ltac:(lia) ltac:(lia) I' St1)
      |apply (IH2 (S (pos2 (s_h s1))) s1 _ ltac:(lia) ltac:(lia) ltac:(lia) I' St1)
      |apply (IH3 s1 _ ltac:(lia) ltac:(lia) ltac:(lia) I' St1)].
  Qed.

  (** Once stop is called the handler leaves its loop, unless it has panicked, in every fair schedule. *)
  Theorem C38_stops c0 l s o al : step (fst (run (initial c0) l)) Stop = Some (s, o) -> fair al ->
    exists n, let p := s_h (fst (run s (first al n))) in p = HExit \/ p = HDead.
  Proof.
    intros H F. apply (reaches_fair (fun s => s_h s = HExit \/ s_h s = HDead)); [auto| |exact F].
    assert (I := reach read_id decode cfg chk false c0 l ltac:(discriminate) ltac:(discriminate)).
    assert (I' := inv_step read_id decode cfg chk false _ _ Stop s o I ltac:(discriminate) H).
    eapply stop_reaches; [apply Nat.lt_succ_diag_r..|exact I'|]. cbn [CardanoModel.step] in H.
    destruct (s_c (fst (run (initial c0) l))) eqn:Ec; try discriminate. injection H as <- _. unfold stopped. cbn [s_open s_c s_current].
    split; [reflexivity|]. split; [|reflexivity]. destruct (s_current _); cbn; exact Ec.
  Qed.

  (** A pull fails only if the handler has panicked, which it does only on a block that does not decode. *)
  Theorem C38_no_error c0 l : Forall good c0 -> Forall (fun a => match a with Node c => Forall good c | _ => True end) l -> GotErr ∉ trace c0 l.
  Proof.
    intros Hg Hl Er. apply elem_of_list_split in Er as (t1 & t2 & E). apply run_at in E as (l1 & x & l2 & s' & -> & T & X).
    apply Forall_app in Hl as [Hl _].
    set (ok := fun s => Forall good (s_node s) /\ Forall good (blocks_at (s_h s)) /\ s_h s <> HDead).
    assert (K : ok (fst (run (initial c0) l1))).
    { assert (G : forall l s, Forall (fun a => match a with Node c => Forall good c | _ => True end) l -> ok s -> ok (fst (run s l))).
      { clear - ok. induction l as [|a l IH]; intros s Hl K; cbn [CardanoModel.run]; [exact K|]. inversion Hl as [|? ? Ha Hl']; subst.
        destruct (step s a) as [[s' o]|] eqn:Es; [|apply IH; assumption]. destruct (run s' l) as [s2 o2] eqn:Er. cbn [fst]. change s2 with (fst (s2, o2)). rewrite <- Er. apply IH; [exact Hl'|].
        clear IH Hl' Hl Er. destruct K as (K1 & K2 & K3). destruct a as [from| | | | |ok' late|c]; cbn [CardanoModel.step] in Es.
        - destruct (s_c s); try discriminate. destruct (s_open s); [|discriminate]. injection Es as <- _. split; auto.
        - assert (Q : s_node s' = s_node s /\ s_h s' = s_h s); [|destruct Q as [Q1 Q2]; unfold ok; rewrite Q1, Q2; auto].
          assert (Rv : forall ch m s1, recv s ch = RMsg m s1 -> s_node s1 = s_node s /\ s_h s1 = s_h s).
          { clear. intros ch m s1 H. unfold recv in H. destruct (c_queue _); [destruct (c_tx _); discriminate|]. injection H as _ <-. auto. }
          unfold caller in Es. destruct (s_c s); [discriminate| | |].
          + destruct (s_current s) as [ch|]; [|injection Es as <- _; auto]. destruct (recv s ch) eqn:Er; [|injection Es as <- _; auto|discriminate]. injection Es as <- _. apply Rv in Er. exact Er.
          + destruct (s_h s) eqn:Hh; try (injection Es as <- _; auto); (destruct (s_requests s); [|discriminate]; injection Es as <- _; destruct (s_current s); auto).
          + destruct (s_current s) as [ch|]; [|discriminate]. destruct (recv s ch) eqn:Er; [|injection Es as <- _; auto|discriminate]. injection Es as <- _. apply Rv in Er. exact Er.
        - destruct (s_c s); [discriminate| | |]; injection Es as <- _; split; auto.
        - destruct (s_c s); try discriminate; injection Es as <- _; unfold ok; destruct (s_current s); cbn; auto.
        - destruct (s_c s); try discriminate; injection Es as <- _; unfold ok; destruct (s_current s); cbn; auto.
        - destruct (handler s ok' late) as [s1|] eqn:Eh; [|discriminate]. injection Es as <- _. unfold CardanoModel.handler in Eh.
          destruct (s_h s) as [|f ch|f sk ch|p t sk ch|p t sk ch|bs ch|bs ch|m bs ch| |] eqn:Hh; try discriminate.
          + destruct (s_requests s) as [|[f ch] r]; [destruct (s_open s); [discriminate|]|]; injection Eh as <-; unfold ok; cbn; repeat split; auto; discriminate.
          + destruct (_ || _); injection Eh as <-; unfold ok; cbn; [destruct (bool_decide _)|]; repeat split; auto; discriminate.
          + repeat match type of Eh with context [match ?y with _ => _ end] => destruct y eqn:? end; try discriminate; injection Eh as <-; unfold ok; cbn; repeat split; auto; discriminate.
          + destruct late; [|injection Eh as <-; unfold ok; cbn; repeat split; auto; discriminate].
            destruct (send s ch _) eqn:Es; [|injection Eh as <-; unfold ok; cbn; repeat split; auto; discriminate|discriminate].
            apply send_same in Es as (_ & _ & _ & En). injection Eh as <-. unfold ok. cbn. rewrite En. repeat split; auto; discriminate.
          + destruct ok'; [|injection Eh as <-; unfold ok; cbn; repeat split; auto; discriminate].
            destruct (range _ _ _) as [bs|] eqn:Er; [|injection Eh as <-; unfold ok; cbn; repeat split; auto; discriminate].
            apply range_spec in Er. apply (stretch_good decode cfg chk) in Er; [|exact K1]. injection Eh as <-. unfold ok. destruct sk; cbn; repeat split; auto; discriminate.
          + destruct ok'; injection Eh as <-; unfold ok; cbn; repeat split; auto; try discriminate. cbn [blocks_at] in K2. destruct K2; [constructor|assumption].
          + destruct ok'; [|injection Eh as <-; unfold ok; cbn; repeat split; auto; discriminate]. cbn [blocks_at] in K2.
            destruct bs as [|b bs]; [injection Eh as <-; unfold ok; cbn; repeat split; auto; discriminate|]. inversion K2 as [|? ? [x Kb] K4]; subst. rewrite Kb in Eh. injection Eh as <-. unfold ok. cbn. repeat split; auto; discriminate.
          + destruct (send s ch _) eqn:Es; [|injection Eh as <-; unfold ok; cbn; repeat split; auto; discriminate|discriminate].
            apply send_same in Es as (_ & _ & _ & En). injection Eh as <-. unfold ok. cbn. rewrite En. repeat split; auto; discriminate.
        - injection Es as <- _. unfold ok. cbn. auto. }
      apply G; [exact Hl|]. unfold ok. cbn. repeat split; [exact Hg|constructor|discriminate]. }
    assert (I := reach read_id decode cfg chk false c0 l1 ltac:(discriminate) ltac:(discriminate)). destruct K as (_ & _ & K).
    set (s := fst (run (initial c0) l1)) in *. destruct x; cbn [CardanoModel.step] in X.
    all: try (repeat match type of X with context [match ?y with _ => _ end] => destruct y end; discriminate).
    unfold caller in X. destruct (s_c s) as [|from|from|] eqn:Ec; [discriminate| | |].
    - repeat match type of X with context [match ?y with _ => _ end] => destruct y end; discriminate.
    - destruct (s_h s) eqn:Eh; try (destruct (s_requests s); discriminate); [|contradiction].
      assert (Y := i_exit _ _ _ _ _ _ _ I Eh). rewrite (i_open _ _ _ _ _ _ _ I) in Y; [discriminate|congruence].
    - repeat match type of X with context [match ?y with _ => _ end] => destruct y end; discriminate.
  Qed.
End Live.

(** ** cases *)
Definition ex_fair (n : nat) : action := if Nat.even n then Caller else Handler true true.
Example C38_fair_case : fair ex_fair.
Proof.
  split; [intro n; unfold ex_fair; destruct (Nat.even n); exact Logic.I|]. split; intro n.
  - exists (2 * n)%nat. split; [lia|]. unfold ex_fair. rewrite Nat.even_mul. reflexivity.
  - exists (2 * n + 1)%nat, true, true. split; [lia|]. unfold ex_fair. rewrite Nat.even_add, Nat.even_mul. reflexivity.
Qed.
(** a pull that waits for a request that waits for one that was given up *)
Example C38_pending_case : let s := fst (run hex_decode ex_decode (ex_cfg 0) true (initial [ex_A; ex_B; ex_C])
    [Pull [BlockHeader 10 "41"]; Caller; Caller; h_ok; h_ok; h_ok; Cancel; Clear; Pull [BlockHeader 10 "41"]; Caller; Caller]) in
  s_c s = CWait /\ s_h s = HTip (NPoint 10 "A") (NPoint 12 "C") true 0 /\ length (s_requests s) = 1%nat /\
  s_c (fst (run hex_decode ex_decode (ex_cfg 0) true s (first ex_fair 12))) = CWait /\
  s_c (fst (run hex_decode ex_decode (ex_cfg 0) true s (first ex_fair 40))) = CIdle.
Proof. vm_compute. auto. Qed.
Example C38_stop_case : exists s o, step hex_decode ex_decode (ex_cfg 0) true (fst (run hex_decode ex_decode (ex_cfg 0) true (initial [ex_A; ex_B; ex_C])
    [Pull [BlockHeader 10 "41"]; Caller; Caller; h_ok; h_ok; h_ok; Cancel])) Stop = Some (s, o) /\ s_h s = HTip (NPoint 10 "A") (NPoint 12 "C") true 0 /\
  s_h (fst (run hex_decode ex_decode (ex_cfg 0) true s (first ex_fair 20))) = HExit.
Proof. do 2 eexists. split; [vm_compute; reflexivity|]. vm_compute. auto. Qed.
Example C38_no_error_case : Forall (good ex_decode (ex_cfg 0) true) [ex_A; ex_B; ex_C] /\ ~ good ex_decode (ex_cfg 0) true (ex_block 9 "Z").
Proof. split; [repeat constructor; eexists; reflexivity|]. intros [x H]. discriminate H. Qed.

Definition C38_live_all := (C38_pull_returns, C38_stops, C38_no_error).
Print Assumptions C38_live_all.
