(** C38, what has to happen: if the node keeps its chain and its answers are no errors, a caller who pulls again and again and resumes
    from the last block comes to the tip of the node's chain, for every fair schedule of the two tasks. *)
From Coq Require Import NArith Lia.
From stdpp Require Import prelude numbers gmap strings list.
From Verif Require Import TimeModel UtilModel CardanoModel CardanoSpec CardanoProofs CardanoProps.
From Verif Require CardanoLiveProps StackRunProofs.
From Verif Require Import StackLiveProofs.
Local Open Scope N_scope.

(** A move that may depend on what was seen so far, as the points of a pull do. *)
Notation move := (list seen -> action).
(** an endless schedule in which the caller pulls again and again, from whatever points, and each task runs again and again; the node
    keeps its chain and its answers are no errors *)
Definition live_action (a : action) : Prop := match a with Pull _ | Caller => True | Handler ok _ => ok = true | _ => False end.
Definition pulling (al : nat -> move) : Prop :=
  (forall n t, live_action (al n t)) /\
  (forall n, exists m, (n <= m)%nat /\ forall t, exists f, al m t = Pull f) /\
  (forall n, exists m, (n <= m)%nat /\ forall t, al m t = Caller) /\
  (forall n, exists m, (n <= m)%nat /\ forall t, exists late, al m t = Handler true late).

Section C38.
  Context (read_id : string -> option string) (decode : string -> option mblock) (cfg : config) (chk : bool).
  Notation event_of := (from_serialized_block decode cfg chk).
  Notation step := (step read_id decode cfg chk).
  Notation run := (run read_id decode cfg chk).
  Notation inv := (inv read_id decode cfg chk).
  Notation good := (good decode cfg chk).
  Notation clean := (clean decode cfg chk).
  Notation trace c0 l := (snd (run (initial c0) l)).
  Notation first := CardanoLiveProps.first.

  (** the moves one after the other, from a state and what was seen so far; a move that is not possible is passed over *)
  Fixpoint play (x : state * list seen) (ms : list move) : state * list seen :=
    match ms with
    | [] => x
    | a :: ms => play (match step (fst x) (a (snd x)) with Some (s, o) => (s, snd x ++ o) | None => x end) ms
    end.
  Lemma play_app ms ms' : forall x, play x (ms ++ ms') = play (play x ms) ms'.
  Proof. induction ms as [|a ms IH]; intro x; [reflexivity|]. cbn [app play]. apply IH. Qed.
  Lemma play_run (P : action -> Prop) c0 ms : (forall a t, a ∈ ms -> P (a t)) -> forall l, exists l', play (run (initial c0) l) ms = run (initial c0) (l ++ l') /\ Forall P l'.
  Proof.
    induction ms as [|a ms IH]; intros HP l; cbn [play]; [exists []; rewrite app_nil_r; auto|].
    assert (HP' : forall a t, a ∈ ms -> P (a t)) by (intros b t Hb; apply HP; by right).
    destruct (run (initial c0) l) as [s o] eqn:E. cbn [fst snd]. destruct (step s (a o)) as [[s' o']|] eqn:Es.
    - rewrite <- (StackRunProofs.run_snoc _ _ _ _ _ _ _ _ _ _ _ E Es). destruct (IH HP' (l ++ [a o])) as (l' & -> & Hl'). exists (a o :: l'). rewrite <- app_assoc. split; [reflexivity|].
      constructor; [apply HP; left|done].
    - rewrite <- E. by apply IH.
  Qed.

  Inductive reaches (P : state * list seen -> Prop) (x : state * list seen) : Prop :=
  | r_done : P x -> reaches P x
  | r_go : (forall f, is_Some (step (fst x) (Pull f))) \/ is_Some (step (fst x) Caller) \/ (forall late, is_Some (step (fst x) (Handler true late))) ->
      (forall a s' o, live_action a -> step (fst x) a = Some (s', o) -> reaches P (s', snd x ++ o)) -> reaches P x.
  Lemma reaches_fair P x al : pulling al -> reaches P x -> forall m, exists n, P (play x (map al (seq m n))).
  Proof.
    intros (La & Lp & Lc & Lh). induction 1 as [x Hx|x En _ IH]; intro m; [exists 0%nat; exact Hx|].
    assert (X : exists m', (m <= m')%nat /\ is_Some (step (fst x) (al m' (snd x)))).
    { destruct En as [En|[En|En]].
      - destruct (Lp m) as (m' & Hm & E). exists m'. destruct (E (snd x)) as [f ->]. auto.
      - destruct (Lc m) as (m' & Hm & E). exists m'. rewrite E. auto.
      - destruct (Lh m) as (m' & Hm & E). exists m'. destruct (E (snd x)) as [late ->]. auto. }
    assert (Go : forall m, is_Some (step (fst x) (al m (snd x))) -> exists n, P (play x (map al (seq m n)))).
    { intros i [[s' o] E]. destruct (IH _ _ _ (La i (snd x)) E (Datatypes.S i)) as [n Hn]. exists (Datatypes.S n). cbn [seq map play]. rewrite E. exact Hn. }
    destruct X as (m' & Hm & S). remember (m' - m)%nat as j eqn:Ej. revert m Hm Ej. induction j as [|j IHj]; intros m Hm Ej.
    - assert (m' = m) as -> by lia. by apply Go.
    - destruct (step (fst x) (al m (snd x))) as [[s' o]|] eqn:E; [apply Go; rewrite E; eauto|].
      destruct (IHj (Datatypes.S m)) as [n Hn]; [lia|lia|]. exists (Datatypes.S n). cbn [seq map play]. rewrite E. exact Hn.
  Qed.

  (** a request was made after t0 and has just come to its end *)
  Definition just_ended (t0 : list seen) (x : state * list seen) : Prop :=
    exists u f t2 e, snd x = (t0 ++ u) ++ Asked f :: t2 ++ [e] /\ Forall not_asked t2 /\ (e = Ended \/ e = GotNone).
  Definition live_inv (t0 : list seen) (p : bool) (x : state * list seen) : Prop :=
    (exists v, inv true (fst x) v) /\ s_open (fst x) = true /\
    if p then s_current (fst x) <> None /\ (forall f, s_c (fst x) <> CSend f) /\
              exists u1 f u2, snd x = (t0 ++ u1) ++ Asked f :: u2 /\ Forall not_asked u2
    else exists u, snd x = t0 ++ u.
  Definition mA (p : bool) (s : state) : nat := let B := length (s_node s) in (if p then 0 else S (S B)) + todo B s.
  Definition lower (p p' : bool) (s s' : state) : Prop :=
    (mA p' s' < mA p s)%nat \/ ((mA p' s' <= mA p s)%nat /\
    ((posc (s_c s') < posc (s_c s))%nat \/ (posc (s_c s') = posc (s_c s) /\
     ((length (s_requests s') < length (s_requests s))%nat \/
     (length (s_requests s') = length (s_requests s) /\
      ((CardanoLiveProps.pos1 (s_h s') < CardanoLiveProps.pos1 (s_h s))%nat \/
       (CardanoLiveProps.pos1 (s_h s') = CardanoLiveProps.pos1 (s_h s) /\ (CardanoLiveProps.pos2 (s_h s') < CardanoLiveProps.pos2 (s_h s))%nat))))))).

  Lemma live_enabled t0 p x : live_inv t0 p x ->
    (forall f, is_Some (step (fst x) (Pull f))) \/ is_Some (step (fst x) Caller) \/ (forall late, is_Some (step (fst x) (Handler true late))).
  Proof.
    intros ([v I] & O & _). assert (D : s_c (fst x) = CIdle \/ s_c (fst x) <> CIdle) by (destruct (s_c (fst x)); auto; by right). destruct D as [E|E].
    - left. intro f. cbn. rewrite E, O. eauto.
    - right. destruct (CardanoLiveProps.not_stuck _ _ _ _ _ _ _ I E) as [H|H]; auto.
  Qed.
  Lemma live_move t0 p x a s' o : live_inv t0 p x -> live_action a -> step (fst x) a = Some (s', o) ->
    just_ended t0 (s', snd x ++ o) \/ exists p', live_inv t0 p' (s', snd x ++ o) /\ lower p p' (fst x) s'.
  Proof.
    intros ([v I] & O & Hp) La E.
    assert (I' : exists v, inv true s' v). { eexists. eapply inv_step; [exact I| |exact E]. intros _. destruct a; try contradiction; exact La. }
    assert (Fin : forall e, o = [e] -> e = Ended \/ e = GotNone -> p = true -> just_ended t0 (s', snd x ++ o)).
    { intros e -> He ->. destruct Hp as (_ & _ & u1 & f & u2 & Hu & Nt). exists u1, f, u2, e. cbn [snd]. rewrite Hu, <- app_assoc. auto. }
    assert (Add : Forall not_asked o -> s_current s' = s_current (fst x) -> (forall f, s_c s' = CSend f -> exists f', s_c (fst x) = CSend f') -> s_open s' = true -> live_inv t0 p (s', snd x ++ o)).
    { intros No Cu Cs Op. split; [exact I'|]. split; [exact Op|]. cbn [fst snd]. destruct p.
      - destruct Hp as (H1 & H2 & u1 & f & u2 & Hu & Nt). split; [by rewrite Cu|]. split; [intros f' X; destruct (Cs f' X) as [f2 X2]; by destruct (H2 f2)|].
        exists u1, f, (u2 ++ o). split; [rewrite Hu, <- app_assoc; reflexivity|]. by apply Forall_app.
      - destruct Hp as [u ->]. exists (u ++ o). by rewrite app_assoc. }
    destruct a as [f| | | | |ok late|c]; try contradiction; cbn [CardanoModel.step] in E.
    - destruct (s_c (fst x)) eqn:Ec; try discriminate. rewrite O in E. injection E as <- <-. right. exists p. split.
      + apply Add; [repeat constructor|reflexivity|cbn; discriminate|exact O].
      + right. split; [apply Nat.eq_le_incl; reflexivity|]. left. rewrite Ec. cbn. lia.
    - pose proof (caller_open _ _ _ _ E) as Op. rewrite O in Op. destruct (caller_todo _ _ _ _ _ _ _ _ I E) as (N & _ & Cs).
      destruct Cs as [(f & C1 & C2 & T & Cu & Ho)|[(f & f' & C1 & C2 & T & Cu & Ho)|[(m & C1 & C1' & C2 & T & Cu & Ho)|(C1 & C2 & T & Cu & Ho)]]].
      + destruct p.
        * destruct Ho as [[X _]|Ho]; [by destruct Hp|]. left. eapply Fin; eauto.
        * right. exists false. split.
          -- split; [exact I'|]. split; [exact Op|]. destruct Hp as [u Hu]. exists (u ++ o). cbn [snd]. by rewrite Hu, app_assoc.
          -- right. unfold mA. rewrite N. split; [lia|]. left. rewrite C1, C2. cbn. lia.
      + destruct p; [by destruct Hp as (_ & X & _); destruct (X f)|]. right. exists true. split.
        * split; [exact I'|]. split; [exact Op|]. cbn [fst snd]. rewrite C2. split; [done|]. split; [discriminate|]. destruct Hp as [u Hu]. exists u, f', []. split; [rewrite Hu, Ho; reflexivity|constructor].
        * left. unfold mA. rewrite N. lia.
      + right. exists p. split.
        * apply Add; [subst o; repeat constructor|exact Cu|rewrite C2; discriminate|exact Op].
        * left. unfold mA. rewrite N. destruct p; lia.
      + destruct p; [left; eapply Fin; eauto|]. right. exists false. split.
        * split; [exact I'|]. split; [exact Op|]. destruct Hp as [u Hu]. exists (u ++ o). cbn [snd]. by rewrite Hu, app_assoc.
        * right. unfold mA. rewrite N. split; [lia|]. left. rewrite C1, C2. cbn. lia.
    - cbn in La. subst ok. destruct (handler _ _ _ _ (fst x) true late) as [s1|] eqn:Eh; [|discriminate]. injection E as -> <-.
      destruct (handler_todo _ _ _ _ _ _ _ _ I Eh) as (T & N & Cu). destruct (CardanoLiveProps.handler_nearer _ _ _ _ _ _ _ _ Eh) as (H1 & H2 & H3).
      right. exists p. split.
      + apply Add; [constructor|exact Cu|rewrite H1; eauto|by rewrite H2].
      + right. unfold mA. rewrite N, H1. split; [lia|]. right. split; [reflexivity|]. exact H3.
  Qed.
  Lemma live_reaches t0 : forall p x, live_inv t0 p x -> reaches (just_ended t0) x.
  Proof.
    enough (X : forall a c r y z p x, live_inv t0 p x -> (mA p (fst x) <= a)%nat -> (posc (s_c (fst x)) <= c)%nat -> length (s_requests (fst x)) = r ->
      CardanoLiveProps.pos1 (s_h (fst x)) = y -> CardanoLiveProps.pos2 (s_h (fst x)) = z -> reaches (just_ended t0) x) by (intros p x Lx; eapply X; eauto).
    induction a as [a IHa] using lt_wf_ind. induction c as [c IHc] using lt_wf_ind. induction r as [r IHr] using lt_wf_ind. induction y as [y IHx] using lt_wf_ind. induction z as [z IHy] using lt_wf_ind.
    intros p x Lx Ha Hc Hr Hx Hy. apply r_go; [eapply live_enabled; eauto|]. intros act s' o La E.
    destruct (live_move _ _ _ _ _ _ Lx La E) as [D|(p' & Lx' & Low)]; [by apply r_done|].
    destruct Low as [Low|[Le [Low|[Eq [Low|[Eq2 [Low|[Eq3 Low]]]]]]]].
    - eapply (IHa (mA p' s')); eauto; cbn [fst]; lia.
    - eapply (IHc (posc (s_c s'))); eauto; cbn [fst]; lia.
    - eapply (IHr (length (s_requests s'))); eauto; cbn [fst]; lia.
    - eapply (IHx (CardanoLiveProps.pos1 (s_h s'))); eauto; cbn [fst]; lia.
    - eapply (IHy (CardanoLiveProps.pos2 (s_h s'))); eauto; cbn [fst]; lia.
  Qed.

  Lemma step_open s a s' o : step s a = Some (s', o) -> a <> Stop -> s_open s = true -> s_open s' = true.
  Proof.
    intros E Ha O. destruct a as [f| | | | |ok late|c]; cbn [CardanoModel.step] in E.
    - destruct (s_c s); try discriminate. rewrite O in E. by injection E as <- _.
    - apply caller_open in E. congruence.
    - destruct (s_c s); try discriminate; by injection E as <- _.
    - destruct (s_c s); try discriminate. injection E as <- _. by destruct (s_current s).
    - done.
    - destruct (handler _ _ _ _ _ _ _) as [s1|] eqn:Eh; [|discriminate]. injection E as -> _. apply CardanoLiveProps.handler_nearer in Eh as (_ & -> & _). exact O.
    - by injection E as <- _.
  Qed.
  Lemma run_open l : forall s, Stop ∉ l -> s_open s = true -> s_open (fst (run s l)) = true.
  Proof.
    induction l as [|a l IH]; intros s Hl O; [exact O|]. apply not_elem_of_cons in Hl as [Ha Hl]. cbn [CardanoModel.run]. destruct (step s a) as [[s' o]|] eqn:E; [|by apply IH].
    specialize (IH s' Hl (step_open _ _ _ _ E ltac:(done) O)). by destruct (run s' l).
  Qed.

  Lemma live_quiet ls : Forall live_action ls -> forall s, chains (snd (run s ls)) = [] /\ s_node (fst (run s ls)) = s_node s.
  Proof.
    induction 1 as [|a ls Ha _ IH]; intro s; [split; reflexivity|]. cbn [CardanoModel.run]. destruct (step s a) as [[s1 o]|] eqn:Es; [|apply IH].
    specialize (IH s1) as [IH1 IH2]. destruct (run s1 ls) as [s2 o2]. cbn [fst snd] in *. rewrite chains_app, IH1, app_nil_r, IH2.
    destruct a as [f'| | | | |ok late|c]; try contradiction; cbn [CardanoModel.step] in Es.
    - destruct (s_c s); try discriminate. destruct (s_open s); [|discriminate]. by injection Es as <- <-.
    - split; [destruct (StackRunProofs.caller_cases _ _ _ _ Es) as [(f' & _ & _ & [-> | ->])|[(f' & _ & _ & ->)|(_ & _ & y & ans & -> & _ & Hc & _)]]; done|].
      unfold caller in Es. destruct (s_c s) as [|f|f|]; [discriminate| | |].
      + destruct (s_current s) as [ch|]; [|by injection Es as <- _]. unfold recv in Es. destruct (c_queue _); [destruct (c_tx _); [discriminate|]|]; by injection Es as <- _.
      + destruct (s_h s); try (by injection Es as <- _); (destruct (s_requests s); [|discriminate]; injection Es as <- _; cbn; by destruct (s_current s)).
      + destruct (s_current s) as [ch|]; [|discriminate]. unfold recv in Es. destruct (c_queue _); [destruct (c_tx _); [discriminate|]|]; by injection Es as <- _.
    - destruct (handler _ _ _ _ _ _ _) as [s3|] eqn:Eh; [|discriminate]. injection Es as -> <-. split; [reflexivity|].
      clear - Eh. unfold handler in Eh.
        repeat match type of Eh with
           | context [match send ?a ?b ?c with _ => _ end] => let E := fresh in destruct (send a b c) eqn:E; [apply CardanoLiveProps.send_same in E as (_ & _ & _ & E)| |]
           | Some (die ?s ?ch) = _ => injection Eh as <-; unfold die; cbn [s_node]; apply (CardanoLiveProps.closes_same (s_requests (close_tx s ch)) (close_tx s ch))
           | Some _ = Some _ => injection Eh as <-; first [assumption|reflexivity]
           | None = Some _ => discriminate
           | context [match ?x with _ => _ end] => destruct x
           end.
  Qed.
  Lemma run_app l l' : forall s, run s (l ++ l') = (let (s1, o1) := run s l in let (s2, o2) := run s1 l' in (s2, o1 ++ o2)).
  Proof.
    induction l as [|a l IH]; intro s; cbn [app CardanoModel.run]; [by destruct (run s l')|]. destruct (step s a) as [[s' o]|]; [|apply IH]. rewrite IH.
    destruct (run s' l) as [s1 o1], (run s1 l') as [s2 o2]. by rewrite app_assoc.
  Qed.

  (** Whatever happened before, short of stop: if the node keeps its chain and answers, the caller pulls again and again, from whatever
      points, and each task runs again and again, then a request made from now on comes to its end. *)
  Theorem C38_request_ends c0 l al : Forall good c0 -> Forall clean l -> Stop ∉ l -> pulling al ->
    exists n u f t2 e, snd (play (run (initial c0) l) (map al (seq 0 n))) = (trace c0 l ++ u) ++ Asked f :: t2 ++ [e] /\
      Forall not_asked t2 /\ (e = Ended \/ e = GotNone) /\ chains (u ++ Asked f :: t2) = [].
  Proof.
    intros Hg Hl Hs Pl. set (x := run (initial c0) l).
    assert (R : reaches (just_ended (snd x)) x).
    { apply (live_reaches _ false). split; [eexists; apply (reach read_id decode cfg chk true c0 l); auto|]. split; [by apply run_open|]. exists []. by rewrite app_nil_r. }
    destruct (reaches_fair _ _ _ Pl R 0) as (n & u & f & t2 & e & E & Nt & He). exists n, u, f, t2, e.
    split; [done|]. split; [done|]. split; [done|].
    destruct (play_run live_action c0 (map al (seq 0 n))) with (l := l) as (l' & El & Ll).
    { intros a t Ha. apply elem_of_list_fmap in Ha as (i & -> & _). apply Pl. }
    unfold x in E. rewrite El, run_app in E. destruct (run (initial c0) l) as [s1 o1]. cbn [snd fst] in E.
    destruct (live_quiet l' Ll s1) as [Ch _]. destruct (run s1 l') as [s2 o2]. cbn [snd] in E, Ch. rewrite <- app_assoc in E. apply app_inv_head in E. subst o2.
    change (u ++ Asked f :: t2 ++ [e]) with (u ++ (Asked f :: t2) ++ [e]) in Ch. rewrite app_assoc, chains_app in Ch. by apply app_eq_nil in Ch as [Ch _].
  Qed.

  (** ** a caller who resumes from the last block it got *)
  (** its pulls, the tasks, the node, whose chain grows, and pulls that are dropped *)
  Inductive turn := TPull | TCaller | TAnswer (late : bool) | TGrow (bs : list nblock) | TDrop.
  Definition turn_move (start : point) (c0 : list nblock) (u : turn) : move := fun t =>
    match u with
    | TPull => Pull [resume start t]
    | TCaller => Caller
    | TAnswer late => Handler true late
    | TGrow bs => Node (in_force c0 t ++ bs)
    | TDrop => Cancel
    end.
  Definition turning (al : nat -> turn) : Prop :=
    (forall n, match al n with TPull | TCaller | TAnswer _ => True | _ => False end) /\
    (forall n, exists m, (n <= m)%nat /\ al m = TPull) /\
    (forall n, exists m, (n <= m)%nat /\ al m = TCaller) /\
    (forall n, exists m late, (n <= m)%nat /\ al m = TAnswer late).

  Lemma called_by start c0 us : forall x, (forall a f b, snd x = a ++ Called f :: b -> f = [resume start a]) ->
    let y := play x (map (turn_move start c0) us) in forall a f b, snd y = a ++ Called f :: b -> f = [resume start a].
  Proof.
    induction us as [|u us IH]; intros x Hx; cbn [map play]; [exact Hx|]. apply IH.
    destruct (step (fst x) _) as [[s o]|] eqn:Es; [|exact Hx]. cbn [snd]. intros a f b E.
    destruct (step_seen _ _ _ _ _ _ _ _ Es) as [-> |[y ->]]; [rewrite app_nil_r in E; by eapply Hx|].
    destruct b as [|z b _] using rev_ind.
    - apply app_inj_tail in E as [<- ->]. destruct u; cbn [turn_move CardanoModel.step] in Es.
      + destruct (s_c (fst x)); try discriminate. destruct (s_open (fst x)); [|discriminate]. injection Es as _ <-. reflexivity.
      + destruct (StackRunProofs.caller_cases _ _ _ _ Es) as [(f' & _ & _ & [X|X])|[(f' & _ & _ & X)|(_ & _ & z & ans & X & _ & _ & X2 & _)]]; try discriminate.
        injection X as <-. discriminate.
      + destruct (handler _ _ _ _ _ _ _); [|discriminate]. discriminate.
      + discriminate.
      + destruct (s_c (fst x)); discriminate.
    - rewrite app_comm_cons, app_assoc in E. apply app_inj_tail in E as [E _]. by eapply Hx.
  Qed.
  Lemma quiet_step s a s' o : live_action a \/ a = Cancel -> step s a = Some (s', o) -> chains o = [] /\ s_node s' = s_node s.
  Proof.
    intros [H| ->] Es.
    - pose proof (live_quiet [a] ltac:(constructor; [exact H|constructor]) s) as Q. cbn [CardanoModel.run] in Q. rewrite Es in Q. cbn [fst snd] in Q. rewrite app_nil_r in Q. exact Q.
    - cbn [CardanoModel.step] in Es. destruct (s_c s); try discriminate; injection Es as <- <-; split; reflexivity.
  Qed.
  Lemma growing_snoc_quiet c0 t o : growing c0 t -> chains o = [] -> growing c0 (t ++ o).
  Proof.
    intros G Ch t1 c t2 E. assert (Nc : NodeHas c ∉ o).
    { intro H. apply elem_of_list_split in H as (a & b & ->). rewrite chains_app in Ch. by apply app_eq_nil in Ch as [_ Ch]. }
    apply app_eq_inv in E as [(k & Hk1 & Hk2)|(k & Hk1 & Hk2)].
    - destruct k as [|y k]; [cbn in Hk2; subst o; destruct Nc; left|]. injection Hk2 as <- ->. by eapply G.
    - subst o. destruct Nc. apply elem_of_app. right. left.
  Qed.
  Lemma grows_by start c0 us : forall x, s_node (fst x) = in_force c0 (snd x) -> growing c0 (snd x) ->
    let y := play x (map (turn_move start c0) us) in s_node (fst y) = in_force c0 (snd y) /\ growing c0 (snd y) /\ s_node (fst x) `prefix_of` s_node (fst y).
  Proof.
    induction us as [|u us IH]; intros x Hn Hx; cbn [map play]; [auto|].
    destruct (step (fst x) _) as [[s o]|] eqn:Es; [|by apply IH].
    assert (K : s_node s = in_force c0 (snd x ++ o) /\ growing c0 (snd x ++ o) /\ s_node (fst x) `prefix_of` s_node s).
    { assert (D : (exists bs, u = TGrow bs) \/ live_action (turn_move start c0 u (snd x)) \/ turn_move start c0 u (snd x) = Cancel) by (destruct u; cbn; eauto).
      destruct D as [[bs ->]|D].
      - cbn [turn_move CardanoModel.step] in Es. injection Es as <- <-. cbn [s_node]. rewrite in_force_app. split; [reflexivity|]. split; [|rewrite Hn; by exists bs].
        intros t1 c t2 E. destruct t2 as [|z t2 _] using rev_ind.
        + apply app_inj_tail in E as [<- E]. injection E as <-. by exists bs.
        + rewrite app_comm_cons, app_assoc in E. apply app_inj_tail in E as [E _]. by eapply Hx.
      - destruct (quiet_step _ _ _ _ D Es) as [Q1 Q2]. rewrite in_force_app. split; [unfold in_force at 1; rewrite Q1, Q2; exact Hn|]. split; [|rewrite Q2; reflexivity].
        by apply growing_snoc_quiet. }
    destruct K as (K1 & K2 & K3). destruct (IH (s, snd x ++ o) K1 K2) as (J1 & J2 & J3). split; [exact J1|]. split; [exact J2|]. by etrans.
  Qed.

  Lemma asked_before tr m : m ∈ got tr -> (exists a f b c, tr = a ++ Asked f :: b ++ c /\ Forall not_asked b /\ m ∈ got b) \/ (exists a b, tr = a ++ b /\ Forall not_asked a /\ m ∈ got a).
  Proof.
    induction tr as [|x tr IH] using rev_ind; intro H; [inversion H|]. unfold got in H. rewrite bind_app in H. apply elem_of_app in H as [H|H].
    - destruct (IH H) as [(a & f & b & c & -> & Nb & Hb)|(a & b & -> & Na & Ha)].
      + left. exists a, f, b, (c ++ [x]). rewrite <- app_assoc. cbn. by rewrite <- app_assoc.
      + right. exists a, (b ++ [x]). by rewrite app_assoc.
    - assert (Nx : not_asked x) by (destruct x; try exact Logic.I; cbn in H; inversion H).
      assert (Last : (exists a f b, tr = a ++ Asked f :: b /\ Forall not_asked b) \/ Forall not_asked tr).
      { clear. induction tr as [|y tr IH] using rev_ind; [right; constructor|].
        assert (D : (exists f, y = Asked f) \/ not_asked y) by (destruct y; cbn; eauto). destruct D as [[f ->]|D]; [left; exists tr, f, []; auto|].
        destruct IH as [(a & f & b & -> & Nb)|N].
        - left. exists a, f, (b ++ [y]). split; [by rewrite <- app_assoc|]. apply Forall_app. auto.
        - right. apply Forall_app. auto. }
      destruct Last as [(a & f & b & -> & Nb)|N].
      + left. exists a, f, (b ++ [x]), []. rewrite app_nil_r. split; [by rewrite <- app_assoc|]. split; [apply Forall_app; auto|].
        unfold got. rewrite bind_app. apply elem_of_app. by right.
      + right. exists (tr ++ [x]), []. rewrite app_nil_r. split; [done|]. split; [apply Forall_app; auto|]. unfold got. rewrite bind_app. apply elem_of_app. by right.
  Qed.
  Lemma growing_prefix c0 tr t1 t2 : growing c0 tr -> tr = t1 ++ t2 -> in_force c0 t1 `prefix_of` in_force c0 tr.
  Proof.
    revert t1. induction t2 as [|x t2 IH]; intros t1 G E; [rewrite app_nil_r in E; by subst|].
    etrans; [|apply (IH (t1 ++ [x]) G); rewrite <- app_assoc; exact E]. rewrite in_force_app. destruct x; try reflexivity. cbn. by eapply G.
  Qed.
  Lemma chain_of_trace c0 tr c : growing c0 tr -> forall a f b d, tr = a ++ Asked f :: b ++ d -> c ∈ in_force c0 a :: chains b -> c `prefix_of` in_force c0 tr.
  Proof.
    intros G a f b d E Hc. apply elem_of_cons in Hc as [-> |Hc]; [by eapply growing_prefix|].
    unfold chains in Hc. apply elem_of_list_bind in Hc as (x & Hx & Hb). destruct x; cbn in Hx; try (inversion Hx; fail). apply elem_of_list_singleton in Hx as <-.
    apply elem_of_list_split in Hb as (b1 & b2 & ->).
    assert (E' : tr = (a ++ Asked f :: b1 ++ [NodeHas c]) ++ b2 ++ d) by (rewrite E; rewrite <- !app_assoc; cbn; rewrite <- !app_assoc; reflexivity).
    pose proof (growing_prefix c0 tr _ _ G E') as X. replace (in_force c0 (a ++ Asked f :: b1 ++ [NodeHas c])) with c in X; [exact X|].
    rewrite app_comm_cons, app_assoc. unfold in_force. rewrite chains_app. symmetry. apply last_last.
  Qed.

  Lemma resume_quiet start a b : got b = [] -> resume start (a ++ b) = resume start a.
  Proof. intro H. unfold resume, blocks, got in *. rewrite bind_app, H, app_nil_r. reflexivity. Qed.

  (** what such a caller has at any time *)
  Lemma turns_facts c0 us slot id hash : let start := BlockHeader slot id in
    let x := play (initial c0, []) (map (turn_move start c0) us) in let c := s_node (fst x) in
    honest read_id decode cfg c -> (forall b, b ∈ c -> exists e, event_of (nb_raw b) = Some (MBlock e)) ->
    read_id id = Some hash -> id <> cf_genesis_parent cfg -> NPoint slot hash ∈ map nb_point c0 ->
    exists l, run (initial c0) l = x /\ Forall good c0 /\ Forall clean l /\ Stop ∉ l /\ faithful start (snd x) /\ growing c0 (snd x) /\ in_force c0 (snd x) = c /\ MErr ∉ got (snd x) /\
      exists pre b0 del rest, c = pre ++ b0 :: del ++ rest /\ nb_point b0 = NPoint slot hash /\ made decode cfg chk del (blocks (snd x)).
  Proof.
    intros start x c Ho Hev Ri Ng On.
    destruct (grows_by start c0 us (initial c0, [])) as (Hn & Gr & Pre); [reflexivity|intros t1 c' t2 E; destruct t1; discriminate|]. fold x in Hn, Gr, Pre. fold c in Hn, Pre. cbn [fst] in Pre. change (c0 `prefix_of` c) in Pre.
    destruct (play_run (fun a => a <> Stop /\ match a with Handler ok _ => ok = true | _ => True end) c0 (map (turn_move start c0) us)) with (l := @nil action) as (l & El & Hl).
    { intros a t Ha. apply elem_of_list_fmap in Ha as (u & -> & _). destruct u; split; try discriminate; exact Logic.I || reflexivity. }
    cbn [CardanoModel.run app] in El. fold x in El. symmetry in El.
    assert (Gd : forall c', c' `prefix_of` c -> Forall good c').
    { intros c' [z Hz]. apply Forall_forall. intros b Hb. destruct (Hev b) as [e He]; [rewrite Hz; apply elem_of_app; by left|]. by exists (MBlock e). }
    assert (Cl : Forall clean l).
    { apply Forall_forall. intros a Ha. destruct (proj1 (Forall_forall _ _) Hl a Ha) as [_ Hok]. destruct a as [f'| | | | |ok late|c']; try exact Logic.I; [exact Hok|].
      apply Gd. pose proof (StackRunProofs.run_nodes read_id decode cfg chk l c' (initial c0) Ha) as Hc. rewrite El in Hc.
      unfold chains in Hc. apply elem_of_list_bind in Hc as (y & Hy & Hb). destruct y; cbn in Hy; try (inversion Hy; fail). apply elem_of_list_singleton in Hy as <-.
      apply elem_of_list_split in Hb as (b1 & b2 & Eb). assert (Eb' : snd x = (b1 ++ [NodeHas c']) ++ b2) by (rewrite <- app_assoc; exact Eb).
      pose proof (growing_prefix c0 _ _ _ Gr Eb') as X. rewrite <- Hn in X. replace (in_force c0 (b1 ++ [NodeHas c'])) with c' in X; [exact X|].
      unfold in_force. rewrite chains_app. symmetry. apply last_last. }
    assert (Fa : faithful start (snd x)).
    { intros t1 f t2 E. pose proof E as E1. rewrite <- El in E1. apply C38_asked in E1 as (a & from & b & -> & Nb & ->).
      assert (from = [resume start a]) as ->. { eapply (called_by start c0 us (initial c0, [])); [intros a' f' b' X; destruct a'; discriminate|]. fold x. rewrite E, <- app_assoc. reflexivity. }
      f_equal. symmetry. apply resume_quiet.
      change (Called [resume start a] :: b) with ([Called [resume start a]] ++ b). unfold got. rewrite bind_app. cbn. clear - Nb. induction Nb as [|y b Hy _ IH]; [reflexivity|]. cbn. rewrite IH. by destruct y. }
    assert (Ne : MErr ∉ got (snd x)).
    { intro H. destruct (asked_before _ _ H) as [(a & f & b & d & E & Nb & Hb)|(a & b & E & Na & Ha)].
      - pose proof E as E1. rewrite <- El in E1. pose proof (C38_served read_id decode cfg chk c0 l a f b d E1 Nb) as S.
        inversion S as [H0|c1 ps p Hc Hp Hbe Ht H0|c1 c2 ps p tips seg del ms Haf Hp Hbe Ht Hti Hs Hd Hf H0]; rewrite <- H0 in Hb.
        + inversion Hb.
        + apply elem_of_list_singleton in Hb. discriminate.
        + apply elem_of_app in Hb as [Hb|Hb]; [destruct Hti as [-> | ->]; [inversion Hb|apply elem_of_list_singleton in Hb; discriminate]|].
          apply elem_of_list_lookup in Hb as [i Hi]. destruct (Forall2_lookup_r _ _ _ _ _ Hf Hi) as (bl & Hbl & Hbe').
          assert (Hc2 : c2 ∈ in_force c0 a :: chains b). { destruct Haf as (a1 & b1 & -> & Hin). apply elem_of_app. right. exact Hin. }
          destruct (chain_of_trace c0 (snd x) c2 Gr a f b d E Hc2) as [z Hz]. rewrite <- Hn in Hz.
          assert (Hin : bl ∈ c).
          { rewrite Hz. apply elem_of_app. left. destruct Hs as (pre & b' & rest & post & -> & _). apply elem_of_app. right. apply elem_of_app. left.
            destruct Hd as [w Hw]. assert (X : bl ∈ (if snd (effective cfg f) then tail seg else seg)) by (rewrite Hw; apply elem_of_app; left; by eapply elem_of_list_lookup_2).
            destruct (snd (effective cfg f)); [|exact X]. destruct seg; [inversion X|by right]. }
          destruct (Hev bl Hin) as [e He]. congruence.
      - rewrite <- El in E. rewrite (C38_asks_first read_id decode cfg chk c0 l a b E Na) in Ha. inversion Ha. }
    exists l. split; [done|]. split; [by apply Gd|]. split; [done|].
    split. { intro H. by destruct (proj1 (Forall_forall _ _) Hl _ H) as [[] _]. }
    split; [done|]. split; [done|]. split; [done|]. split; [done|].
    pose proof (C38_no_loss read_id decode cfg chk c0 l slot id hash) as NL. rewrite El in NL. cbv zeta in NL. rewrite <- Hn in NL.
    destruct (NL Fa Gr Ho Ne Ri Ng) as (del & M & [-> |(pre & b0 & rest & Ec & Pb)]).
    - apply elem_of_list_fmap in On as (b0 & Pb & Hb0). destruct Pre as [z Hz]. assert (Hb : b0 ∈ c) by (rewrite Hz; apply elem_of_app; by left).
      apply elem_of_list_split in Hb as (pre & rest & Hc). exists pre, b0, [], rest. auto.
    - exists pre, b0, del, rest. auto.
  Qed.

  Lemma turn_pulling start c0 al : turning al -> pulling (fun n => turn_move start c0 (al n)).
  Proof.
    intros (T1 & T2 & T3 & T4). split; [|split; [|split]].
    - intros n t. specialize (T1 n). destruct (al n); try contradiction; exact Logic.I || reflexivity.
    - intro n. destruct (T2 n) as (m & Hm & E). exists m. rewrite E. split; [done|]. intro t. by eexists.
    - intro n. destruct (T3 n) as (m & Hm & E). exists m. rewrite E. done.
    - intro n. destruct (T4 n) as (m & late & Hm & E). exists m. rewrite E. split; [done|]. intro t. by exists late.
  Qed.
  Lemma same_split c (p p' : list nblock) b b' r r' : NoDup (map nb_point c) -> c = p ++ b :: r -> c = p' ++ b' :: r' -> nb_point b = nb_point b' -> p = p' /\ b = b' /\ r = r'.
  Proof.
    intros Nd E E' Hp.
    assert (L : length p = length p').
    { apply (NoDup_lookup _ _ _ (nb_point b) Nd).
      - rewrite E, List.map_app, lookup_app_r; rewrite List.map_length; [|lia]. by rewrite Nat.sub_diag.
      - rewrite E', List.map_app, lookup_app_r; rewrite List.map_length; [|lia]. rewrite Nat.sub_diag. cbn. by rewrite Hp. }
    rewrite E in E'. apply app_inj_1 in E' as [-> E']; [|exact L]. injection E' as -> ->. auto.
  Qed.

  (** After any moves of such a caller, of the two tasks and of a node whose chain grows: if the node then keeps its chain, there is a
      moment from which on the caller has got every block of that chain after its start, each once and in order. *)
  Theorem C38_comes_to_tip c0 us al slot id hash : let start := BlockHeader slot id in
    let x := play (initial c0, []) (map (turn_move start c0) us) in let c := s_node (fst x) in
    honest read_id decode cfg c -> (forall b, b ∈ c -> exists e, event_of (nb_raw b) = Some (MBlock e)) ->
    read_id id = Some hash -> id <> cf_genesis_parent cfg -> NPoint slot hash ∈ map nb_point c0 -> turning al ->
    exists n, forall m, (n <= m)%nat -> let y := play x (map (turn_move start c0) (map al (seq 0 m))) in
      s_node (fst y) = c /\ exists pre b0 del, c = pre ++ b0 :: del /\ nb_point b0 = NPoint slot hash /\ made decode cfg chk del (blocks (snd y)).
  Proof.
    intros start x c Ho Hev Ri Ng On Tu. destruct (turns_facts c0 us slot id hash Ho Hev Ri Ng On) as (l & El & Hg & Cl & Ns & Fa & Gr & Hn & Ne & _). fold start in El, Fa, Gr, Hn, Ne. fold x in El, Fa, Gr, Hn, Ne. fold c in Hn.
    pose proof (turn_pulling start c0 al Tu) as Pl.
    destruct (C38_request_ends c0 l _ Hg Cl Ns Pl) as (n & u & f & t2 & e & E & Nt & He & Ch). rewrite El in E.
    set (y := fun m => play x (map (turn_move start c0) (map al (seq 0 m)))).
    assert (Ey : forall m, y m = play (initial c0, []) (map (turn_move start c0) (us ++ map al (seq 0 m)))) by (intro m; unfold y, x; rewrite map_app, play_app; reflexivity).
    assert (Ey' : forall m, y m = play x (map (fun n => turn_move start c0 (al n)) (seq 0 m))) by (intro m; unfold y; rewrite map_map; reflexivity).
    assert (Ny : forall m, s_node (fst (y m)) = c).
    { intro m. rewrite Ey'. destruct (play_run live_action c0 (map (fun n => turn_move start c0 (al n)) (seq 0 m))) with (l := l) as (l' & El' & Ll).
      { intros a t Ha. apply elem_of_list_fmap in Ha as (i & -> & _). apply Pl. }
      rewrite El in El'. rewrite El', run_app, El. unfold c. destruct x as [s1 o1]. cbn [fst]. pose proof (live_quiet l' Ll s1) as [_ X]. by destruct (run s1 l') as [s2 o2]. }
    assert (Fy : forall m, exists l', run (initial c0) l' = y m /\ Forall clean l' /\ faithful start (snd (y m)) /\ growing c0 (snd (y m)) /\ in_force c0 (snd (y m)) = c /\ MErr ∉ got (snd (y m)) /\
      exists pre b0 del rest, c = pre ++ b0 :: del ++ rest /\ nb_point b0 = NPoint slot hash /\ made decode cfg chk del (blocks (snd (y m)))).
    { intro m. pose proof (turns_facts c0 (us ++ map al (seq 0 m)) slot id hash) as X. cbv zeta in X. fold start in X. rewrite <- Ey in X. rewrite Ny in X.
      destruct (X Ho Hev Ri Ng On) as (l' & A1 & _ & A2 & _ & A3 & A4 & A5 & A6 & A7). exists l'. auto 10. }
    exists n. intros m Hm. split; [apply Ny|]. fold (y m).
    destruct (Fy n) as (ln & Rn & Cln & Fan & Grn & Hnn & Nen & pre & b0 & del & rest & Ec & Pb & M).
    rewrite chains_app in Ch. apply app_eq_nil in Ch as [Cu Ch]. change (chains t2 = []) in Ch. rewrite <- Ey' in E.
    assert (Tip : point_to_node read_id (resume start (snd (y n))) = Some (tip_of c)).
    { pose proof (C38_caught_up read_id decode cfg chk c0 ln slot id hash (snd x ++ u) f t2 e []) as X. cbv zeta in X. rewrite Rn in X.
      destruct X as (c1 & Hc1 & Hr); auto.
      - by rewrite Hnn.
      - rewrite Ch in Hc1. apply elem_of_list_singleton in Hc1 as ->. rewrite in_force_app in Hr. unfold in_force at 1 in Hr. rewrite Cu in Hr. cbn [List.last] in Hr. rewrite Hn in Hr.
        rewrite <- Hr. f_equal. rewrite E. replace ((snd x ++ u) ++ Asked f :: t2 ++ [e]) with (((snd x ++ u) ++ Asked f :: t2) ++ [e]) by (rewrite <- !app_assoc; reflexivity).
        apply resume_quiet. destruct He as [-> | ->]; reflexivity. }
    assert (rest = []) as ->.
    { assert (Q : exists q b r, c = q ++ b :: rest /\ Some (nb_point b) = Some (tip_of c) /\ r = tt).
      { destruct del as [|bl del _] using rev_ind.
        - exists pre, b0, tt. split; [exact Ec|]. split; [|reflexivity]. rewrite <- Tip. assert (blocks (snd (y n)) = []) as Eb by (by apply Forall2_nil_inv_l in M). unfold resume. rewrite Eb. cbn. rewrite Ri. by rewrite Pb.
        - exists (pre ++ b0 :: del), bl, tt. split; [rewrite Ec, <- !app_assoc; reflexivity|]. split; [|reflexivity]. rewrite <- Tip.
          apply Forall2_app_inv_l in M as (es & es' & _ & M & Eb). apply Forall2_cons_inv_l in M as (ev & es2 & Hb & M2 & ->). apply Forall2_nil_inv_l in M2 as ->.
          destruct Ho as [_ Ho]. destruct (Ho bl) as (R1 & _ & R2). { rewrite Ec. apply elem_of_app. right. right. apply elem_of_app. left. apply elem_of_app. right. left. }
          destruct (C38_next_from read_id decode cfg chk bl ev R1 R2 Hb) as (p & _ & P1 & _ & P2 & _). rewrite (P2 start (snd (y n))); [done|]. rewrite Eb. apply last_snoc. }
      destruct Q as (q & b & _ & Ec' & Tb & _). injection Tb as Tb. destruct rest as [|z rest _] using rev_ind; [reflexivity|exfalso].
      assert (Tz : tip_of c = nb_point z). { rewrite Ec'. rewrite app_comm_cons, app_assoc. unfold tip_of. by rewrite last_snoc. }
      assert (Ec2 : c = (q ++ b :: rest) ++ z :: []) by (rewrite Ec', <- app_assoc; reflexivity).
      destruct Ho as [Nd _]. destruct (same_split c _ _ _ _ _ _ Nd Ec' Ec2) as (_ & _ & X); [congruence|]. destruct rest; discriminate. }
    rewrite app_nil_r in Ec.
    destruct (Fy m) as (lm & Rm & _ & _ & _ & _ & _ & pre' & b0' & del' & rest' & Ec' & Pb' & M').
    assert (Px : exists w, blocks (snd (y m)) = blocks (snd (y n)) ++ w).
    { assert (Em : y m = play (y n) (map (turn_move start c0) (map al (seq n (m - n))))).
      { unfold y. rewrite <- play_app, <- !map_app. f_equal. f_equal. f_equal. change (seq n (m - n)) with (seq (0 + n) (m - n)). rewrite <- seq_app. f_equal. lia. }
      rewrite Em. assert (G : forall ms z, exists w, snd (play z ms) = snd z ++ w).
      { induction ms as [|a ms IH]; intro z; cbn [play]; [exists []; by rewrite app_nil_r|]. destruct (step (fst z) (a (snd z))) as [[s' o]|]; [|apply IH].
        destruct (IH (s', snd z ++ o)) as [w ->]. cbn [snd]. rewrite <- app_assoc. eauto. }
      destruct (G (map (turn_move start c0) (map al (seq n (m - n)))) (y n)) as [w ->]. unfold blocks, got. rewrite !bind_app. eauto. }
    destruct Px as [w Hw]. destruct Ho as [Nd _]. destruct (same_split c _ _ _ _ _ _ Nd Ec' Ec) as (-> & -> & Ed); [congruence|].
    assert (rest' = []) as ->.
    { apply Forall2_length in M, M'. rewrite Hw, app_length in M'. apply (f_equal length) in Ed. rewrite app_length in Ed. destruct rest'; [reflexivity|cbn in Ed; lia]. }
    exists pre, b0, del'. rewrite app_nil_r in Ed. subst del'. auto.
  Qed.
End C38.

(** ** cases *)
Definition ex_turn (n : nat) : turn := match (n mod 3)%nat with O => TPull | 1%nat => TCaller | _ => TAnswer false end.
Lemma ex_turning : turning ex_turn.
Proof.
  split; [|split; [|split]].
  - intro n. unfold ex_turn. by destruct (n mod 3)%nat as [|[|]].
  - intro n. exists (n * 3)%nat. split; [lia|]. unfold ex_turn. by rewrite Nat.mod_mul.
  - intro n. exists (1 + n * 3)%nat. split; [lia|]. unfold ex_turn. by rewrite Nat.mod_add.
  - intro n. exists (2 + n * 3)%nat, false. split; [lia|]. unfold ex_turn. by rewrite Nat.mod_add.
Qed.
(** the node has A, B and C; the caller gets B, drops its stream, the node gets D and E too, and after some more moves the caller has all of them *)
Definition ex_us : list turn := map ex_turn (seq 0 30) ++ [TDrop; TGrow [ex_D; ex_E]].
Example C38_comes_to_tip_case :
  let start := BlockHeader 10 "41" in let c0 := [ex_A; ex_B; ex_C] in let c := [ex_A; ex_B; ex_C; ex_D; ex_E] in
  let play us := play hex_decode ex_decode (ex_cfg 0) true (initial c0, []) (map (turn_move start c0) us) in
  s_node (fst (play ex_us)) = c /\ honest hex_decode ex_decode (ex_cfg 0) c /\
  (forall b, b ∈ c -> exists e, from_serialized_block ex_decode (ex_cfg 0) true (nb_raw b) = Some (MBlock e)) /\
  hex_decode "41" = Some "A"%string /\ "41"%string <> cf_genesis_parent (ex_cfg 0) /\ NPoint 10 "A" ∈ map nb_point c0 /\ turning ex_turn /\
  map be_id (blocks (snd (play ex_us))) = ["42"]%string /\
  map be_id (blocks (snd (play (ex_us ++ map ex_turn (seq 0 120))))) = ["42"; "43"; "44"; "45"]%string.
Proof.
  split; [vm_compute; reflexivity|]. split; [|split; [|split; [reflexivity|split; [discriminate|split; [left|split; [apply ex_turning|split; vm_compute; reflexivity]]]]]].
  - split; [apply (bool_decide_unpack _); vm_compute; exact Logic.I|]. intros b Hb.
    repeat (apply elem_of_cons in Hb as [-> |Hb]; [split; [reflexivity|split; [discriminate|eexists; split; [reflexivity|split; reflexivity]]]|]). inversion Hb.
  - intros b Hb. repeat (apply elem_of_cons in Hb as [-> |Hb]; [eexists; vm_compute; reflexivity|]). inversion Hb.
Qed.
(** a schedule with pulls from anywhere *)
Example C38_request_ends_case : pulling (fun n _ => match (n mod 3)%nat with O => Pull [] | 1%nat => Caller | _ => Handler true false end).
Proof.
  split; [|split; [|split]].
  - intros n t. by destruct (n mod 3)%nat as [|[|]].
  - intro n. exists (n * 3)%nat. split; [lia|]. intro t. rewrite Nat.mod_mul by done. by eexists.
  - intro n. exists (1 + n * 3)%nat. split; [lia|]. intro t. by rewrite Nat.mod_add.
  - intro n. exists (2 + n * 3)%nat. split; [lia|]. intro t. exists false. by rewrite Nat.mod_add.
Qed.

Definition all_CardanoDeliverProps := (@C38_request_ends, @C38_comes_to_tip).
Print Assumptions all_CardanoDeliverProps.
