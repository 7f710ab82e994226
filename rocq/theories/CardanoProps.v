(** C38: the Cardano source resumes without loss or repetition, for every schedule of its two tasks. *)
From Coq Require Import ZArith Lia Ascii.
From stdpp Require Import gmap strings list.
From Verif Require Import TimeModel UtilModel CardanoModel CardanoSpec CardanoProofs.
From Verif Require TimeProps.
Open Scope N_scope.

Section C38.
  Context (read_id : string -> option string) (decode : string -> option mblock) (cfg : config) (chk : bool).
  Notation event_of := (from_serialized_block decode cfg chk).
  Notation step := (step read_id decode cfg chk).
  Notation run := (run read_id decode cfg chk).
  Notation handler := (handler read_id decode cfg chk).
  Notation served := (served read_id decode cfg chk).
  Notation ended := (ended read_id decode cfg chk).
  Notation inv := (inv read_id decode cfg chk).
  Notation clean := (clean decode cfg chk).
  Notation good := (good decode cfg chk).
  (** everything that is seen when the source is used from the start, the node having the chain c0 *)
  Notation trace c0 l := (snd (run (initial c0) l)).

  Lemma reach g c0 l : (g = true -> Forall good c0) -> (g = true -> Forall clean l) -> inv g (fst (run (initial c0) l)) (looks (c0, None) (trace c0 l)).
  Proof. intros H1 H2. apply inv_run; [apply inv_initial, H1|exact H2]. Qed.
  Lemma segment_view c0 t1 f t2 : Forall not_asked t2 ->
    looks (c0, None) (t1 ++ Asked f :: t2) = (List.last (chains t2) (in_force c0 t1), Some (f, in_force c0 t1 :: chains t2, got t2)).
  Proof.
    intro H. rewrite looks_app. change (looks (looks (c0, None) t1) (Asked f :: t2)) with (looks (look (looks (c0, None) t1) (Asked f)) t2).
    cbn [look]. rewrite looks_node. cbn [fst]. rewrite looks_quiet by exact H. reflexivity.
  Qed.

  (** Between one request and the next, the pulls return events of that request only: at most one tip event, then blocks that
      follow, in the node's chain and without a gap, the point of the request with the highest slot. *)
  Theorem C38_served c0 l t1 f t2 t3 : trace c0 l = t1 ++ Asked f :: t2 ++ t3 -> Forall not_asked t2 ->
    served (in_force c0 t1 :: chains t2) f (got t2).
  Proof.
    intros E H. change (t1 ++ Asked f :: t2 ++ t3) with (t1 ++ (Asked f :: t2) ++ t3) in E. rewrite app_assoc in E.
    apply run_prefix in E as (l' & l'' & _ & E). assert (I := reach false c0 l' ltac:(discriminate) ltac:(discriminate)).
    rewrite E, segment_view in I by exact H. destruct (i_seg _ _ _ _ _ _ _ I) as (_ & S1 & _). exact S1.
  Qed.

  (** Nothing is returned before the first request. *)
  Theorem C38_asks_first c0 l t1 t2 : trace c0 l = t1 ++ t2 -> Forall not_asked t1 -> got t1 = [].
  Proof.
    intros E H. destruct (got t1) as [|m ms] eqn:G; [reflexivity|]. exfalso.
    assert (K : exists a b, t1 = a ++ Got m :: b).
    { clear - G. induction t1 as [|x t1 IH]; [discriminate|]. assert (Gx : got (x :: t1) = got_of x ++ got t1) by reflexivity. rewrite Gx in G.
      destruct x; cbn [got_of app] in G; try (destruct (IH G) as (a & b & ->); eexists (_ :: a), b; reflexivity).
      injection G as -> _. exists [], t1. reflexivity. }
    destruct K as (a & b & ->). rewrite <- app_assoc in E. cbn [app] in E.
    apply run_at in E as (l1 & x & l2 & s' & -> & T & X).
    assert (I := reach false c0 l1 ltac:(discriminate) ltac:(discriminate)). rewrite T in I.
    apply Forall_app in H as [H _]. assert (N := looks_none a c0 H). assert (Cu := i_seg _ _ _ _ _ _ _ I). rewrite N in Cu.
    destruct x; cbn [CardanoModel.step] in X; unfold caller in X; rewrite ?Cu in X;
      repeat match type of X with context [match ?y with _ => _ end] => destruct y eqn:? end; try discriminate; congruence.
  Qed.

  (** The points of a request are those of the pull that made it, or the configured start. *)
  Theorem C38_asked c0 l t1 f t2 : trace c0 l = t1 ++ Asked f :: t2 -> exists a from b,
    t1 = a ++ Called from :: b /\ Forall (fun x => match x with Called _ | Asked _ | Got _ => False | _ => True end) b /\
    f = match from with [] => [cf_from cfg] | _ => from end.
  Proof.
    intro E. apply run_at in E as (l1 & x & l2 & s' & -> & T & X).
    assert (K : match s_c (fst (run (initial c0) l1)) with
                | CRecv from | CSend from => exists a b, trace c0 l1 = a ++ Called from :: b /\ Forall (fun x => match x with Called _ | Asked _ | Got _ => False | _ => True end) b
                | _ => True
                end).
    { clear. assert (G : forall l s tr, match s_c s with
                | CRecv from | CSend from => exists a b, tr = a ++ Called from :: b /\ Forall (fun x => match x with Called _ | Asked _ | Got _ => False | _ => True end) b
                | _ => True
                end -> match s_c (fst (run s l)) with
                | CRecv from | CSend from => exists a b, tr ++ snd (run s l) = a ++ Called from :: b /\ Forall (fun x => match x with Called _ | Asked _ | Got _ => False | _ => True end) b
                | _ => True
                end).
      { induction l as [|a l IH]; intros s tr H; cbn [CardanoModel.run]; [cbn [fst snd]; rewrite app_nil_r; exact H|].
        destruct (step s a) as [[s' o]|] eqn:Es; [|apply IH, H].
        specialize (IH s' (tr ++ o)). destruct (run s' l) as [s2 o2]. cbn [fst snd] in *. rewrite <- app_assoc in IH. apply IH. clear IH.
        assert (Same : forall o, s_c s' = s_c s -> (o = [] \/ exists c, o = [NodeHas c]) ->
          match s_c s' with CRecv from | CSend from => exists a b, tr ++ o = a ++ Called from :: b /\ Forall (fun x => match x with Called _ | Asked _ | Got _ => False | _ => True end) b | _ => True end).
        { intros o' -> Ho. destruct (s_c s); auto; destruct H as (p & b & -> & Hb); exists p, (b ++ o'); rewrite <- app_assoc; (split; [reflexivity|]); apply Forall_app; (split; [exact Hb|]);
            destruct Ho as [->|[c ->]]; repeat constructor. }
        destruct a as [from| | | | |ok late|c]; cbn [CardanoModel.step] in Es.
        - destruct (s_c s); try discriminate. destruct (s_open s); [|discriminate]. injection Es as <- <-. cbn [set_c s_c]. exists tr, []. split; [reflexivity|constructor].
        - unfold caller in Es. destruct (s_c s) as [|from|from|] eqn:Ec; [discriminate| | |].
          + destruct H as (p & b & -> & Hb). destruct (s_current s) as [ch|]; [|injection Es as <- <-; cbn [set_c s_c]; exists p, b; rewrite app_nil_r; auto].
            destruct (recv s ch); [injection Es as <- <-; exact I| |discriminate]. injection Es as <- <-. cbn [set_c s_c]. exists p, (b ++ [Ended]). rewrite <- app_assoc. split; [reflexivity|].
            apply Forall_app. split; [exact Hb|]. repeat constructor.
          + destruct (s_h s); try (injection Es as <- <-; exact I); (destruct (s_requests s); [|discriminate]; injection Es as <- <-; exact I).
          + destruct (s_current s) as [ch|]; [|discriminate]. destruct (recv s ch); [| |discriminate]; injection Es as <- <-; exact I.
        - destruct (s_c s); [discriminate| | |]; injection Es as <- <-; exact I.
        - destruct (s_c s) eqn:Ec; try discriminate. injection Es as <- <-. replace (s_c _) with CIdle; [exact I|]. rewrite <- Ec. destruct (s_current s); reflexivity.
        - destruct (s_c s) eqn:Ec; try discriminate. injection Es as <- <-. replace (s_c _) with CIdle; [exact I|]. rewrite <- Ec. destruct (s_current s); reflexivity.
        - destruct (handler s ok late) as [s1|] eqn:Eh; [|discriminate]. injection Es as <- <-. apply Same; [|auto].
          unfold CardanoModel.handler in Eh.
          assert (Df : forall l s0, s_c (foldl (fun s r => close_tx s (snd (A := list point) r)) s0 l) = s_c s0) by (clear; induction l as [|r l IH]; intro s0; cbn [foldl]; [reflexivity|rewrite IH; reflexivity]).
          assert (Sc : forall m ch s1, send s ch m = SSent s1 -> s_c s1 = s_c s).
          { clear. intros m ch s1 X. unfold send in X. destruct (c_rx _); [|discriminate]. destruct (_ <? _); [|discriminate]. injection X as <-. reflexivity. }
          repeat match type of Eh with context [match ?y with _ => _ end] => destruct y eqn:? end; try discriminate; injection Eh as <-; try reflexivity;
            try (cbn [set_h s_c]; eapply Sc; eassumption).
          unfold die. cbn [s_c]. etransitivity; [apply Df|reflexivity].
        - injection Es as <- <-. apply Same; [reflexivity|eauto]. }
      apply (G l1 (initial c0) []). exact I. }
    assert (Ex : exists from, s_c (fst (run (initial c0) l1)) = CSend from /\ f = match from with [] => [cf_from cfg] | _ => from end).
    { destruct x; cbn [CardanoModel.step] in X.
      all: try (repeat match type of X with context [match ?y with _ => _ end] => destruct y end; discriminate).
      unfold caller in X. destruct (s_c (fst (run (initial c0) l1))) as [|from|from|]; [discriminate| | |].
      - repeat match type of X with context [match ?y with _ => _ end] => destruct y end; discriminate.
      - exists from. split; [reflexivity|]. destruct (s_h _); try discriminate; (destruct (s_requests _); [|discriminate]; injection X as _ <-; destruct from; reflexivity).
      - repeat match type of X with context [match ?y with _ => _ end] => destruct y end; discriminate. }
    destruct Ex as (from & Ec & ->). rewrite Ec in K. destruct K as (a & b & E & Hb). rewrite T in E. exists a, from, b. auto.
  Qed.

  (** When the node always answers, with blocks that decode, a request ends only for one of the reasons that [ended] lists: in
      particular, if the node did not roll back, everything up to its tip was returned. *)
  Theorem C38_ended c0 l t1 f t2 e t3 : trace c0 l = t1 ++ Asked f :: t2 ++ e :: t3 -> Forall not_asked t2 -> e = Ended \/ e = GotNone ->
    Forall good c0 -> Forall clean l -> ended (in_force c0 t1 :: chains t2) f (got t2).
  Proof.
    intros E H He Hg Hl. change (t1 ++ Asked f :: t2 ++ e :: t3) with (t1 ++ (Asked f :: t2) ++ e :: t3) in E. rewrite app_assoc in E.
    apply run_at in E as (l1 & x & l2 & s' & -> & T & X). apply Forall_app in Hl as [Hl _].
    assert (I := reach true c0 l1 (fun _ => Hg) (fun _ => Hl)). rewrite T, segment_view in I by exact H.
    destruct (i_seg _ _ _ _ _ _ _ I) as (_ & _ & Sg). set (s := fst (run (initial c0) l1)) in *.
    assert (R : exists ch, s_current s = Some ch /\ recv s ch = REnd).
    { destruct x; cbn [CardanoModel.step] in X.
      all: try (repeat match type of X with context [match ?y with _ => _ end] => destruct y end; try discriminate; destruct He as [-> | ->]; discriminate).
      unfold caller in X. destruct (s_c s) as [|from|from|]; [discriminate| | |].
      - destruct (s_current s) as [ch|]; [|discriminate]. exists ch. split; [reflexivity|]. destruct (recv s ch); [destruct He as [-> | ->]; discriminate|reflexivity|discriminate].
      - exfalso. repeat match type of X with context [match ?y with _ => _ end] => destruct y end; try discriminate; destruct He as [-> | ->]; discriminate.
      - destruct (s_current s) as [ch|]; [|discriminate]. exists ch. split; [reflexivity|]. destruct (recv s ch); [destruct He as [-> | ->]; discriminate|reflexivity|discriminate]. }
    destruct R as (ch & Cu & R). unfold recv in R. destruct (c_queue (chan_of s ch)) as [|m q] eqn:Q; [|discriminate]. destruct (c_tx (chan_of s ch)) eqn:Tx; [discriminate|].
    specialize (Sg ch Cu). cbn zeta in Sg. rewrite Q, app_nil_r in Sg. destruct Sg as [[K _]|[[K _]|(_ & _ & _ & _ & K)]].
    - destruct (i_fresh_r _ _ _ _ _ _ _ I _ _ K) as (_ & K' & _). congruence.
    - destruct (i_fresh_h _ _ _ _ _ _ _ I _ K) as (_ & K'). congruence.
    - apply K. reflexivity.
  Qed.

  (** ** a caller that resumes after the last block it was given *)
  (** the point to resume from: the last block returned, or else the start *)
  Definition resume (start : point) (tr : list seen) : point :=
    match last (blocks tr) with Some b => BlockHeader (be_slot b) (be_id b) | None => start end.
  Definition faithful (start : point) (tr : list seen) : Prop := forall t1 f t2, tr = t1 ++ Asked f :: t2 -> f = [resume start t1].
  (** the chain of the node only grows *)
  Definition growing (c0 : list nblock) (tr : list seen) : Prop := forall t1 c t2, tr = t1 ++ NodeHas c :: t2 -> in_force c0 t1 `prefix_of` c.
  (** the node serves the blocks that it says it serves, and their identifiers can be read back *)
  Definition honest (c : list nblock) : Prop := NoDup (map nb_point c) /\
    forall b, b ∈ c -> read_id (hex_encode (nb_hash b)) = Some (nb_hash b) /\ hex_encode (nb_hash b) <> cf_genesis_parent cfg /\
      exists m, decode (nb_raw b) = Some m /\ m_hash m = nb_hash b /\ m_slot m = nb_slot b.
  (** blocks and the events made of them *)
  Definition made (bs : list nblock) (es : list bevent) : Prop := Forall2 (fun b e => event_of (nb_raw b) = Some (MBlock e)) bs es.

  Lemma in_force_app c0 a b : in_force c0 (a ++ b) = in_force (in_force c0 a) b.
  Proof.
    unfold in_force. rewrite chains_app. generalize (chains a) (chains b). clear. intros x y. revert c0. induction x as [|c x IH]; intro c0; [reflexivity|].
    cbn [app]. rewrite <- !last_cons_default. apply IH.
  Qed.
  Lemma growing_prefix c0 tr t1 t2 : growing c0 tr -> tr = t1 ++ t2 -> in_force c0 t1 `prefix_of` in_force c0 tr /\ Forall (fun c => c `prefix_of` in_force c0 tr) (chains t1).
  Proof.
    intros G ->. assert (P : forall t2 t1, growing c0 (t1 ++ t2) -> in_force c0 t1 `prefix_of` in_force c0 (t1 ++ t2)).
    { clear. induction t2 as [|x t2 IH]; intros t1 G; [rewrite app_nil_r; reflexivity|].
      assert (E : t1 ++ x :: t2 = (t1 ++ [x]) ++ t2) by (rewrite <- app_assoc; reflexivity). rewrite E in G |- *.
      etransitivity; [|apply (IH (t1 ++ [x]) G)]. rewrite in_force_app. destruct x; try reflexivity. apply (G t1 c t2). rewrite <- app_assoc. reflexivity. }
    split; [apply P, G|]. apply Forall_forall. intros c Hc. assert (K : exists a b, t1 = a ++ NodeHas c :: b).
    { clear - Hc. induction t1 as [|x t1 IH]; [inversion Hc|]. assert (Cx : chains (x :: t1) = chain_of x ++ chains t1) by reflexivity. rewrite Cx in Hc.
      apply elem_of_app in Hc as [Hc|Hc].
      - destruct x; cbn in Hc; try (inversion Hc; fail). apply elem_of_list_singleton in Hc as ->. exists [], t1. reflexivity.
      - destruct (IH Hc) as (a & b & ->). exists (x :: a), b. reflexivity. }
    destruct K as (a & b & ->). assert (E : (a ++ NodeHas c :: b) ++ t2 = (a ++ [NodeHas c]) ++ (b ++ t2)) by (rewrite <- !app_assoc; reflexivity).
    rewrite E in G |- *. assert (H := P _ _ G). rewrite in_force_app in H at 1. exact H.
  Qed.

  Lemma blocks_app a b : blocks (a ++ b) = blocks a ++ blocks b.
  Proof. unfold blocks. rewrite got_app. apply bind_app. Qed.
  Lemma split_last (P : seen -> Prop) (D : forall x, {P x} + {~ P x}) tr : Forall P tr \/ exists t1 x t2, tr = t1 ++ x :: t2 /\ ~ P x /\ Forall P t2.
  Proof.
    induction tr as [|x tr IH]; [left; constructor|]. destruct IH as [IH|(t1 & y & t2 & -> & H1 & H2)].
    - destruct (D x) as [H|H]; [left; constructor; assumption|]. right. exists [], x, tr. auto.
    - right. exists (x :: t1), y, t2. auto.
  Qed.
  Lemma split_asked tr : Forall not_asked tr \/ exists t1 f t2, tr = t1 ++ Asked f :: t2 /\ Forall not_asked t2.
  Proof.
    destruct (split_last not_asked (fun x => match x return {not_asked x} + {~ not_asked x} with Asked _ => right (fun H => H) | _ => left I end) tr) as [H|(t1 & x & t2 & E & N & H)]; [auto|].
    right. destruct x; try (exfalso; apply N; exact I). eauto.
  Qed.
  Lemma unique_place (c : list nblock) a x b a' x' b' : NoDup (map nb_point c) -> c = a ++ x :: b -> c = a' ++ x' :: b' -> nb_point x = nb_point x' -> a = a' /\ x = x' /\ b = b'.
  Proof.
    intros N E E' P. subst c. revert a' E' N. induction a as [|y a IH]; intros a' E' N; destruct a' as [|y' a']; cbn [app map] in *.
    - injection E' as -> ->. auto.
    - injection E' as -> ->. apply NoDup_cons in N as [N _]. exfalso. apply N. rewrite map_app. apply elem_of_app. right. rewrite P. left.
    - injection E' as -> <-. apply NoDup_cons in N as [N _]. exfalso. apply N. rewrite map_app. apply elem_of_app. right. rewrite <- P. left.
    - injection E' as -> E'. apply NoDup_cons in N as [_ N]. destruct (IH a' E' N) as (-> & -> & ->). auto.
  Qed.
  Lemma event_fields raw e : event_of raw = Some (MBlock e) -> exists m, decode raw = Some m /\ be_id e = hex_encode (m_hash m) /\ be_slot e = m_slot m.
  Proof.
    unfold from_serialized_block. destruct (decode raw) as [m|]; [|discriminate]. intro H. exists m. split; [reflexivity|].
    destruct (m_kind m); [injection H as <-; auto|injection H as <-; auto|]. destruct (absolute_slot_to_epoch _ _ _) as [[k|]|]; try discriminate. injection H as <-. auto.
  Qed.
  Lemma event_not_tip raw p : event_of raw <> Some (MTip p).
  Proof.
    unfold from_serialized_block. destruct (decode raw) as [m|]; [|discriminate]. destruct (m_kind m); try discriminate. destruct (absolute_slot_to_epoch _ _ _) as [[k|]|]; discriminate.
  Qed.

  (** what one request gives, when no block is refused *)
  Definition msgs_blocks (ms : list msg) : list bevent := ms ≫= blocks_of.
  Lemma made_of del ms : Forall2 (fun b m => event_of (nb_raw b) = Some m) del ms -> MErr ∉ ms -> made del (msgs_blocks ms).
  Proof.
    intros H N. induction H as [|b m del ms H1 H2 IH]; [constructor|]. rewrite not_elem_of_cons in N. destruct N as [N1 N2]. unfold msgs_blocks. cbn [mbind list_bind].
    destruct m as [p|e|]; [destruct (event_not_tip _ _ H1)| |congruence]. cbn [blocks_of app]. constructor; [exact H1|apply IH, N2].
  Qed.
  Lemma tips_blocks (tips : list msg) p : tips = [] \/ tips = [MTip p] -> msgs_blocks tips = [].
  Proof. intros [-> | ->]; reflexivity. Qed.

  (** del comes in c from the block at p on: after that block, or with it *)
  Definition comes (c : list nblock) (p : npoint) (skip : bool) (del : list nblock) : Prop :=
    exists pre b0 l rest, c = pre ++ b0 :: l ++ rest /\ nb_point b0 = p /\ del = if skip then l else b0 :: l.
  Lemma comes_last c p skip d bl : comes c p skip (d ++ [bl]) -> exists pre rest, c = pre ++ bl :: rest /\
    forall del rest', rest = del ++ rest' -> comes c p skip ((d ++ [bl]) ++ del).
  Proof.
    intros (pre & b0 & l & rest & -> & P & E). destruct skip.
    - subst l. exists (pre ++ b0 :: d), rest. split; [rewrite <- !app_assoc; reflexivity|]. intros del rest' ->. exists pre, b0, ((d ++ [bl]) ++ del), rest'. rewrite <- !app_assoc. auto.
    - assert (Q : pre ++ b0 :: l ++ rest = (pre ++ d) ++ bl :: rest) by (change (b0 :: l ++ rest) with ((b0 :: l) ++ rest); rewrite <- E, <- !app_assoc; reflexivity).
      exists (pre ++ d), rest. split; [exact Q|]. intros del rest' ->. exists pre, b0, (l ++ del), rest'. rewrite <- !app_assoc. split; [reflexivity|]. split; [exact P|].
      rewrite app_comm_cons, <- E, <- app_assoc. reflexivity.
  Qed.

  (** the invariant behind the theorems below *)
  Lemma delivered c0 l start p0 np0 skip0 : let tr := trace c0 l in let c := in_force c0 tr in
    faithful start tr -> growing c0 tr -> honest c -> MErr ∉ got tr -> effective cfg [start] = ([p0], skip0) -> point_to_node read_id p0 = Some np0 ->
    forall n p q, (length p <= n)%nat -> tr = p ++ q -> exists del, made del (blocks p) /\ (del = [] \/ comes c np0 skip0 del).
  Proof.
    intros tr c Fa Gr [Nd Ho] Ne Ef0 Ri.
    induction n as [|n IH]; intros p q Hn E.
    { destruct p; [|cbn in Hn; lia]. exists []. split; [constructor|auto]. }
    destruct (split_asked p) as [Np|(t1 & f & t2 & -> & Nt)].
    { exists []. split; [|auto]. unfold blocks. rewrite (C38_asks_first c0 l p q E Np). constructor. }
    assert (E1 : tr = t1 ++ Asked f :: t2 ++ q) by (rewrite E, <- app_assoc; reflexivity).
    destruct (IH t1 (Asked f :: t2 ++ q)) as (del1 & M1 & D1); [rewrite app_length in Hn; cbn in Hn; lia|exact E1|].
    assert (Sv := C38_served c0 l t1 f t2 q E1 Nt). rewrite (Fa _ _ _ E1) in Sv.
    assert (Ne2 : MErr ∉ got t2).
    { intro X. apply Ne. rewrite E1, got_app. apply elem_of_app. right. change (got (Asked f :: t2 ++ q)) with (got (t2 ++ q)). rewrite got_app. apply elem_of_app. auto. }
    assert (Bl : blocks (t1 ++ Asked f :: t2) = blocks t1 ++ msgs_blocks (got t2)) by (rewrite blocks_app; reflexivity). rewrite Bl.
    assert (Cs : forall c2, c2 ∈ in_force c0 t1 :: chains t2 -> c2 `prefix_of` c).
    { intros c2 H. apply elem_of_cons in H as [->|H].
      - apply (growing_prefix c0 tr t1 (Asked f :: t2 ++ q) Gr E1).
      - assert (H' := proj2 (growing_prefix c0 tr _ _ Gr E)). rewrite Forall_forall in H'. apply H'. rewrite chains_app. apply elem_of_app. right. exact H. }
    assert (Same : forall x, x = [] -> exists del, made del (blocks t1 ++ x) /\ (del = [] \/ comes c np0 skip0 del)).
    { intros x ->. rewrite app_nil_r. eauto. }
    inversion Sv as [Eg|c1 ps q1 H1 H2 H3 H4 Eg|c1 c2 ps q1 tips seg del ms H1 H3 H4 H5 H6 H7 H8 H9 Eg]; [apply Same; reflexivity|apply Same; reflexivity|].
    rewrite <- Eg in Ne2. assert (Nm : MErr ∉ ms) by (intro X; apply Ne2, elem_of_app; auto).
    assert (Mb : msgs_blocks (tips ++ ms) = msgs_blocks ms) by (unfold msgs_blocks; rewrite bind_app; fold (msgs_blocks tips); rewrite (tips_blocks _ _ H6); reflexivity). rewrite Mb.
    assert (M2 := made_of _ _ H9 Nm). destruct H7 as (pre & b & rest & post & Ec2 & -> & Pb & _).
    assert (H2 : c2 ∈ in_force c0 t1 :: chains t2).
    { destruct H1 as (x & y & -> & H2). apply elem_of_app. auto. }
    destruct (Cs c2 H2) as [more Em]. rewrite Ec2 in Em.
    assert (Ec : c = pre ++ b :: rest ++ (post ++ more)) by (rewrite Em; rewrite <- !app_assoc; cbn [app]; rewrite <- ?app_assoc; reflexivity).
    unfold resume in H3, H8. destruct (last (blocks t1)) as [e|] eqn:La.
    - (* after the last block *)
      apply last_Some in La as [es Es]. assert (M1' := M1). rewrite Es in M1'. apply Forall2_app_inv_r in M1' as (d & d2 & _ & M3 & ->). inversion M3 as [|bl ? ? ? M4 M5]; subst. inversion M5; subst.
      destruct D1 as [D1|D1]; [destruct d; discriminate|]. destruct (comes_last _ _ _ _ _ D1) as (pre1 & rest1 & Ec1 & Cl).
      destruct (event_fields _ _ M4) as (m & Dm & Ei & Es'). assert (Hb : bl ∈ c) by (rewrite Ec1; apply elem_of_app; right; left).
      destruct (Ho bl Hb) as (R1 & R2 & m' & Dm' & Hm & Sm). assert (m' = m) as -> by congruence. rewrite Ei, Es', Hm, Sm in H3, H8.
      assert (Ef : effective cfg [BlockHeader (nb_slot bl) (hex_encode (nb_hash bl))] = ([BlockHeader (nb_slot bl) (hex_encode (nb_hash bl))], true)).
      { unfold effective. rewrite bool_decide_eq_false_2; [reflexivity|]. intro X. injection X as _ X. contradiction. }
      rewrite Ef in H3, H8. cbn [fst snd points_to_node point_to_node] in H3, H8. rewrite R1 in H3. injection H3 as <-. destruct H4 as (H4 & _). apply elem_of_list_singleton in H4.
      cbn [tail] in H8. destruct H8 as [r8 ->]. exists ((d ++ [bl]) ++ del). split; [apply Forall2_app; assumption|]. right.
      assert (Pb' : nb_point bl = nb_point b) by (symmetry; first [exact H4|congruence]). destruct (unique_place c _ _ _ _ _ _ Nd Ec1 Ec Pb') as (_ & _ & Er).
      apply (Cl del (r8 ++ post ++ more)). rewrite Er, <- !app_assoc. reflexivity.
    - (* from the start *)
      apply last_None in La. rewrite La in M1 |- *. inversion M1; subst. rewrite Ef0 in H3, H8. cbn [fst snd points_to_node] in H3, H8. rewrite Ri in H3. injection H3 as <-.
      destruct H4 as (H4 & _). apply elem_of_list_singleton in H4. exists del. split; [exact M2|]. destruct del as [|x del]; [auto|]. right. destruct skip0; cbn [tail] in H8; destruct H8 as [r8 H8].
      + exists pre, b, (x :: del), (r8 ++ post ++ more). rewrite Ec, H8, <- !app_assoc. split; [reflexivity|]. split; [congruence|reflexivity].
      + cbn [app] in H8. injection H8 as -> ->. exists pre, x, del, (r8 ++ post ++ more). rewrite Ec, <- !app_assoc. split; [reflexivity|]. split; [congruence|reflexivity].
  Qed.

  (** However the requests fall, whatever breaks in between, and whatever the schedule: the blocks that such a caller gets are
      those that follow the start in the node's chain, each once, in order, with no gap. *)
  Theorem C38_no_loss c0 l slot id hash : let tr := trace c0 l in let c := in_force c0 tr in
    faithful (BlockHeader slot id) tr -> growing c0 tr -> honest c -> MErr ∉ got tr ->
    read_id id = Some hash -> id <> cf_genesis_parent cfg ->
    exists del, made del (blocks tr) /\
      (del = [] \/ exists pre b0 rest, c = pre ++ b0 :: del ++ rest /\ nb_point b0 = NPoint slot hash).
  Proof.
    intros tr c Fa Gr Ho Ne Ri Ng.
    destruct (delivered c0 l (BlockHeader slot id) (BlockHeader slot id) (NPoint slot hash) true Fa Gr Ho Ne) with (n := length tr) (p := tr) (q := @nil seen) as (del & M & D).
    - unfold effective. rewrite bool_decide_eq_false_2; [reflexivity|]. intro X. injection X as _ X. contradiction.
    - cbn [point_to_node]. rewrite Ri. reflexivity.
    - lia.
    - rewrite app_nil_r. reflexivity.
    - exists del. split; [exact M|]. destruct D as [D|(pre & b0 & l0 & rest & E & P & ->)]; [auto|]. right. exists pre, b0, rest. auto.
  Qed.

  (** The same from the beginning of the chain: the first block is the first one returned. *)
  Theorem C38_no_loss_from_genesis c0 l slot id hash : let tr := trace c0 l in let c := in_force c0 tr in
    faithful (BlockHeader 0 (cf_genesis_parent cfg)) tr -> growing c0 tr -> honest c -> MErr ∉ got tr ->
    cf_genesis cfg = BlockHeader slot id -> read_id id = Some hash ->
    exists del, made del (blocks tr) /\
      (del = [] \/ exists pre b0 l rest, del = b0 :: l /\ c = pre ++ del ++ rest /\ nb_point b0 = NPoint slot hash).
  Proof.
    intros tr c Fa Gr Ho Ne Gn Ri.
    destruct (delivered c0 l (BlockHeader 0 (cf_genesis_parent cfg)) (BlockHeader slot id) (NPoint slot hash) false Fa Gr Ho Ne) with (n := length tr) (p := tr) (q := @nil seen) as (del & M & D).
    - unfold effective. rewrite bool_decide_eq_true_2 by reflexivity. rewrite Gn. reflexivity.
    - cbn [point_to_node]. rewrite Ri. reflexivity.
    - lia.
    - rewrite app_nil_r. reflexivity.
    - exists del. split; [exact M|]. destruct D as [D|(pre & b0 & l0 & rest & E & P & ->)]; [auto|]. right. exists pre, b0, l0, rest. auto.
  Qed.

  (** And when the node always answers, a request that ends has brought such a caller to what was the tip of the node's chain
      since the request was made: nothing is held back. *)
  Theorem C38_caught_up c0 l slot id hash t1 f t2 e t3 : let tr := trace c0 l in
    tr = t1 ++ Asked f :: t2 ++ e :: t3 -> Forall not_asked t2 -> e = Ended \/ e = GotNone -> Forall good c0 -> Forall clean l ->
    faithful (BlockHeader slot id) tr -> growing c0 tr -> honest (in_force c0 tr) -> MErr ∉ got tr ->
    read_id id = Some hash -> id <> cf_genesis_parent cfg -> NPoint slot hash ∈ map nb_point c0 ->
    exists c1, c1 ∈ in_force c0 t1 :: chains t2 /\
      point_to_node read_id (resume (BlockHeader slot id) (t1 ++ Asked f :: t2)) = Some (tip_of c1).
  Proof.
    intros tr E Nt He Hg Hl Fa Gr Ho Ne Ri Ng On.
    assert (En := C38_ended c0 l t1 f t2 e t3 E Nt He Hg Hl).
    (* what was got before the request *)
    assert (E0 := E). apply run_prefix in E0 as (l1 & l2 & -> & E0).
    assert (Fa1 : faithful (BlockHeader slot id) t1) by (intros a g b ->; apply (Fa a g (b ++ Asked f :: t2 ++ e :: t3)); rewrite E, <- app_assoc; reflexivity).
    assert (Gr1 : growing c0 t1) by (intros a g b ->; apply (Gr a g (b ++ Asked f :: t2 ++ e :: t3)); rewrite E, <- app_assoc; reflexivity).
    assert (P1 : in_force c0 t1 `prefix_of` in_force c0 tr) by (apply (growing_prefix c0 tr t1 _ Gr E)).
    assert (Ho1 : honest (in_force c0 t1)).
    { destruct P1 as [k Pk]. destruct Ho as [Nd Ho]. rewrite Pk in Nd, Ho. split; [rewrite map_app in Nd; apply NoDup_app in Nd; tauto|]. intros b Hb. apply Ho. apply elem_of_app. auto. }
    assert (Ne1 : MErr ∉ got t1) by (intro X; apply Ne; rewrite E, got_app; apply elem_of_app; auto).
    assert (No := C38_no_loss c0 l1 slot id hash). cbn zeta in No. rewrite E0 in No. destruct (No Fa1 Gr1 Ho1 Ne1 Ri Ng) as (del1 & M1 & D1). clear No E0.
    assert (P0 : c0 `prefix_of` in_force c0 t1) by (apply (growing_prefix c0 t1 [] t1 Gr1 eq_refl)).
    (* the point asked for, on every chain since *)
    assert (Pt : exists np, points_to_node read_id [resume (BlockHeader slot id) t1] = Some [np] /\ np ∈ map nb_point (in_force c0 t1) /\
                 effective cfg [resume (BlockHeader slot id) t1] = ([resume (BlockHeader slot id) t1], true)).
    { unfold resume. destruct (last (blocks t1)) as [ev|] eqn:La.
      - apply last_Some in La as [es Es]. rewrite Es in M1. apply Forall2_app_inv_r in M1 as (d & d2 & _ & M3 & ->). inversion M3 as [|bl ? ? ? M4 M5]; subst. inversion M5; subst.
        destruct D1 as [D1|(pre & b0 & rest & D1 & _)]; [destruct d; discriminate|].
        destruct (event_fields _ _ M4) as (m & Dm & Ei & Es'). assert (Hb : bl ∈ in_force c0 t1) by (rewrite D1; apply elem_of_app; right; right; rewrite <- app_assoc; apply elem_of_app; right; left).
        destruct (proj2 Ho1 bl Hb) as (R1 & R2 & m' & Dm' & Hm & Sm). assert (m' = m) as -> by congruence. rewrite Ei, Es', Hm, Sm.
        exists (nb_point bl). cbn [points_to_node point_to_node]. rewrite R1. split; [reflexivity|]. split; [apply elem_of_list_fmap; eauto|].
        unfold effective. rewrite bool_decide_eq_false_2; [reflexivity|]. intro X. injection X as _ X. contradiction.
      - exists (NPoint slot hash). cbn [points_to_node point_to_node]. rewrite Ri. split; [reflexivity|].
        split; [destruct P0 as [k ->]; rewrite map_app; apply elem_of_app; auto|].
        unfold effective. rewrite bool_decide_eq_false_2; [reflexivity|]. intro X. injection X as _ X. contradiction. }
    destruct Pt as (np & Pn & On1 & Ef). rewrite (Fa _ _ _ E) in En.
    assert (Gr2 : forall a b, in_force c0 t1 :: chains t2 = a ++ b -> forall x y, x ∈ a -> y ∈ b -> x `prefix_of` y).
    { assert (Gt : growing (in_force c0 t1) t2).
      { intros a c b ->. assert (X := Gr (t1 ++ Asked f :: a) c (b ++ e :: t3)). rewrite in_force_app in X. apply X.
        rewrite E, <- !app_assoc. reflexivity. }
      clear - Gt. generalize dependent (in_force c0 t1). induction t2 as [|x t IH]; intros c Gt a b Eq x0 y Hx Hy.
      - destruct a as [|a0 a]; [inversion Hx|]. cbn in Eq. injection Eq as <- Eq. symmetry in Eq. apply app_eq_nil in Eq as [-> ->]. inversion Hy.
      - assert (Cx : chains (x :: t) = chain_of x ++ chains t) by reflexivity. rewrite Cx in Eq.
        assert (Gt' : growing (in_force c [x]) t).
        { intros a1 c' b1 ->. assert (X := Gt (x :: a1) c' b1 eq_refl). change (x :: a1) with ([x] ++ a1) in X. rewrite in_force_app in X. exact X. }
        destruct x; cbn [chain_of app] in Eq; try (apply (IH c Gt' a b Eq x0 y Hx Hy)).
        destruct a as [|a0 a]; [inversion Hx|]. cbn [app] in Eq. injection Eq as <- Eq.
        assert (Pc : c `prefix_of` c1) by (apply (Gt [] c1 t eq_refl)).
        apply elem_of_cons in Hx as [->|Hx].
        + assert (Hy' : y ∈ c1 :: chains t) by (rewrite Eq; apply elem_of_app; auto). apply elem_of_cons in Hy' as [->|Hy']; [exact Pc|]. etransitivity; [exact Pc|].
          apply (IH c1 Gt' [c1] (chains t) eq_refl c1 y); [left|exact Hy'].
        + apply (IH c1 Gt' a b Eq x0 y Hx Hy). }
    assert (Oc : forall c1, c1 ∈ in_force c0 t1 :: chains t2 -> np ∈ map nb_point c1).
    { intros c1 H. apply elem_of_cons in H as [->|H]; [exact On1|]. destruct (Gr2 [in_force c0 t1] (chains t2) eq_refl (in_force c0 t1) c1) as [k ->]; [left|exact H|]. rewrite map_app. apply elem_of_app. auto. }
    assert (Pr : forall ms, got t2 = ms -> msgs_blocks ms = [] -> resume (BlockHeader slot id) (t1 ++ Asked f :: t2) = resume (BlockHeader slot id) t1).
    { intros ms Eg Hm. unfold resume. rewrite blocks_app. change (blocks (Asked f :: t2)) with (msgs_blocks (got t2)). rewrite Eg, Hm, app_nil_r. reflexivity. }
    assert (Pn1 : point_to_node read_id (resume (BlockHeader slot id) t1) = Some np).
    { cbn [points_to_node] in Pn. destruct (point_to_node read_id _); [congruence|discriminate]. }
    inversion En as [H1 Eg|c1 ps H1 H2 H3 Eg|c1 ps H1 H2 H3 Eg|c1 c2 ps q tips H1 H2 H3 H4 H5 H6 Eg|c1 c2 ps q tips seg ms H1 H2 H3 H4 H5 H6 H7 Eg]; rewrite Ef in *; cbn [fst snd] in *.
    - congruence.
    - exfalso. rewrite Pn in H2. injection H2 as <-. assert (X := H3 np ltac:(left)). assert (Y := Oc c1 H1). rewrite <- not_true_iff_false in X. apply X, on_chain_spec. right.
      apply elem_of_list_fmap in Y as (b & -> & Y). eauto.
    - rewrite Pn in H2. injection H2 as <-. destruct H3 as (H3 & _). apply elem_of_list_singleton in H3. exists c1. split; [exact H1|].
      rewrite (Pr [] (eq_sym Eg) eq_refl), Pn1, H3. reflexivity.
    - exfalso. rewrite Pn in H2. injection H2 as <-. destruct H3 as (H3 & _). apply elem_of_list_singleton in H3. subst q.
      destruct H1 as (a & b & Eq & Hc2). assert (H1 : c1 ∈ in_force c0 t1 :: chains t2) by (rewrite Eq; apply elem_of_app; right; left).
      assert (P12 : c1 `prefix_of` c2).
      { apply elem_of_cons in Hc2 as [->|Hc2]; [reflexivity|]. apply (Gr2 (a ++ [c1]) b); [rewrite <- app_assoc; exact Eq|apply elem_of_app; right; left|exact Hc2]. }
      assert (H2' : c2 ∈ in_force c0 t1 :: chains t2) by (rewrite Eq; apply elem_of_app; auto).
      assert (Nd2 : NoDup (map nb_point c2)).
      { assert (P2 : c2 `prefix_of` in_force c0 tr).
        { apply elem_of_cons in H2' as [->|H2']; [exact P1|]. assert (K := proj2 (growing_prefix c0 tr (t1 ++ Asked f :: t2) (e :: t3) Gr ltac:(rewrite E, <- app_assoc; reflexivity))).
          rewrite Forall_forall in K. apply K. rewrite chains_app. apply elem_of_app. auto. }
        destruct P2 as [k Pk]. destruct Ho as [Nd _]. rewrite Pk, map_app in Nd. apply NoDup_app in Nd. tauto. }
      assert (Y := Oc c1 H1). apply elem_of_list_fmap in Y as (b1 & -> & Y). apply elem_of_list_split in Y as (pre & rest & Ec1). destruct P12 as [k Pk].
      destruct (range_some pre b1 (rest ++ k) (tip_of c1)) as [bs Rs].
      + rewrite Ec1. unfold tip_of. rewrite last_app. destruct (last (b1 :: rest)) as [x|] eqn:Lx; [|apply last_None in Lx; discriminate].
        apply elem_of_list_fmap. exists x. split; [reflexivity|]. apply last_Some_elem_of in Lx. rewrite app_comm_cons. apply elem_of_app. auto.
      + intro X. rewrite Pk, Ec1 in Nd2. rewrite <- app_assoc in Nd2. cbn [app] in Nd2. rewrite map_app in Nd2. apply NoDup_app in Nd2 as (_ & Nd2 & _). apply (Nd2 _ X). left.
      + rewrite Pk, Ec1, <- app_assoc in H6. cbn [app] in H6. congruence.
    - rewrite Pn in H2. injection H2 as <-. destruct H3 as (H3 & _). apply elem_of_list_singleton in H3. subst q.
      exists c1. split; [destruct H1 as (a & b & -> & _); apply elem_of_app; right; left|].
      assert (Nm : MErr ∉ ms) by (intro X; apply Ne; rewrite E, got_app; apply elem_of_app; right; change (got (Asked f :: t2 ++ e :: t3)) with (got (t2 ++ e :: t3)); rewrite got_app; apply elem_of_app; left; rewrite <- Eg; apply elem_of_app; auto).
      assert (M2 := made_of _ _ H7 Nm). destruct H6 as (pre & b & rest & post & Ec2 & -> & Pb & Tp). cbn [tail] in *.
      destruct (last rest) as [bl|] eqn:Lr; [|apply last_None in Lr as ->; exfalso; apply H4; unfold tip_of in Tp at 1; cbn in Tp; congruence].
      apply last_Some in Lr as [r0 ->].
      assert (Mb : blocks (t1 ++ Asked f :: t2) = blocks t1 ++ msgs_blocks ms).
      { rewrite blocks_app. change (blocks (Asked f :: t2)) with (msgs_blocks (got t2)). rewrite <- Eg. unfold msgs_blocks at 1. rewrite bind_app. fold (msgs_blocks tips). rewrite (tips_blocks _ _ H5). reflexivity. }
      unfold resume. rewrite Mb. apply Forall2_app_inv_l in M2 as (e1 & e2 & _ & M3 & Em). inversion M3 as [|? ev ? ? M4 M5]; subst. inversion M5; subst. rewrite Em, app_assoc, last_snoc.
      destruct (event_fields _ _ M4) as (m & Dm & Ei & Es').
      assert (Hb : bl ∈ in_force c0 tr).
      { assert (H2' : (pre ++ (b :: r0 ++ [bl]) ++ post) ∈ in_force c0 t1 :: chains t2) by (destruct H1 as (a & b' & -> & K); apply elem_of_app; auto).
        assert (P2 : (pre ++ (b :: r0 ++ [bl]) ++ post) `prefix_of` in_force c0 tr).
        { apply elem_of_cons in H2' as [K|H2']; [rewrite K; exact P1|]. assert (K := proj2 (growing_prefix c0 tr (t1 ++ Asked f :: t2) (e :: t3) Gr ltac:(rewrite E, <- app_assoc; reflexivity))).
          rewrite Forall_forall in K. apply K. rewrite chains_app. apply elem_of_app. auto. }
        destruct P2 as [k ->]. apply elem_of_app. left. apply elem_of_app. right. apply elem_of_app. left. right. apply elem_of_app. right. left. }
      destruct (proj2 Ho bl Hb) as (R1 & R2 & m' & Dm' & Hm & Sm). assert (m' = m) as -> by congruence. rewrite Ei, Es', Hm, Sm. cbn [point_to_node]. rewrite R1.
      change (b :: r0 ++ [bl]) with ((b :: r0) ++ [bl]) in Tp. unfold tip_of in Tp at 1. rewrite last_snoc in Tp. rewrite <- Tp. reflexivity.
  Qed.

  (** next_from gives the point of the block, which is what [resume] is made of; a tip event gives none. *)
  Theorem C38_next_from b e : read_id (hex_encode (nb_hash b)) = Some (nb_hash b) ->
    (exists m, decode (nb_raw b) = Some m /\ m_hash m = nb_hash b /\ m_slot m = nb_slot b) -> event_of (nb_raw b) = Some (MBlock e) ->
    exists p, next_from (MBlock e) = Some p /\ point_to_node read_id p = Some (nb_point b) /\ be_raw e = nb_raw b /\
      (forall start tr, last (blocks tr) = Some e -> resume start tr = p) /\ forall t, next_from (MTip t) = None.
  Proof.
    intros R (m & D & Hm & Sm) He. destruct (event_fields _ _ He) as (m' & D' & Ei & Es). assert (m' = m) as -> by congruence.
    exists (BlockHeader (be_slot e) (be_id e)). split; [reflexivity|]. split; [cbn [point_to_node]; rewrite Ei, Es, Hm, Sm, R; reflexivity|].
    split; [|split; [intros start tr L; unfold resume; rewrite L; reflexivity|reflexivity]].
    unfold from_serialized_block in He. rewrite D in He. destruct (m_kind m); [injection He as <-; auto|injection He as <-; auto|].
    destruct (absolute_slot_to_epoch _ _ _) as [[k|]|]; try discriminate. injection He as <-. auto.
  Qed.

  (** each block of the chain says which one is before it *)
  Definition linked (c : list nblock) : Prop := forall pre a b post, c = pre ++ a :: b :: post ->
    exists m, decode (nb_raw b) = Some m /\ m_prev m = Some (nb_hash a).
  (** Of two blocks returned one after the other, whether or not by the same request, the first is the parent of the second,
      and so a multiverse accepts them. *)
  Theorem C38_linked c0 l slot id hash : let tr := trace c0 l in let c := in_force c0 tr in
    faithful (BlockHeader slot id) tr -> growing c0 tr -> honest c -> linked c -> MErr ∉ got tr ->
    read_id id = Some hash -> id <> cf_genesis_parent cfg ->
    forall es e1 e2 es', blocks tr = es ++ e1 :: e2 :: es' -> be_parent e2 = be_id e1.
  Proof.
    intros tr c Fa Gr Ho Li Ne Ri Ng es e1 e2 es' E.
    destruct (C38_no_loss c0 l slot id hash Fa Gr Ho Ne Ri Ng) as (del & M & D). fold tr in M, D. rewrite E in M.
    apply Forall2_app_inv_r in M as (d & d' & _ & M & ->). inversion M as [|b1 ? d1 ? M1 M1']; subst. inversion M1' as [|b2 ? d2 ? M2 M2']; subst.
    destruct D as [D|(pre & b0 & rest & D & _)]; [destruct d; discriminate|].
    assert (Ec : c = (pre ++ b0 :: d) ++ b1 :: b2 :: d2 ++ rest) by (etransitivity; [exact D|]; rewrite <- !app_assoc; reflexivity).
    destruct (Li _ _ _ _ Ec) as (m & Dm & Pm).
    assert (Hb : b1 ∈ c) by (rewrite Ec; apply elem_of_app; right; left). destruct (proj2 Ho b1 Hb) as (_ & _ & m1 & Dm1 & Hm1 & _).
    destruct (event_fields _ _ M1) as (m1' & Dm1' & Ei & _). assert (m1' = m1) as -> by congruence. rewrite Ei, Hm1.
    unfold from_serialized_block in M2. rewrite Dm in M2. unfold get_parent_id in M2. rewrite Pm in M2.
    destruct (m_kind m); [injection M2 as <-; reflexivity|injection M2 as <-; reflexivity|]. destruct (absolute_slot_to_epoch _ _ _) as [[k|]|]; try discriminate. injection M2 as <-. reflexivity.
  Qed.
  (** Asking with points is asking the node with the points that these name, one for one; and it is refused if and only if one of them
      names none. *)
  Theorem C38_points f : (forall ps, points_to_node read_id f = Some ps <-> Forall2 (names read_id) f ps) /\
    (points_to_node read_id f = None <-> exists p, p ∈ f /\ forall q, ~ names read_id p q).
  Proof.
    assert (P1 : forall p q, point_to_node read_id p = Some q <-> names read_id p q).
    { intros [|s h] q; cbn.
      - split; [by intros [= <-]|by intros ->].
      - destruct (read_id h) as [hash|] eqn:E; split; try discriminate.
        + intros [= <-]. eauto.
        + intros (h' & [= <-] & ->). reflexivity.
        + intros (h' & [=] & _). }
    assert (P2 : forall ps, points_to_node read_id f = Some ps <-> Forall2 (names read_id) f ps).
    { induction f as [|p f IH]; intros ps; cbn.
      - split; [intros [= <-]; constructor|]. intro H. inversion H. reflexivity.
      - split.
        + destruct (point_to_node read_id p) as [q|] eqn:E; [|discriminate]. destruct (points_to_node read_id f) as [qs|] eqn:Es; [|discriminate].
          intros [= <-]. constructor; [by apply P1|by apply IH].
        + intro H. inversion H as [|? q ? qs Hq Hqs]; subst. apply P1 in Hq. apply IH in Hqs. rewrite Hq, Hqs. reflexivity. }
    split; [exact P2|]. clear P2. induction f as [|p f IH]; cbn.
    - split; [discriminate|]. intros (p & H & _). inversion H.
    - destruct (point_to_node read_id p) as [q|] eqn:E.
      + destruct (points_to_node read_id f) as [qs|].
        * split; [discriminate|]. intros (p' & [-> |H]%elem_of_cons & N); [by destruct (N q); apply P1|].
          destruct IH as [_ IH]. discriminate IH. eauto.
        * split; [|reflexivity]. intros _. destruct IH as [IH _]. destruct (IH eq_refl) as (p' & H & N). exists p'. split; [by right|exact N].
      + split; [|reflexivity]. intros _. exists p. split; [left|]. intros q H%P1. congruence.
  Qed.
  (** A request from the origin alone gives no block: the node serves blocks from a block on.  (The blocks from the first one are asked
      for with the parent of the genesis block.) *)
  Theorem C38_from_origin c0 l t1 t2 t3 : trace c0 l = t1 ++ Asked [Origin] :: t2 ++ t3 -> Forall not_asked t2 ->
    got t2 = [] \/ exists c, c ∈ in_force c0 t1 :: chains t2 /\ got t2 = [MTip (tip_of c)].
  Proof.
    intros E H. pose proof (C38_served _ _ _ _ _ _ E H) as S.
    assert (Ef : effective cfg [Origin] = ([Origin], true)).
    { unfold effective. rewrite bool_decide_eq_false_2 by discriminate. reflexivity. }
    inversion S as [|c1 ps p Hc Hp Hb Ht|c1 c2 ps p tips seg del ms Ha Hp Hb Ht Hti Hs Hd Hf]; [by left|right; eauto|].
    rewrite Ef in Hp. cbn in Hp. injection Hp as <-. destruct Hb as (Hb & _). apply elem_of_list_singleton in Hb as ->.
    destruct Hs as (pre & b & rest & post & _ & _ & Hn & _). discriminate.
  Qed.
  (** What is returned for the bytes of a block: the block's own identifier, parent, number, slot and bytes, and its epoch, which for a
      Byron block is the one it names and for a later one that of the schedule.  An error is returned only for a later block whose slot is
      before the schedule begins, and bytes that are not a block never give an event. *)
  Theorem C38_event raw : match decode raw with
    | None => event_of raw = None
    | Some m =>
        (forall e, event_of raw = Some (MBlock e) ->
           be_id e = hex_encode (m_hash m) /\ be_raw e = raw /\ be_number e = m_number m /\ be_slot e = m_slot m /\
           be_parent e = match m_prev m with Some h => hex_encode h | None => "0x0000000000000000000000000000000000000000" end /\
           (be_boundary e = true <-> exists k, m_kind m = EpochBoundary k) /\
           match m_kind m with
           | EpochBoundary k | ByronMain k => be_epoch e = k
           | Later => forall k r, TimeProps.slot_is (cf_era cfg) (m_slot m) k r -> TimeModel.is_u64 k -> be_epoch e = k
           end) /\
        (event_of raw = Some MErr <-> m_kind m = Later /\ (m_slot m < first_slot (cf_era cfg))%N) /\
        (m_kind m <> Later \/ (first_slot (cf_era cfg) <= m_slot m)%N /\ (0 < epoch_length_seconds (cf_era cfg))%N /\
           TimeModel.is_u64 (start_epoch (cf_era cfg) + m_slot m) -> exists e, event_of raw = Some (MBlock e))
    end.
  Proof.
    unfold from_serialized_block. destruct (decode raw) as [m|]; [|reflexivity]. split; [|split].
    - intros e H.
      assert (G : forall ep, e = BEvent (hex_encode (m_hash m)) (get_parent_id m) (m_number m) raw (m_slot m) (match m_kind m with EpochBoundary _ => true | _ => false end) ep ->
        be_id e = hex_encode (m_hash m) /\ be_raw e = raw /\ be_number e = m_number m /\ be_slot e = m_slot m /\
        be_parent e = match m_prev m with Some h => hex_encode h | None => "0x0000000000000000000000000000000000000000" end /\
        (be_boundary e = true <-> exists k, m_kind m = EpochBoundary k) /\ be_epoch e = ep).
      { intros ep ->. cbn. unfold get_parent_id. do 5 (split; [reflexivity|]). split; [|reflexivity].
        destruct (m_kind m); split; try discriminate; try (intros [k [=]]; fail); eauto. }
      destruct (m_kind m) eqn:Ek.
      + injection H as <-. apply (G epoch). reflexivity.
      + injection H as <-. apply (G epoch). reflexivity.
      + destruct (absolute_slot_to_epoch chk (cf_era cfg) (m_slot m)) as [[ep|]|] eqn:Ea; try discriminate. injection H as <-.
        destruct (G ep eq_refl) as (G1 & G2 & G3 & G4 & G5 & G6 & G7). do 5 (split; [assumption|]). split; [exact G6|].
        intros k r S U. rewrite G7. destruct (TimeProps.C37_epoch_overflow _ _ _ _ S) as [T F].
        destruct chk.
        * rewrite Ea in T. apply N.ltb_lt in U. rewrite U in T. congruence.
        * rewrite Ea in F. rewrite N.mod_small in F by exact U. congruence.
    - destruct (m_kind m) eqn:Ek; try (split; [discriminate|intros [[=] _]]).
      split.
      + intro H. split; [reflexivity|]. destruct (absolute_slot_to_epoch chk (cf_era cfg) (m_slot m)) as [[ep|]|] eqn:Ea; try discriminate.
        apply (TimeProps.C37_refused_only_before_era chk). left. exact Ea.
      + intros [_ H]. destruct (TimeProps.C37_before_era_refused chk (cf_era cfg) (m_slot m) H) as [-> _]. reflexivity.
    - intros [H|(H1 & H2 & H3)]; destruct (m_kind m) eqn:Ek; eauto; [contradiction|].
      assert (U : TimeModel.is_u64 (m_slot m)) by (unfold TimeModel.is_u64 in *; lia).
      destruct (TimeProps.C37_epoch_and_relative chk (cf_era cfg) (m_slot m) H2 H1 U H3) as (ep & r & -> & _). eauto.
  Qed.
End C38.

(** ** cases *)
(** five blocks, one per slot, whose bytes are a letter that is also their hash *)
Definition ex_block (n : N) (h : string) : nblock := NBlock n h h.
Definition ex_decode (raw : string) : option mblock :=
  if String.eqb raw "A" then Some (MBlock_ "A" None 0 10 Later)
  else if String.eqb raw "B" then Some (MBlock_ "B" (Some "A") 1 11 Later)
  else if String.eqb raw "C" then Some (MBlock_ "C" (Some "B") 2 12 Later)
  else if String.eqb raw "D" then Some (MBlock_ "D" (Some "C") 3 13 Later)
  else if String.eqb raw "E" then Some (MBlock_ "E" (Some "D") 4 14 Later) else None.
Definition ex_A := ex_block 10 "A". Definition ex_B := ex_block 11 "B". Definition ex_C := ex_block 12 "C".
Definition ex_D := ex_block 13 "D". Definition ex_E := ex_block 14 "E".
Definition ex_cfg (first_slot : N) : config := Config (BlockHeader 10 "41") "00" (BlockHeader 10 "41") (Era first_slot 0 0 1 5).
Definition ex_event (h p : string) (n s e : N) : msg := MBlock (BEvent (hex_encode h) (hex_encode p) n h s false e).
Definition h_ok : action := Handler true false.
Definition h_late : action := Handler true true.
Notation ex_trace fs c0 l := (snd (run hex_decode ex_decode (ex_cfg fs) true (initial c0) l)).

(** two requests: the first breaks after one block; then the node has grown, and the second goes on from there *)
Definition ex_schedule : list action :=
  [Pull [BlockHeader 10 "41"]; Caller; Caller; h_ok; h_ok; h_ok; h_late; Caller;
   Pull [BlockHeader 10 "41"]; h_ok; h_ok; h_ok; h_ok; Caller;
   Handler false false; Node [ex_A; ex_B; ex_C; ex_D];
   Pull [BlockHeader 11 "42"]; Caller; Caller; h_ok; h_ok; h_ok; h_ok; h_ok; h_ok; h_ok; h_ok; Caller;
   Pull [BlockHeader 12 "43"]; h_ok; h_ok; h_ok; Caller; Pull [BlockHeader 13 "44"]; Caller; Caller; h_ok; h_ok; h_ok; Caller].
Definition ex_seen : list seen :=
  [Called [BlockHeader 10 "41"]; Asked [BlockHeader 10 "41"]; Got (MTip (NPoint 12 "C")); Called [BlockHeader 10 "41"]; Got (ex_event "B" "A" 1 11 2);
   NodeHas [ex_A; ex_B; ex_C; ex_D];
   Called [BlockHeader 11 "42"]; Ended; Asked [BlockHeader 11 "42"]; Got (ex_event "C" "B" 2 12 2); Called [BlockHeader 12 "43"]; Got (ex_event "D" "C" 3 13 2);
   Called [BlockHeader 13 "44"]; Ended; Asked [BlockHeader 13 "44"]; GotNone].
Example C38_case_trace : ex_trace 0 [ex_A; ex_B; ex_C] ex_schedule = ex_seen.
Proof. vm_compute. reflexivity. Qed.
Ltac every_split := intros t1 x t2 E; repeat (destruct t1 as [|? t1]; cbn [app] in E; [try discriminate|injection E as <- E]); try (destruct t1; discriminate).
Example C38_case_hypotheses : let tr := ex_trace 0 [ex_A; ex_B; ex_C] ex_schedule in let c := in_force [ex_A; ex_B; ex_C] tr in
  faithful (BlockHeader 10 "41") tr /\ growing [ex_A; ex_B; ex_C] tr /\ honest hex_decode ex_decode (ex_cfg 0) c /\ linked ex_decode c /\ MErr ∉ got tr /\
  hex_decode "41" = Some "A"%string /\ map be_id (blocks tr) = ["42"; "43"; "44"]%string.
Proof.
  rewrite C38_case_trace. cbn zeta. split; [|split; [|split; [|split; [|split; [|split]]]]].
  - unfold faithful, ex_seen. every_split; injection E as <- <-; reflexivity.
  - unfold growing, ex_seen. every_split. injection E as <- <-. exists [ex_D]. reflexivity.
  - split.
    + repeat constructor; vm_compute; intro H; repeat (apply elem_of_cons in H as [H|H]; [discriminate|]); inversion H.
    + intros b H. vm_compute in H. repeat (apply elem_of_cons in H as [->|H]; [split; [reflexivity|]; split; [discriminate|]; eexists; split; [reflexivity|]; split; reflexivity|]). inversion H.
  - intros pre a b post E. vm_compute in E. repeat (destruct pre as [|? pre]; cbn [app] in E; [try discriminate|injection E as <- E]); try (destruct pre; discriminate);
      injection E as <- <- <-; eexists; split; reflexivity.
  - vm_compute. intro H. repeat (apply elem_of_cons in H as [H|H]; [discriminate|]). inversion H.
  - reflexivity.
  - vm_compute. reflexivity.
Qed.
(** from the beginning of the chain: the first block is returned too *)
Example C38_genesis_case : let tr := ex_trace 0 [ex_A; ex_B]
    [Pull [BlockHeader 0 "00"]; Caller; Caller; h_ok; h_ok; h_ok; h_ok; h_ok; h_ok; h_ok; h_ok; h_ok; h_ok; Caller; Pull [BlockHeader 10 "41"]; Caller; Pull [BlockHeader 11 "42"]; Caller; Caller; h_ok; h_ok; h_ok; Caller] in
  map be_id (blocks tr) = ["41"; "42"]%string /\ last tr = Some GotNone.
Proof. vm_compute. auto. Qed.

(** What does not hold. *)
(** A block whose epoch cannot be computed is given as an error, and the stream goes on after it: a caller that resumes after
    the last block it was given has a gap. *)
Theorem C38_error_is_a_gap_refuted : exists cfg c0 l e1 e2, let tr := snd (run hex_decode ex_decode cfg true (initial c0) l) in
  c0 = [ex_A; ex_B; ex_C; ex_D] /\ honest hex_decode ex_decode cfg c0 /\
  tr = [Called [BlockHeader 10 "41"]; Asked [BlockHeader 10 "41"]; Got MErr; Called [BlockHeader 10 "41"]; Got (MBlock e1); Called [BlockHeader 12 "43"]; Got (MBlock e2)] /\
  be_raw e1 = "C"%string /\ be_raw e2 = "D"%string.
Proof.
  exists (ex_cfg 12), [ex_A; ex_B; ex_C; ex_D],
    [Pull [BlockHeader 10 "41"]; Caller; Caller; h_ok; h_ok; h_ok; h_ok; h_ok; h_ok; h_ok; h_ok; Caller; Pull [BlockHeader 10 "41"]; h_ok; h_ok; h_ok; h_ok; Caller; Pull [BlockHeader 12 "43"]; Caller].
  do 2 eexists. split; [reflexivity|]. split; [|vm_compute; auto]. split.
  - repeat constructor; vm_compute; intro H; repeat (apply elem_of_cons in H as [H|H]; [discriminate|]); inversion H.
  - intros b H. repeat (apply elem_of_cons in H as [->|H]; [split; [reflexivity|]; split; [discriminate|]; eexists; split; [reflexivity|]; split; reflexivity|]). inversion H.
Qed.
(** From the beginning of a chain that has only its first block, the request ends at once, and the block is not returned. *)
Theorem C38_genesis_alone_refuted : exists l, ex_trace 0 [ex_A] l = [Called [BlockHeader 0 "00"]; Asked [BlockHeader 0 "00"]; GotNone].
Proof. exists [Pull [BlockHeader 0 "00"]; Caller; Caller; h_ok; h_ok; h_ok; Caller]. vm_compute. reflexivity. Qed.
(** While a request goes on, a pull ignores the points it is given. *)
Theorem C38_from_ignored_refuted : exists l, ex_trace 0 [ex_A; ex_B; ex_C] l =
  [Called [BlockHeader 10 "41"]; Asked [BlockHeader 10 "41"]; Got (ex_event "B" "A" 1 11 2); Called [BlockHeader 10 "41"]; Got (ex_event "C" "B" 2 12 2)].
Proof.
  exists [Pull [BlockHeader 10 "41"]; Caller; Caller; h_ok; h_ok; h_ok; h_ok; h_ok; h_ok; h_ok; h_ok; Caller; Pull [BlockHeader 10 "41"]; h_ok; h_ok; Caller].
  vm_compute. reflexivity.
Qed.

Definition C38_all := (C38_served, C38_asks_first, C38_asked, C38_ended, C38_no_loss, C38_no_loss_from_genesis, C38_caught_up, C38_next_from, C38_linked, C38_points, C38_from_origin, C38_event,
  C38_error_is_a_gap_refuted, C38_genesis_alone_refuted, C38_from_ignored_refuted).
Print Assumptions C38_all.
