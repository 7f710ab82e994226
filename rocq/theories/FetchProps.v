(** C54: the block fetcher prints the blocks of the chain that follow the start, each once and in order, up to the tip, and ends. *)
From Coq Require Import NArith ZArith Ascii String Lia.
From stdpp Require Import gmap strings list.
From Verif Require Import ValueModel ValueProofs EstimModel TimeModel UtilModel UtilProofs CardanoModel CardanoSpec CardanoProofs CardanoProps CardanoLiveProps JsonModel JsonSpec JsonProofs FetchModel FetchProofs.
Open Scope N_scope.

Section C54.
  Context (read_id : string -> option string) (decode : string -> option mblock) (cfg : config) (chk : bool).
  Notation frun := (fetch_run read_id decode cfg chk).
  Notation run := (CardanoModel.run read_id decode cfg chk).
  Notation good := (good decode cfg chk).
  Notation honest := (honest read_id decode cfg).
  Notation made := (made decode cfg chk).
  Notation clean_f := (clean_f decode cfg chk).
  Notation start_of := (start_of cfg).
  Notation fine := (fine read_id decode cfg chk).
  Notation trace c0 l := (snd (run (initial c0) l)).

  (** the chain that the node has now, or had when the program ended *)
  Definition node_chain (f : fetch) : list nblock := s_node (ft_in f).
  (** the node's chain only grew while the program ran *)
  Definition node_grew (c0 : list nblock) (f : fetch) : Prop := growing c0 (ft_seen f).

  Lemma node_is c0 since cl f : fine c0 since cl f -> in_force c0 (ft_seen f) = node_chain f.
  Proof.
    intro F. destruct (fn_run _ _ _ _ _ _ _ _ F) as (al & R & _). assert (I := reach read_id decode cfg chk false c0 al ltac:(discriminate) ltac:(discriminate)).
    rewrite R in I. cbn [fst snd] in I. unfold node_chain. rewrite (i_node _ _ _ _ _ _ _ I), looks_node. reflexivity.
  Qed.
  (** the part of the trace before an error *)
  Lemma before_error c0 since cl f : fine c0 since cl f -> exists t u, ft_seen f = t ++ u /\ MErr ∉ got t /\ blocks (ft_seen f) = blocks t /\ in_force c0 t = in_force c0 (ft_seen f) /\
    (ft_end f <> Some EndErr -> u = []) .
  Proof.
    intro F. assert (En := fn_end _ _ _ _ _ _ _ _ F). destruct (ft_end f) as [[]|].
    - destruct En as (t & E & N1 & _). exists (ft_seen f), []. rewrite app_nil_r. split; [reflexivity|]. split; [rewrite E, got_app; cbn; rewrite app_nil_r; exact N1|]. auto.
    - destruct En as (t & [E|E] & N1 & _); [exists t, [Got MErr]|exists t, [GotErr]]; rewrite E; split; try reflexivity; (split; [exact N1|]);
        rewrite blocks_app, in_force_app; cbn; rewrite app_nil_r; auto; split; auto; split; auto; congruence.
    - exists (ft_seen f), []. rewrite app_nil_r. split; [reflexivity|]. split; [apply En|]. auto.
  Qed.

  (** What is printed: for every schedule of the program, the request handler and a growing node, wherever the connection breaks,
      and whether or not the program has ended, the lines are those of consecutive blocks of the node's chain, the first being the
      one after the start. *)
  Theorem C54_prints c0 since l slot id hash : let f := frun (fetch_start c0 since) l in
    start_of since = BlockHeader slot id -> read_id id = Some hash -> id <> cf_genesis_parent cfg ->
    node_grew c0 f -> honest (node_chain f) ->
    exists del es, made del es /\ ft_lines f = map line es /\
      (del = [] \/ exists pre b0 rest, node_chain f = pre ++ b0 :: del ++ rest /\ nb_point b0 = NPoint slot hash).
  Proof.
    intros f Hs Ri Ng Gr Ho. assert (F : fine c0 since false f) by (apply fine_run; [apply fine_start|discriminate]).
    rewrite (fn_lines _ _ _ _ _ _ _ _ F). destruct (before_error _ _ _ _ F) as (t & u & E & Ne & Bl & If & _).
    assert (Fa := fetch_faithful _ _ _ _ _ _ _ _ F). rewrite Hs in Fa. rewrite <- (node_is _ _ _ _ F), <- If in Ho |- *.
    destruct (fn_run _ _ _ _ _ _ _ _ F) as (al & R & _). assert (T : trace c0 al = t ++ u) by (rewrite R; exact E).
    apply run_prefix in T as (l1 & l2 & _ & T).
    assert (Fa1 : faithful (BlockHeader slot id) t) by (intros a g b ->; apply (Fa a g (b ++ u)); rewrite E, <- app_assoc; reflexivity).
    assert (Gr1 : growing c0 t) by (intros a g b ->; apply (Gr a g (b ++ u)); rewrite E, <- app_assoc; reflexivity).
    assert (No := C38_no_loss read_id decode cfg chk c0 l1 slot id hash). cbn zeta in No. rewrite T in No.
    destruct (No Fa1 Gr1 Ho Ne Ri Ng) as (del & M & D). exists del, (blocks t). rewrite Bl. auto.
  Qed.

  (** from the beginning of the chain, the first block included *)
  Theorem C54_prints_from_genesis c0 l slot id hash : let f := frun (fetch_start c0 (Some (cf_genesis_parent cfg, 0))) l in
    cf_genesis cfg = BlockHeader slot id -> read_id id = Some hash -> node_grew c0 f -> honest (node_chain f) ->
    exists del es, made del es /\ ft_lines f = map line es /\
      (del = [] \/ exists pre b0 l rest, del = b0 :: l /\ node_chain f = pre ++ del ++ rest /\ nb_point b0 = NPoint slot hash).
  Proof.
    intros f Hg Ri Gr Ho. set (since := Some (cf_genesis_parent cfg, 0)) in f. assert (F : fine c0 since false f) by (apply fine_run; [apply fine_start|discriminate]).
    rewrite (fn_lines _ _ _ _ _ _ _ _ F). destruct (before_error _ _ _ _ F) as (t & u & E & Ne & Bl & If & _).
    assert (Fa := fetch_faithful _ _ _ _ _ _ _ _ F). cbn [FetchProofs.start_of since] in Fa. rewrite <- (node_is _ _ _ _ F), <- If in Ho |- *.
    destruct (fn_run _ _ _ _ _ _ _ _ F) as (al & R & _). assert (T : trace c0 al = t ++ u) by (rewrite R; exact E).
    apply run_prefix in T as (l1 & l2 & _ & T).
    assert (Fa1 : faithful (BlockHeader 0 (cf_genesis_parent cfg)) t) by (intros a g b ->; apply (Fa a g (b ++ u)); rewrite E, <- app_assoc; reflexivity).
    assert (Gr1 : growing c0 t) by (intros a g b ->; apply (Gr a g (b ++ u)); rewrite E, <- app_assoc; reflexivity).
    assert (No := C38_no_loss_from_genesis read_id decode cfg chk c0 l1 slot id hash). cbn zeta in No. rewrite T in No.
    destruct (No Fa1 Gr1 Ho Ne Hg Ri) as (del & M & D). exists del, (blocks t). rewrite Bl. auto.
  Qed.

  Lemma prefix_cut (c1 c pre del rest : list nblock) b0 : NoDup (map nb_point c) -> c1 `prefix_of` c -> c = pre ++ b0 :: del ++ rest ->
    tip_of c1 = match last del with Some b => nb_point b | None => nb_point b0 end -> c1 = pre ++ b0 :: del.
  Proof.
    intros Nd [k Ek] Ec T. set (b := match last del with Some b => b | None => b0 end).
    assert (Tb : tip_of c1 = nb_point b) by (rewrite T; unfold b; destruct (last del); reflexivity).
    assert (Db : exists d, pre ++ b0 :: del = d ++ [b]).
    { unfold b. destruct (last del) as [x|] eqn:L; [apply last_Some in L as [d ->]; exists (pre ++ b0 :: d); rewrite <- !app_assoc; reflexivity|].
      apply last_None in L as ->. exists pre. reflexivity. }
    destruct Db as [d Ed]. unfold tip_of in Tb. destruct (last c1) as [x|] eqn:L; [|destruct b; discriminate]. apply last_Some in L as [d1 ->].
    assert (E1 : c = d ++ b :: rest) by (rewrite Ec; transitivity ((pre ++ b0 :: del) ++ rest); [rewrite <- app_assoc; reflexivity|rewrite Ed, <- app_assoc; reflexivity]).
    assert (E2 : c = d1 ++ x :: k) by (rewrite Ek, <- app_assoc; reflexivity).
    destruct (unique_place c _ _ _ _ _ _ Nd E1 E2 (eq_sym Tb)) as (-> & <- & _). rewrite Ed. reflexivity.
  Qed.

  (** When the program ends by itself and the node always answered, what it printed is everything from the start to what was the
      tip of the node's chain at some time: nothing is missing. *)
  Theorem C54_complete c0 since l slot id hash : let f := frun (fetch_start c0 since) l in
    start_of since = BlockHeader slot id -> read_id id = Some hash -> id <> cf_genesis_parent cfg -> NPoint slot hash ∈ map nb_point c0 ->
    node_grew c0 f -> honest (node_chain f) -> Forall good c0 -> Forall clean_f l -> ft_end f = Some EndOk ->
    exists c1 pre b0 del es, c1 ∈ c0 :: chains (ft_seen f) /\ c1 = pre ++ b0 :: del /\ nb_point b0 = NPoint slot hash /\ made del es /\ ft_lines f = map line es.
  Proof.
    intros f Hs Ri Ng On Gr Ho Hg Hl En. assert (F : fine c0 since true f) by (apply fine_run; [apply fine_start|auto]).
    destruct (C54_prints c0 since l slot id hash Hs Ri Ng Gr Ho) as (del & es & M & Li & D). fold f in Li, D.
    assert (Fa := fetch_faithful _ _ _ _ _ _ _ _ F). rewrite Hs in Fa.
    destruct (before_error _ _ _ _ F) as (t & u & E & Ne & _ & _ & Hu). rewrite Hu, app_nil_r in E by congruence. subst t. clear u Hu.
    assert (X := fn_end _ _ _ _ _ _ _ _ F). rewrite En in X. destruct X as (t & E & _).
    destruct (fn_run _ _ _ _ _ _ _ _ F) as (al & R & Cl). specialize (Cl eq_refl).
    assert (Nd : NoDup (map nb_point (node_chain f))) by apply Ho. rewrite <- (node_is _ _ _ _ F) in Ho, D, Nd.
    (* the last request *)
    assert (T : trace c0 al = t ++ [GotNone]) by (rewrite R; exact E).
    destruct (split_asked t) as [Na|(t1 & g & t2 & -> & Nt)].
    { exfalso. apply run_at in T as (l1 & a & l2 & s' & -> & T & Es).
      assert (I0 := reach read_id decode cfg chk false c0 l1 ltac:(discriminate) ltac:(discriminate)). rewrite T in I0.
      assert (C : s_current (fst (run (initial c0) l1)) = None).
      { assert (Sg := i_seg _ _ _ _ _ _ _ I0). rewrite looks_none in Sg by exact Na. exact Sg. }
      destruct a; cbn [CardanoModel.step] in Es; try (repeat match type of Es with context [match ?x with _ => _ end] => destruct x end; discriminate).
      destruct (caller_cases _ _ _ _ Es) as (_ & K). destruct (s_c (fst (run (initial c0) l1))); [contradiction| | |].
      - destruct K as [(_ & K & _)|(_ & _ & [(? & K & _)|(K & _)])]; discriminate.
      - destruct K as [(K & _)|(K & _)]; discriminate.
      - destruct K as (K & _). congruence. }
    assert (T' : trace c0 al = t1 ++ Asked g :: t2 ++ GotNone :: []) by (rewrite T, <- app_assoc; reflexivity).
    assert (K := C38_caught_up read_id decode cfg chk c0 al slot id hash t1 g t2 GotNone []). cbn zeta in K. rewrite R in K. cbn [snd] in K.
    assert (E' : ft_seen f = t1 ++ Asked g :: t2 ++ GotNone :: []) by (rewrite E, <- app_assoc; reflexivity).
    destruct (K E' Nt (or_intror eq_refl) Hg Cl Fa Gr Ho Ne Ri Ng On) as (c1 & Hc1 & Tp). clear K.
    assert (Hc1' : c1 ∈ c0 :: chains (ft_seen f)).
    { rewrite E, !chains_app. apply elem_of_cons in Hc1 as [-> |Hc1].
      - unfold in_force. destruct (last (chains t1)) as [x|] eqn:L.
        + apply last_Some in L as [y ->]. rewrite List.last_last. right. apply elem_of_app. left. apply elem_of_app. left. apply elem_of_app. right. left.
        + apply last_None in L as ->. left.
      - right. apply elem_of_app. left. apply elem_of_app. right. exact Hc1. }
    assert (P1 : c1 `prefix_of` in_force c0 (ft_seen f)).
    { apply elem_of_cons in Hc1' as [-> |Hc1'].
      - apply (growing_prefix c0 (ft_seen f) [] _ Gr eq_refl).
      - assert (Q := proj2 (growing_prefix c0 (ft_seen f) (ft_seen f) [] Gr ltac:(rewrite app_nil_r; reflexivity))). rewrite Forall_forall in Q. apply Q, Hc1'. }
    assert (Bl : blocks (t1 ++ Asked g :: t2) = blocks (ft_seen f)).
    { rewrite E, (blocks_app _ [GotNone]). change (blocks [GotNone]) with (@nil bevent). rewrite app_nil_r. reflexivity. }
    (* the same blocks, once more *)
    assert (No := C38_no_loss read_id decode cfg chk c0 al slot id hash). cbn zeta in No. rewrite R in No. cbn [snd] in No.
    destruct (No Fa Gr Ho Ne Ri Ng) as (del' & M' & D'). clear No D M es Li del.
    assert (Ev : exists pre b0 rest, in_force c0 (ft_seen f) = pre ++ b0 :: del' ++ rest /\ nb_point b0 = NPoint slot hash).
    { destruct D' as [-> |D']; [|exact D']. destruct (growing_prefix c0 (ft_seen f) [] _ Gr eq_refl) as [[k Ek] _]. cbn in Ek.
      apply elem_of_list_fmap in On as (b & Pb & Hb). apply elem_of_list_split in Hb as (x & y & ->). exists x, b, (y ++ k). split; [rewrite Ek, <- app_assoc; reflexivity|congruence]. }
    destruct Ev as (pre & b0 & rest & Ec & Pb0). exists c1, pre, b0, del', (blocks (ft_seen f)). split; [exact Hc1'|]. split; [|split; [exact Pb0|]; split; [exact M'|apply (fn_lines _ _ _ _ _ _ _ _ F)]].
    apply (prefix_cut c1 _ pre del' rest b0 Nd P1 Ec). unfold resume in Tp. rewrite Bl in Tp.
    destruct (last (blocks (ft_seen f))) as [e|] eqn:L.
    - apply last_Some in L as [es Es]. rewrite Es in M'. apply Forall2_app_inv_r in M' as (d & d2 & _ & M3 & ->). inversion M3 as [|bl ? ? ? M4 M5]; subst. inversion M5; subst.
      rewrite last_snoc. destruct (event_fields decode cfg chk _ _ M4) as (m & Dm & Ei & Es').
      assert (Hb : bl ∈ in_force c0 (ft_seen f)) by (rewrite Ec; apply elem_of_app; right; right; rewrite <- app_assoc; apply elem_of_app; right; left).
      destruct (proj2 Ho bl Hb) as (R1 & _ & m' & Dm' & Hm & Sm). assert (m' = m) as -> by congruence. rewrite Ei, Es', Hm, Sm in Tp. cbn [point_to_node] in Tp. rewrite R1 in Tp.
      injection Tp as <-. reflexivity.
    - apply last_None in L. rewrite L in M'. inversion M'; subst. cbn [last]. cbn [point_to_node] in Tp. rewrite Ri in Tp. rewrite Pb0. congruence.
  Qed.

  (** ** it ends *)
  (** an endless schedule in which the node stays as it is and always answers, and the program and the handler run again and again *)
  Definition quiet_fair (fl : nat -> fetch_action) : Prop :=
    (forall n, match fl n with FProgram => True | FHandler ok _ => ok = true | FNode _ => False end) /\
    (forall n, exists m, (n <= m)%nat /\ fl m = FProgram) /\ (forall n, exists m late, (n <= m)%nat /\ fl m = FHandler true late).
  Definition upto_n (fl : nat -> fetch_action) (n : nat) : list fetch_action := map fl (seq 0 n).
  Definition shift (fl : nat -> fetch_action) (k n : nat) : fetch_action := fl (k + n)%nat.
  Lemma quiet_shift fl k : quiet_fair fl -> quiet_fair (shift fl k).
  Proof.
    intros (H1 & H2 & H3). split; [intro n; apply H1|]. split; intro n.
    - destruct (H2 (k + n)%nat) as (m & L & E). exists (m - k)%nat. split; [lia|]. unfold shift. replace (k + (m - k))%nat with m by lia. exact E.
    - destruct (H3 (k + n)%nat) as (m & late & L & E). exists (m - k)%nat, late. split; [lia|]. unfold shift. replace (k + (m - k))%nat with m by lia. exact E.
  Qed.
  Lemma upto_add fl n m : upto_n fl (n + m) = upto_n fl n ++ upto_n (shift fl n) m.
  Proof.
    unfold upto_n, shift. rewrite seq_app, map_app. f_equal. cbn [Nat.add]. assert (K : forall m k j, map fl (seq (k + j) m) = map (fun x => fl (k + x)%nat) (seq j m)).
    { clear. induction m as [|m IH]; intros k j; [reflexivity|]. cbn [seq map]. f_equal. rewrite <- Nat.add_succ_r. apply IH. }
    rewrite <- (K m n 0%nat), Nat.add_0_r. reflexivity.
  Qed.
  Lemma upto_S fl m : upto_n fl (S m) = fl 0%nat :: upto_n (shift fl 1) m.
  Proof. apply (upto_add fl 1 m). Qed.
  Lemma upto_quiet fl n : quiet_fair fl -> Forall (fun a => match a with FNode _ => False | _ => True end) (upto_n fl n) /\ Forall clean_f (upto_n fl n).
  Proof.
    intros (H & _). unfold upto_n. split; apply Forall_forall; intros a Ha; apply elem_of_list_fmap in Ha as (k & -> & _); specialize (H k); destruct (fl k); cbn in *; first [contradiction | auto].
  Qed.

  Lemma fstep_seen f a f' : fetch_step read_id decode cfg chk f a = Some f' -> exists o, ft_seen f' = ft_seen f ++ o /\ (match a with FNode _ => False | _ => True end -> chains o = []).
  Proof.
    unfold fetch_step. destruct (ft_end f); [discriminate|]. destruct (CardanoModel.step _ _ _ _ _ _) as [[s o]|] eqn:E; [|discriminate]. intro X. injection X as <-.
    exists o. split; [unfold fetch_returned; destruct o as [|[| |[]| | | |] []]; reflexivity|]. intro Ha. destruct a as [|ok late|c]; [| |contradiction]; cbn [source_action] in E.
    - destruct (s_c (ft_in f)) eqn:Ec; cbn [CardanoModel.step] in E; [rewrite Ec in E; destruct (s_open (ft_in f)); [|discriminate]; injection E as _ <-; reflexivity|..];
        destruct (caller_cases _ _ _ _ E) as (_ & K); rewrite Ec in K.
      + destruct K as [(_ & -> & _)|(_ & _ & [(m & -> & _)|(-> & _)])]; reflexivity.
      + destruct K as [(-> & _)|(-> & _)]; reflexivity.
      + destruct K as (_ & _ & _ & [(m & ->)| ->]); reflexivity.
    - apply step_handler in E as (-> & _). reflexivity.
  Qed.
  Lemma quiet_seen l : Forall (fun a => match a with FNode _ => False | _ => True end) l -> forall f, exists t, ft_seen (frun f l) = ft_seen f ++ t /\ chains t = [].
  Proof.
    induction 1 as [|a l Ha _ IH]; intro f; [exists []; rewrite app_nil_r; auto|]. cbn [fetch_run].
    destruct (fetch_step _ _ _ _ f a) as [f'|] eqn:E; [|apply IH]. destruct (fstep_seen _ _ _ E) as (o & Eo & Co). destruct (IH f') as (t & Et & Ct).
    exists (o ++ t). rewrite Et, Eo, <- app_assoc. split; [reflexivity|]. rewrite chains_app, Ct, (Co Ha). reflexivity.
  Qed.

  Section Bound.
    Context (c0 : list nblock) (since : option (string * N)) (slot : N) (id hash : string).
    Context (Hs : start_of since = BlockHeader slot id) (Ri : read_id id = Some hash) (Ng : id <> cf_genesis_parent cfg) (On : NPoint slot hash ∈ map nb_point c0) (Hg : Forall good c0).

    Lemma seg_bound f t1 g t2 t3 : fine c0 since true f -> ft_seen f = t1 ++ Asked g :: t2 ++ t3 -> Forall not_asked t2 -> node_grew c0 f ->
      (length (got t2) <= 1 + length (node_chain f))%nat.
    Proof.
      intros F E Nt Gr. destruct (fn_run _ _ _ _ _ _ _ _ F) as (al & R & _). assert (T : trace c0 al = t1 ++ Asked g :: t2 ++ t3) by (rewrite R; exact E).
      assert (Sv := C38_served read_id decode cfg chk c0 al t1 g t2 t3 T Nt). rewrite <- (node_is _ _ _ _ F).
      inversion Sv as [Eg|c1 ps q1 H1 H2 H3 H4 Eg|c1 c2 ps q1 tips seg del ms H1 H3 H4 H5 H6 H7 H8 H9 Eg]; [cbn; lia|cbn; lia|].
      assert (L1 : (length tips <= 1)%nat) by (destruct H6 as [-> | ->]; cbn; lia). assert (L2 := Forall2_length _ _ _ H9). apply prefix_length in H8.
      assert (L3 : (length (if snd (effective cfg g) then tail seg else seg) <= length seg)%nat) by (destruct (snd (effective cfg g)); [destruct seg; cbn [tail length]; lia|lia]).
      destruct H7 as (pre & b & rest & post & Ec2 & _). assert (H2 : c2 ∈ in_force c0 t1 :: chains t2).
      { destruct H1 as (x & y & -> & H2). apply elem_of_app. auto. }
      assert (P2 : c2 `prefix_of` in_force c0 (ft_seen f)).
      { apply elem_of_cons in H2 as [-> |H2]; [apply (growing_prefix c0 (ft_seen f) t1 _ Gr E)|].
        assert (K := proj2 (growing_prefix c0 (ft_seen f) (t1 ++ Asked g :: t2) t3 Gr ltac:(rewrite E, <- app_assoc; reflexivity))).
        rewrite Forall_forall in K. apply K. rewrite chains_app. apply elem_of_app. auto. }
      apply prefix_length in P2. rewrite Ec2, !app_length in P2. rewrite app_length. lia.
    Qed.

    Lemma quiet_chain a b : chains b = [] -> in_force c0 (a ++ b) = in_force c0 a.
    Proof. intro H. unfold in_force. rewrite chains_app, H, app_nil_r. reflexivity. Qed.

    (** after a request that was made and answered in full by a node with this chain, the next request gives nothing *)
    Lemma second_request f T u1 f1 u2 f2 u3 u4 : fine c0 since true f -> node_grew c0 f -> honest (node_chain f) -> MErr ∉ got (ft_seen f) ->
      ft_seen f = T ++ u1 ++ Asked f1 :: u2 ++ Asked f2 :: u3 ++ u4 -> chains (u1 ++ Asked f1 :: u2 ++ Asked f2 :: u3 ++ u4) = [] ->
      Forall not_asked u2 -> Forall not_asked u3 -> got u3 = [].
    Proof.
      intros F Gr Ho Ne E C N2 N3. assert (Nc := node_is _ _ _ _ F). assert (Fa := fetch_faithful _ _ _ _ _ _ _ _ F). rewrite Hs in Fa.
      destruct (fn_run _ _ _ _ _ _ _ _ F) as (al & R & Cl). specialize (Cl eq_refl).
      assert (E2 : ft_seen f = (T ++ u1 ++ Asked f1 :: u2) ++ Asked f2 :: u3 ++ u4) by (rewrite E, <- !app_assoc; reflexivity).
      rewrite chains_app in C. apply app_eq_nil in C as [C1 C]. change (chains (u2 ++ Asked f2 :: u3 ++ u4) = []) in C. rewrite chains_app in C. apply app_eq_nil in C as [C2 C].
      change (chains (u3 ++ u4) = []) in C. rewrite chains_app in C. apply app_eq_nil in C as [C3 C4].
      destruct (fn_asked _ _ _ _ _ _ _ _ F _ _ _ E2) as [X|(u & g & v & w & X & Nvw & Gv & Gw)].
      { rewrite !Forall_app in X. destruct X as (_ & _ & X). inversion X as [|? ? X1 _]. destruct X1. }
      rewrite app_assoc in X. apply last_asked_unique in X as (<- & <- & ->); [|exact N2|exact Nvw].
      rewrite chains_app in C2. apply app_eq_nil in C2 as [C2v C2w]. change (chains w = []) in C2w.
      assert (Nv : Forall not_asked v) by (apply Forall_app in Nvw; tauto).
      assert (Ca : exists c1, c1 ∈ in_force c0 (T ++ u1) :: chains v /\ point_to_node read_id (resume (BlockHeader slot id) ((T ++ u1) ++ Asked f1 :: v)) = Some (tip_of c1)).
      { assert (K := C38_caught_up read_id decode cfg chk c0 al slot id hash (T ++ u1) f1 v Ended (w ++ Asked f2 :: u3 ++ u4)). cbn zeta in K. rewrite R in K. cbn [snd] in K.
        apply K; auto; [rewrite E, <- !app_assoc; cbn [app]; rewrite <- ?app_assoc; reflexivity|rewrite Nc; exact Ho]. }
      destruct Ca as (c1 & Hc1 & Tp). rewrite C2v in Hc1. apply elem_of_list_singleton in Hc1. subst c1.
      assert (Bl : blocks (T ++ u1 ++ Asked f1 :: v ++ Ended :: w) = blocks ((T ++ u1) ++ Asked f1 :: v)).
      { rewrite app_assoc, (app_comm_cons v), app_assoc, blocks_app. change (blocks (Ended :: w)) with (got w ≫= blocks_of). rewrite Gw. cbn. apply app_nil_r. }
      assert (Fq : f2 = [resume (BlockHeader slot id) ((T ++ u1) ++ Asked f1 :: v)]).
      { rewrite (Fa _ _ _ E2). unfold resume. rewrite Bl. reflexivity. }
      assert (T2 : trace c0 al = (T ++ u1 ++ Asked f1 :: v ++ Ended :: w) ++ Asked f2 :: u3 ++ u4) by (rewrite R; exact E2).
      assert (Sv := C38_served read_id decode cfg chk c0 al _ _ _ _ T2 N3).
      assert (If : in_force c0 (T ++ u1 ++ Asked f1 :: v ++ Ended :: w) = in_force c0 (T ++ u1)).
      { rewrite app_assoc. apply quiet_chain. change (chains (v ++ Ended :: w) = []). rewrite chains_app, C2v. exact C2w. }
      rewrite If, C3 in Sv.
      assert (Ef : effective cfg f2 = (f2, true)).
      { unfold effective. rewrite bool_decide_eq_false_2; [reflexivity|]. rewrite Fq. intro X. injection X as X. unfold resume in X.
        destruct (last (blocks ((T ++ u1) ++ Asked f1 :: v))) as [e|] eqn:L; [|injection X as _ X; contradiction]. injection X as _ X.
        assert (No := C38_no_loss read_id decode cfg chk c0 al slot id hash). cbn zeta in No. rewrite R in No. cbn [snd] in No.
        rewrite Nc in No. destruct (No Fa Gr Ho Ne Ri Ng) as (del & M & D).
        assert (He : e ∈ blocks (ft_seen f)).
        { rewrite E2, blocks_app, Bl. apply elem_of_app. left. apply last_Some_elem_of, L. }
        apply elem_of_list_lookup in He as [i He]. destruct (Forall2_lookup_r _ _ _ _ _ M He) as (b & Hb & Eb). apply elem_of_list_lookup_2 in Hb.
        destruct D as [-> |(pre & b0 & rest & D & _)]; [inversion Hb|].
        assert (Hb' : b ∈ node_chain f) by (rewrite D; apply elem_of_app; right; right; apply elem_of_app; auto).
        destruct (event_fields decode cfg chk _ _ Eb) as (m & Dm & Ei & _). destruct (proj2 Ho b Hb') as (_ & R2 & m' & Dm' & Hm & _). assert (m' = m) as -> by congruence. congruence. }
      rewrite Fq in Ef.
      assert (Pn : forall ps, points_to_node read_id (fst (effective cfg f2)) = Some ps -> ps = [tip_of (in_force c0 (T ++ u1))]).
      { intros ps H. rewrite Fq, Ef in H. cbn [fst points_to_node] in H. rewrite Tp in H. congruence. }
      inversion Sv as [Eg|c1 ps q1 H1 H2 H3 H4 Eg|c1 c2 ps q1 tips seg del ms H1 H3 H4 H5 H6 H7 H8 H9 Eg]; [reflexivity|exfalso..].
      - apply Pn in H2 as ->. apply elem_of_list_singleton in H1. subst c1. destruct H3 as (H3 & _). apply elem_of_list_singleton in H3. congruence.
      - apply Pn in H3 as ->. apply after_in, elem_of_list_singleton in H1. subst c1. destruct H4 as (H4 & _). apply elem_of_list_singleton in H4. congruence.
    Qed.

    Lemma got_bound f T t : fine c0 since true f -> node_grew c0 f -> honest (node_chain f) -> MErr ∉ got (ft_seen f) -> ft_seen f = T ++ t -> chains t = [] ->
      (length (got t) <= 2 * (1 + length (node_chain f)))%nat.
    Proof.
      intros F Gr Ho Ne E C.
      (* the part before the first request in t *)
      assert (B0 : forall u u', t = u ++ u' -> Forall not_asked u -> (length (got u) <= 1 + length (node_chain f))%nat).
      { intros u u' -> Nu. destruct (split_asked T) as [NT|(t1 & g & t2 & -> & Nt)].
        - destruct (fn_run _ _ _ _ _ _ _ _ F) as (al & R & _). assert (X : got (T ++ u) = []).
          { apply (C38_asks_first read_id decode cfg chk c0 al (T ++ u) u'); [rewrite R, <- app_assoc; exact E|apply Forall_app; auto]. }
          rewrite got_app in X. apply app_eq_nil in X as [_ ->]. cbn. lia.
        - assert (X := seg_bound f t1 g (t2 ++ u) u' F). rewrite got_app, app_length in X. specialize (X ltac:(rewrite E, <- !app_assoc; cbn [app]; rewrite <- ?app_assoc; reflexivity) ltac:(apply Forall_app; auto) Gr). lia. }
      destruct (first_asked t) as [N|(u1 & f1 & r1 & -> & N1)]; [specialize (B0 t [] ltac:(rewrite app_nil_r; reflexivity) N); lia|].
      specialize (B0 u1 _ eq_refl N1). rewrite got_app, app_length. change (got (Asked f1 :: r1)) with (got r1).
      assert (B1 : forall u u', r1 = u ++ u' -> Forall not_asked u -> (length (got u) <= 1 + length (node_chain f))%nat).
      { intros u u' -> Nu. apply (seg_bound f (T ++ u1) f1 u u' F); auto. rewrite E, <- app_assoc. reflexivity. }
      destruct (first_asked r1) as [N|(u2 & f2 & r2 & -> & N2)]; [specialize (B1 r1 [] ltac:(rewrite app_nil_r; reflexivity) N); lia|].
      specialize (B1 u2 _ eq_refl N2). rewrite got_app, app_length. change (got (Asked f2 :: r2)) with (got r2).
      destruct (first_asked r2) as [N|(u3 & f3 & r3 & -> & N3)].
      - assert (X := second_request f T u1 f1 u2 f2 r2 [] F Gr Ho Ne). rewrite app_nil_r in X. rewrite (X E C N2 N). cbn. lia.
      - exfalso. assert (X := second_request f T u1 f1 u2 f2 u3 (Asked f3 :: r3) F Gr Ho Ne E C N2 N3).
        destruct (fn_asked _ _ _ _ _ _ _ _ F (T ++ u1 ++ Asked f1 :: u2 ++ Asked f2 :: u3) f3 r3) as [Y|(u & g & v & w & Y & Nvw & Gv & Gw)]; [rewrite E; repeat (rewrite <- ?app_assoc; cbn [app]); reflexivity| |].
        + rewrite !Forall_app in Y. destruct Y as (_ & _ & Y). inversion Y as [|? ? Y1 _]. destruct Y1.
        + assert (Z : (T ++ u1 ++ Asked f1 :: u2) ++ Asked f2 :: u3 = u ++ Asked g :: v ++ Ended :: w) by (rewrite <- Y; repeat (rewrite <- ?app_assoc; cbn [app]); reflexivity).
          apply last_asked_unique in Z as (_ & _ & ->); [|exact N3|exact Nvw]. rewrite got_app in X. apply app_eq_nil in X as [X _]. contradiction.
    Qed.
  End Bound.

  (** a pull returns *)
  Lemma pull_starts m : forall fl f, quiet_fair fl -> fl m = FProgram -> s_c (ft_in f) = CIdle -> ft_end f = None -> s_open (ft_in f) = true ->
    exists n, let f' := frun f (upto_n fl n) in s_c (ft_in f') <> CIdle /\ ft_end f' = None /\ got (ft_seen f') = got (ft_seen f).
  Proof.
    induction m as [|m IH]; intros fl f Q Em Hc He Ho.
    - exists 1%nat. rewrite upto_S, Em. cbn [upto_n seq map fetch_run]. unfold fetch_step. rewrite He. cbn [source_action]. rewrite Hc. cbn [CardanoModel.step]. rewrite Hc, Ho.
      cbn. rewrite got_app. cbn. rewrite app_nil_r. split; [discriminate|auto].
    - destruct (fl 0%nat) as [|ok late|c] eqn:E0.
      + exists 1%nat. rewrite upto_S, E0. cbn [upto_n seq map fetch_run]. unfold fetch_step. rewrite He. cbn [source_action]. rewrite Hc. cbn [CardanoModel.step]. rewrite Hc, Ho.
        cbn. rewrite got_app. cbn. rewrite app_nil_r. split; [discriminate|auto].
      + set (f1 := match fetch_step read_id decode cfg chk f (FHandler ok late) with Some f' => f' | None => f end).
        assert (K : s_c (ft_in f1) = CIdle /\ ft_end f1 = None /\ s_open (ft_in f1) = true /\ got (ft_seen f1) = got (ft_seen f)).
        { unfold f1, fetch_step. rewrite He. cbn [source_action]. destruct (CardanoModel.step _ _ _ _ (ft_in f) (Handler ok late)) as [[s o]|] eqn:Es; [|auto].
          apply step_handler in Es as (-> & K1 & K2 & K3). cbn. rewrite app_nil_r. repeat split; congruence. }
        destruct K as (K1 & K2 & K3 & K4). destruct (IH (shift fl 1) f1 (quiet_shift _ _ Q) Em K1 K2 K3) as (n & N1 & N2 & N3).
        exists (S n). rewrite upto_S, E0. cbn [fetch_run]. fold f1. rewrite <- K4. auto.
      + exfalso. assert (X := proj1 Q 0%nat). rewrite E0 in X. exact X.
  Qed.
  Definition as_source (fl : nat -> fetch_action) (n : nat) : action := match fl n with FProgram => Caller | FHandler ok late => Handler ok late | FNode c => Node c end.
  Lemma first_shift fl n : first (as_source fl) (S n) = as_source fl 0%nat :: first (as_source (shift fl 1)) n.
  Proof. unfold first, as_source, shift. cbn [seq map]. f_equal. rewrite <- seq_shift, map_map. reflexivity. Qed.
  Lemma pull_goes_on n : forall fl f, quiet_fair fl -> ft_end f = None -> s_c (ft_in f) <> CIdle -> s_c (fst (run (ft_in f) (first (as_source fl) n))) = CIdle ->
    exists m, let f' := frun f (upto_n fl m) in ft_end f' <> None \/ (length (got (ft_seen f)) < length (got (ft_seen f')))%nat.
  Proof.
    induction n as [|n IH]; intros fl f Q He Hc Hr; [contradiction|]. rewrite first_shift in Hr. cbn [CardanoModel.run] in Hr.
    assert (Sa : source_action f (fl 0%nat) = as_source fl 0%nat).
    { unfold source_action, as_source. destruct (fl 0%nat); try reflexivity. destruct (s_c (ft_in f)); congruence. }
    set (f1 := match fetch_step read_id decode cfg chk f (fl 0%nat) with Some f' => f' | None => f end).
    assert (K : (ft_end f1 <> None \/ (length (got (ft_seen f)) < length (got (ft_seen f1)))%nat) \/
                (ft_end f1 = None /\ s_c (ft_in f1) <> CIdle /\ got (ft_seen f1) = got (ft_seen f) /\ s_c (fst (run (ft_in f1) (first (as_source (shift fl 1)) n))) = CIdle)).
    { unfold f1, fetch_step. rewrite He, Sa. destruct (CardanoModel.step read_id decode cfg chk (ft_in f) (as_source fl 0%nat)) as [[s o]|] eqn:Es; [|right; auto].
      destruct (run s (first (as_source (shift fl 1)) n)) as [s2 o2] eqn:Er. cbn [fst] in Hr.
      assert (X := proj1 Q 0%nat). unfold as_source in Es. destruct (fl 0%nat) as [|ok late|c]; [| |contradiction].
      - cbn [CardanoModel.step] in Es. destruct (caller_cases _ _ _ _ Es) as (_ & K). destruct (s_c (ft_in f)) as [|from|from|]; [contradiction| | |].
        + destruct K as [(_ & -> & K & _)|(_ & _ & [(m & -> & _)|(-> & K)])].
          * right. cbn. rewrite app_nil_r, Er, K. repeat split; auto; discriminate.
          * left. destruct m; cbn; rewrite ?got_app, ?app_length; cbn; [right; lia|right; lia|left; discriminate].
          * right. cbn. rewrite got_app, Er, K. cbn. rewrite app_nil_r. repeat split; auto; discriminate.
        + destruct K as [(-> & _)|(-> & K & _)]; [left; left; discriminate|]. right. cbn. rewrite got_app, Er, K. cbn. rewrite app_nil_r. repeat split; auto; discriminate.
        + destruct K as (_ & _ & _ & [(m & ->)| ->]); left; [|left; discriminate]. destruct m; cbn; rewrite ?got_app, ?app_length; cbn; [right; lia|right; lia|left; discriminate].
      - apply step_handler in Es as (-> & K1 & _). right. cbn. rewrite app_nil_r, Er, K1. auto. }
    destruct K as [K|(K1 & K2 & K3 & K4)]; [exists 1%nat; rewrite upto_S; exact K|].
    destruct (IH (shift fl 1) f1 (quiet_shift _ _ Q) K1 K2 K4) as [m Hm]. rewrite K3 in Hm. exists (S m). rewrite upto_S. cbn [fetch_run]. exact Hm.
  Qed.
  Lemma got_more c0 since cl f fl : fine c0 since cl f -> quiet_fair fl -> ft_end f = None ->
    exists m, let f' := frun f (upto_n fl m) in ft_end f' <> None \/ (length (got (ft_seen f)) < length (got (ft_seen f')))%nat.
  Proof.
    intros F Q He.
    assert (K : forall f fl, fine c0 since false f -> quiet_fair fl -> ft_end f = None -> s_c (ft_in f) <> CIdle ->
              exists m, let f' := frun f (upto_n fl m) in ft_end f' <> None \/ (length (got (ft_seen f)) < length (got (ft_seen f')))%nat).
    { clear. intros f fl F Q He Hc. destruct (fn_run _ _ _ _ _ _ _ _ F) as (al & R & _).
      destruct (C38_pull_returns read_id decode cfg chk c0 al (as_source fl)) as [n Hn].
      { destruct Q as (Q1 & Q2 & Q3). unfold as_source. split; [|split].
        - intro n. specialize (Q1 n). destruct (fl n); auto.
        - intro n. destruct (Q2 n) as (m & L & E). exists m. rewrite E. auto.
        - intro n. destruct (Q3 n) as (m & late & L & E). exists m, true, late. rewrite E. auto. }
      rewrite R in Hn. cbn [fst] in Hn. apply (pull_goes_on n fl f Q He Hc Hn). }
    assert (F0 : fine c0 since false f). { destruct F as [(al & R & _) X1 X2 X3 X4 X5 X6 X7]. constructor; auto. exists al. split; [exact R|discriminate]. }
    destruct (s_c (ft_in f)) eqn:Ec; [|apply K; auto; congruence..].
    destruct (proj1 (proj2 Q) 0%nat) as (m & _ & Em). destruct (pull_starts m fl f Q Em Ec He (fn_open _ _ _ _ _ _ _ _ F)) as (n & N1 & N2 & N3).
    destruct (K (frun f (upto_n fl n)) (shift fl n)) as [k Hk]; [|apply quiet_shift, Q|exact N2|exact N1|].
    - apply fine_run; [exact F0|discriminate].
    - exists (n + k)%nat. rewrite upto_add, frun_app. cbn zeta in Hk |- *. rewrite N3 in Hk. exact Hk.
  Qed.

  (** Whatever happened before, once the node's chain stays as it is and the node answers, the program comes to its end. *)
  Theorem C54_ends c0 since l slot id hash fl : let f := frun (fetch_start c0 since) l in
    start_of since = BlockHeader slot id -> read_id id = Some hash -> id <> cf_genesis_parent cfg -> NPoint slot hash ∈ map nb_point c0 ->
    node_grew c0 f -> honest (node_chain f) -> Forall good c0 -> Forall clean_f l -> quiet_fair fl ->
    exists n, ft_end (frun f (upto_n fl n)) <> None.
  Proof.
    intros f Hs Ri Ng On Gr Ho Hg Hl Q.
    set (B := (2 * (1 + length (node_chain f)))%nat).
    assert (P : forall l2, Forall (fun a => match a with FNode _ => False | _ => True end) l2 -> Forall clean_f l2 -> let f2 := frun f l2 in
              fine c0 since true f2 /\ (ft_end f2 = None -> (length (got (ft_seen f2)) <= length (got (ft_seen f)) + B)%nat)).
    { intros l2 H1 H2 f2. assert (F2 : fine c0 since true f2) by (apply fine_run; [apply fine_run; [apply fine_start|auto]|auto]). split; [exact F2|]. intro He.
      destruct (quiet_seen l2 H1 f) as (t & Et & Ct). fold f2 in Et.
      assert (F : fine c0 since true f) by (apply fine_run; [apply fine_start|auto]).
      assert (Nc : node_chain f2 = node_chain f) by (rewrite <- (node_is _ _ _ _ F2), <- (node_is _ _ _ _ F), Et; apply quiet_chain, Ct).
      assert (En := fn_end _ _ _ _ _ _ _ _ F2). rewrite He in En.
      rewrite Et at 1. rewrite got_app, app_length. unfold B. rewrite <- Nc.
      enough (length (got t) <= 2 * (1 + length (node_chain f2)))%nat by lia.
      apply (got_bound c0 since slot id hash Hs Ri Ng On Hg f2 (ft_seen f) t F2); [|rewrite Nc; exact Ho|apply En|exact Et|exact Ct].
      intros t1 c t2 E. rewrite Et in E. clear - Gr E Ct.
      assert (K : exists t2', ft_seen f = t1 ++ NodeHas c :: t2').
      { revert t2 E Ct. induction t as [|x t IH] using rev_ind; intros t2 E Ct; [rewrite app_nil_r in E; eauto|].
        rewrite chains_app in Ct. apply app_eq_nil in Ct as [C1 C2]. rewrite app_assoc in E. apply snoc_split in E as [(_ & _ & ->)|(c' & _ & E)]; [discriminate|]. apply (IH c' E C1). }
      destruct K as [t2' K]. apply (Gr _ _ _ K). }
    assert (M : forall k l2 fl, Forall (fun a => match a with FNode _ => False | _ => True end) l2 -> Forall clean_f l2 -> quiet_fair fl ->
              (length (got (ft_seen f)) + B < length (got (ft_seen (frun f l2))) + k)%nat -> exists n, ft_end (frun (frun f l2) (upto_n fl n)) <> None).
    { clear Q fl. induction k as [|k IH]; intros l2 fl H1 H2 Q L; destruct (P l2 H1 H2) as [F2 Bd]; cbn zeta in F2, Bd.
      - exists 0%nat. cbn. intro He. specialize (Bd He). lia.
      - destruct (ft_end (frun f l2)) eqn:He; [exists 0%nat; cbn; congruence|].
        destruct (got_more c0 since true (frun f l2) fl F2 Q He) as (m & [Hm|Hm]); [exists m; exact Hm|]. cbn zeta in Hm.
        destruct (upto_quiet fl m Q) as [U1 U2].
        destruct (IH (l2 ++ upto_n fl m) (shift fl m)) as [n Hn]; [apply Forall_app; auto|apply Forall_app; auto|apply quiet_shift, Q|rewrite frun_app; lia|].
        exists (m + n)%nat. rewrite upto_add, !frun_app in *. exact Hn. }
    destruct (M (S B + length (got (ft_seen f)))%nat [] fl) as [n Hn]; [constructor|constructor|exact Q|cbn; lia|]. exists n. exact Hn.
  Qed.

  (** Every block decodes and has an epoch. *)
  Definition readable (b : nblock) : Prop := exists e, from_serialized_block decode cfg chk (nb_raw b) = Some (MBlock e).
  Theorem C54_no_error c0 since l : let f := frun (fetch_start c0 since) l in
    node_grew c0 f -> Forall readable (node_chain f) -> Forall clean_f l -> ft_end f <> Some EndErr.
  Proof.
    intros f Gr Rd Hl En. assert (F : fine c0 since true f) by (apply fine_run; [apply fine_start|auto]).
    assert (X := fn_end _ _ _ _ _ _ _ _ F). rewrite En in X. destruct (fn_run _ _ _ _ _ _ _ _ F) as (al & R & Cl). specialize (Cl eq_refl).
    assert (Rd' : forall c b, c ∈ c0 :: chains (ft_seen f) -> b ∈ c -> readable b).
    { intros c b Hc Hb. assert (P : c `prefix_of` in_force c0 (ft_seen f)).
      { apply elem_of_cons in Hc as [-> |Hc]; [apply (growing_prefix c0 (ft_seen f) [] _ Gr eq_refl)|].
        assert (Q := proj2 (growing_prefix c0 (ft_seen f) (ft_seen f) [] Gr ltac:(rewrite app_nil_r; reflexivity))). rewrite Forall_forall in Q. apply Q, Hc. }
      rewrite (node_is _ _ _ _ F) in P. destruct P as [k Ek]. rewrite Forall_forall in Rd. apply Rd. rewrite Ek. apply elem_of_app. auto. }
    destruct X as (t & [E|E] & _).
    - destruct (split_asked t) as [Na|(t1 & g & t2 & -> & Nt)].
      + assert (Y : got (t ++ [Got MErr]) = []).
        { apply (C38_asks_first read_id decode cfg chk c0 al _ []); [rewrite app_nil_r, R; exact E|apply Forall_app; split; [exact Na|repeat constructor]]. }
        rewrite got_app in Y. apply app_eq_nil in Y as [_ Y]. discriminate.
      + assert (T : trace c0 al = t1 ++ Asked g :: (t2 ++ [Got MErr]) ++ []) by (rewrite app_nil_r, R; cbn [snd]; rewrite E, <- app_assoc; reflexivity).
        assert (Sv := C38_served read_id decode cfg chk c0 al _ _ _ _ T ltac:(apply Forall_app; split; [exact Nt|repeat constructor])).
        assert (Hm : MErr ∈ got (t2 ++ [Got MErr])) by (rewrite got_app; apply elem_of_app; right; left).
        inversion Sv as [Eg|c1 ps q1 H1 H2 H3 H4 Eg|c1 c2 ps q1 tips seg del ms H1 H3 H4 H5 H6 H7 H8 H9 Eg].
        * rewrite <- Eg in Hm. inversion Hm.
        * rewrite <- Eg in Hm. apply elem_of_list_singleton in Hm. discriminate.
        * rewrite <- Eg in Hm. apply elem_of_app in Hm as [Hm|Hm]; [destruct H6 as [-> | ->]; [inversion Hm|]; apply elem_of_list_singleton in Hm; discriminate|].
          apply elem_of_list_lookup in Hm as [i Hi]. destruct (Forall2_lookup_r _ _ _ _ _ H9 Hi) as (b & Hb & Eb). apply elem_of_list_lookup_2 in Hb.
          assert (Hs : b ∈ seg). { destruct H8 as [k H8]. assert (Y : b ∈ (if snd (effective cfg g) then tail seg else seg)) by (rewrite H8; apply elem_of_app; auto).
            destruct (snd (effective cfg g)); [|exact Y]. destruct seg; [inversion Y|right; exact Y]. }
          destruct H7 as (pre & b' & rest & post & Ec2 & Es & _). assert (Hc2 : b ∈ c2) by (rewrite Ec2; apply elem_of_app; right; apply elem_of_app; left; exact Hs).
          destruct (Rd' c2 b) as [e He]; [|exact Hc2|congruence]. destruct H1 as (x & y & Hxy & H2).
          assert (H2' : c2 ∈ in_force c0 t1 :: chains (t2 ++ [Got MErr])) by (rewrite Hxy; apply elem_of_app; auto).
          rewrite E, !chains_app. rewrite chains_app in H2'. change (chains [Got MErr]) with (@nil (list nblock)) in *. rewrite app_nil_r in *. change (chains (Asked g :: t2)) with (chains t2).
          apply elem_of_cons in H2' as [-> |H2']; [|right; apply elem_of_app; auto]. unfold in_force. destruct (last (chains t1)) as [z|] eqn:L.
          -- apply last_Some in L as [w ->]. rewrite List.last_last. right. apply elem_of_app. left. apply elem_of_app. right. left.
          -- apply last_None in L as ->. left.
    - apply (C38_no_error read_id decode cfg chk c0 al).
      + apply Forall_forall. intros b Hb. destruct (Rd' c0 b) as [e He]; [left|exact Hb|]. exists (MBlock e). exact He.
      + eapply Forall_impl; [exact Cl|]. intros [] Ha; auto.
      + rewrite R. cbn [snd]. rewrite E. apply elem_of_app. right. left.
  Qed.

  (** The whole run: with a node that keeps its chain and answers, the program ends without an error, and has then printed the
      blocks after the start, all of them, once each, in order, and nothing else. *)
  Lemma run_still l : Forall (fun a => match a with FNode _ => False | _ => True end) l -> forall c0 since, node_chain (frun (fetch_start c0 since) l) = c0 /\ chains (ft_seen (frun (fetch_start c0 since) l)) = [].
  Proof.
    intros H c0 since. destruct (quiet_seen l H (fetch_start c0 since)) as (t & Et & Ct). cbn [fetch_start ft_seen app] in Et. rewrite Et.
    assert (F : fine c0 since false (frun (fetch_start c0 since) l)) by (apply fine_run; [apply fine_start|discriminate]).
    rewrite <- (node_is _ _ _ _ F), Et. unfold in_force. rewrite Ct. auto.
  Qed.
  Theorem C54_all c0 since pre b0 after slot id hash fl :
    start_of since = BlockHeader slot id -> read_id id = Some hash -> id <> cf_genesis_parent cfg ->
    c0 = pre ++ b0 :: after -> nb_point b0 = NPoint slot hash -> honest c0 -> Forall readable c0 -> quiet_fair fl ->
    exists n es, let f := frun (fetch_start c0 since) (upto_n fl n) in ft_end f = Some EndOk /\ made after es /\ ft_lines f = map line es.
  Proof.
    intros Hs Ri Ng Ec Pb Ho Rd Q.
    assert (Hg : Forall good c0) by (eapply Forall_impl; [exact Rd|]; intros b [e He]; exists (MBlock e); exact He).
    assert (On : NPoint slot hash ∈ map nb_point c0) by (rewrite <- Pb; apply elem_of_list_fmap; exists b0; split; [reflexivity|]; rewrite Ec; apply elem_of_app; right; left).
    assert (Gr : forall l, Forall (fun a => match a with FNode _ => False | _ => True end) l -> node_grew c0 (frun (fetch_start c0 since) l)).
    { intros l H t1 c t2 E. destruct (run_still l H c0 since) as [_ C]. rewrite E, chains_app in C. apply app_eq_nil in C as [_ C]. discriminate. }
    destruct (C54_ends c0 since [] slot id hash fl Hs Ri Ng On) as [n Hn]; [apply (Gr []); constructor|exact Ho|exact Hg|constructor|exact Q|]. cbn [fetch_run] in Hn.
    destruct (upto_quiet fl n Q) as [U1 U2]. destruct (run_still _ U1 c0 since) as [Nc Ch]. specialize (Gr _ U1).
    assert (Ne := C54_no_error c0 since (upto_n fl n) Gr). rewrite Nc in Ne. specialize (Ne Rd U2).
    assert (En : ft_end (frun (fetch_start c0 since) (upto_n fl n)) = Some EndOk) by (destruct (ft_end _) as [[]|]; congruence).
    destruct (C54_complete c0 since (upto_n fl n) slot id hash Hs Ri Ng On Gr) as (c1 & pre1 & b1 & del & es & Hc1 & E1 & P1 & M & Li); [rewrite Nc; exact Ho|exact Hg|exact U2|exact En|].
    rewrite Ch in Hc1. apply elem_of_list_singleton in Hc1. subst c1.
    destruct (unique_place c0 _ _ _ _ _ _ (proj1 Ho) Ec E1) as (_ & _ & ->); [congruence|]. exists n, es. auto.
  Qed.
End C54.

(** ** the lines *)
Definition free_of (x : ascii) (t : list ascii) : Prop := Forall (fun c => c <> x) t.
Lemma first_at x a b y z : free_of x a -> free_of x b -> a ++ x :: y = b ++ x :: z -> a = b /\ y = z.
Proof.
  revert b. induction a as [|c a IH]; intros [|d b] Fa Fb E; cbn [app] in E.
  - injection E as ->. auto.
  - injection E as <- _. apply Forall_cons in Fb as [Fb _]. destruct Fb. reflexivity.
  - injection E as -> _. apply Forall_cons in Fa as [Fa _]. destruct Fa. reflexivity.
  - injection E as -> E. apply Forall_cons in Fa as [_ Fa]. apply Forall_cons in Fb as [_ Fb]. apply IH in E as [-> ->]; auto.
Qed.
Lemma display_free x n : (forall d, is_digit d -> digit_char d <> x) -> free_of x (text_of (display_u64 n)).
Proof.
  intro H. destruct (display_digits n) as (a & _ & Fa & _ & ->). rewrite text_of_of. unfold free_of. induction Fa; cbn [map]; constructor; auto.
Qed.
Lemma display_comma_free n : free_of "," (text_of (display_u64 n)).
Proof. apply display_free. intros d Hd E. apply char_digit_char in Hd. rewrite E in Hd. discriminate. Qed.
Lemma hex_at_free s : at_free (text_of (hex_encode s)).
Proof.
  assert (K : forall n, n < 16 -> hexchar n <> "@"%char).
  { intros n Hn E. apply hexval_hexchar in Hn. rewrite E in Hn. discriminate. }
  induction s as [|c s IH]; [constructor|]. assert (B := byte_bound c). unfold at_free in *.
  change (Forall (fun c => c <> "@"%char) (hexchar (N_of_ascii c / 16) :: hexchar (N_of_ascii c mod 16) :: text_of (hex_encode s))).
  constructor; [apply K, N.div_lt_upper_bound; lia|]. constructor; [apply K, N.mod_lt; lia|exact IH].
Qed.
Lemma app_prefix_inv (p x y : string) : (p ++ x = p ++ y)%string -> x = y.
Proof. intro E. apply (f_equal text_of) in E. rewrite !text_of_app in E. apply app_inv_head in E. apply text_of_inj, E. Qed.
(** A line says everything about a block except its parent, its epoch and the boundary flag. *)
Theorem C54_line_lossless a b : line a = line b -> be_number a = be_number b /\ be_id a = be_id b /\ be_slot a = be_slot b /\ be_raw a = be_raw b.
Proof.
  unfold line. intro E. apply app_prefix_inv in E. apply (f_equal text_of) in E. rewrite !(text_of_app (display_u64 _)) in E.
  apply first_at in E as [E1 E]; [|apply display_comma_free..]. apply text_of_inj, display_inj in E1.
  apply (app_inv_head (text_of " point: ")) in E. rewrite !(text_of_app (be_id _)) in E.
  assert (K : forall x, at_free (text_of (display_u64 (be_slot x) ++ ", raw cbor hex: " ++ hex_encode (be_raw x))%string)).
  { intro x. rewrite !text_of_app. apply Forall_app; split; [apply display_at_free|]. apply Forall_app; split; [|apply hex_at_free]. repeat constructor; discriminate. }
  apply last_at in E as [E2 E]; [|apply K..]. apply text_of_inj in E2. apply text_of_inj in E. apply (f_equal text_of) in E. rewrite !(text_of_app (display_u64 _)) in E.
  apply first_at in E as [E3 E]; [|apply display_comma_free..]. apply text_of_inj, display_inj in E3.
  apply (app_inv_head (text_of " raw cbor hex: ")) in E. apply text_of_inj, encode_inj in E. auto.
Qed.

(** ** the start on the command line *)
Lemma split_first t : exists p, free_of "," p /\ ((t = p /\ split_comma t = [p]) \/ exists t', t = p ++ ","%char :: t' /\ split_comma t = p :: split_comma t').
Proof.
  induction t as [|c t IH]; [exists []; split; [constructor|left; auto]|]. cbn [split_comma]. destruct (Ascii.eqb_spec c ",") as [-> |N].
  - exists []. split; [constructor|]. right. exists t. auto.
  - destruct IH as (p & Fp & [[-> ->]|(t' & -> & ->)]); exists (c :: p); (split; [constructor; assumption|]); [left; auto|right; exists t'; auto].
Qed.
Lemma split_free p : free_of "," p -> split_comma p = [p].
Proof.
  induction 1 as [|c t Hc _ IH]; [reflexivity|]. cbn [split_comma]. destruct (Ascii.eqb_spec c ","); [contradiction|]. rewrite IH. reflexivity.
Qed.
Lemma split_at p t : free_of "," p -> split_comma (p ++ ","%char :: t) = p :: split_comma t.
Proof.
  induction 1 as [|c p Hc _ IH]; [reflexivity|]. cbn [app split_comma]. destruct (Ascii.eqb_spec c ","); [contradiction|]. rewrite IH. reflexivity.
Qed.
Definition comma_free (s : string) : Prop := free_of "," (text_of s).
Lemma parse_number a n : parse_u64 (text_of a) = Some n <-> text_number a (Z.of_N n) /\ n < 2 ^ 64.
Proof. apply u64_of_str_spec. Qed.

(** Exactly the texts that begin with a number of 64 bits and a comma are read; the identifier is what stands between the first
    comma and the second or the end. *)
Theorem C54_since s id slot : parse_since s = SinceOk id slot <->
  exists a rest, s = (a ++ "," ++ id ++ rest)%string /\ comma_free a /\ comma_free id /\ (rest = "" \/ exists more, rest = ("," ++ more)%string) /\
    text_number a (Z.of_N slot) /\ slot < 2 ^ 64.
Proof.
  unfold parse_since. split.
  - destruct (split_first (text_of s)) as (p & Fp & [[Et ->]|(t' & Et & ->)]); [destruct (parse_u64 p); discriminate|].
    destruct (parse_u64 p) as [n|] eqn:Ep; [|discriminate]. destruct (split_first t') as (q & Fq & Hq).
    intro H. assert (X : of_text q = id /\ n = slot) by (destruct Hq as [[_ Hq]|(t2 & _ & Hq)]; rewrite Hq in H; injection H as <- <-; auto). destruct X as [<- <-]. clear H.
    exists (of_text p), (of_text (drop (length q) t')). rewrite <- (text_of_of p) in Ep. apply parse_number in Ep as [Ep En].
    unfold comma_free. rewrite !text_of_of. split; [|split; [exact Fp|split; [exact Fq|split; [|split; [exact Ep|exact En]]]]].
    + apply text_of_inj. rewrite !text_of_app, !text_of_of, Et. f_equal. cbn. f_equal.
      destruct Hq as [[-> _]|(t2 & -> & _)]; [rewrite drop_all, app_nil_r; reflexivity|rewrite drop_app; reflexivity].
    + destruct Hq as [[-> _]|(t2 & -> & _)]; [left; rewrite drop_all; reflexivity|right]. rewrite drop_app. exists (of_text t2). reflexivity.
  - intros (a & rest & -> & Fa & Fi & Hr & Tn & Hn). rewrite !text_of_app. change (text_of ",") with [","%char]. cbn [app]. rewrite split_at by exact Fa.
    rewrite (proj2 (parse_number a slot) (conj Tn Hn)). destruct Hr as [-> |(more & ->)].
    + change (text_of "") with (@nil ascii). rewrite app_nil_r, split_free by exact Fi. rewrite of_text_of. reflexivity.
    + rewrite text_of_app. change (text_of ",") with [","%char]. cbn [app]. rewrite split_at by exact Fi. rewrite of_text_of. reflexivity.
Qed.
(** what a point is written as is read back *)
Theorem C54_since_written slot id : slot < 2 ^ 64 -> comma_free id -> parse_since (display_u64 slot ++ "," ++ id) = SinceOk id slot.
Proof.
  intros Hs Hi. apply C54_since. exists (display_u64 slot), "". split; [apply text_of_inj; rewrite !text_of_app; change (text_of "") with (@nil ascii); rewrite app_nil_r; reflexivity|]. split; [apply display_comma_free|]. split; [exact Hi|]. split; [auto|].
  apply u64_of_str_spec, u64_of_display, Hs.
Qed.
(** A number without a comma makes the program panic instead of giving an error. *)
Theorem C54_since_panics s : parse_since s = SincePanic <-> comma_free s /\ exists n, text_number s (Z.of_N n) /\ n < 2 ^ 64.
Proof.
  unfold parse_since. split.
  - destruct (split_first (text_of s)) as (p & Fp & [[Et ->]|(t' & Et & ->)]).
    + destruct (parse_u64 p) as [n|] eqn:Ep; [|discriminate]. intros _. subst p. split; [exact Fp|]. exists n. apply parse_number, Ep.
    + destruct (parse_u64 p); [|discriminate]. destruct (split_first t') as (q & _ & [[_ ->]|(t2 & _ & ->)]); discriminate.
  - intros (F & n & Tn & Hn). rewrite split_free by exact F. rewrite (proj2 (parse_number s n) (conj Tn Hn)). reflexivity.
Qed.

(** ** cases *)
Definition ex_h : fetch_action := FHandler true false.
Fixpoint times {A} (n : nat) (l : list A) : list A := match n with O => [] | S n => l ++ times n l end.
(** the node grows while the program runs; the program and the handler take turns *)
Definition ex_moves : list fetch_action := times 8 [FProgram; ex_h] ++ [FNode [ex_A; ex_B; ex_C; ex_D]] ++ times 40 [FProgram; ex_h].
Definition ex_fetch : fetch := fetch_run hex_decode ex_decode (ex_cfg 0) true (fetch_start [ex_A; ex_B; ex_C] None) ex_moves.
Example C54_case : ft_lines ex_fetch =
    ["Block #1, point: 42@11, raw cbor hex: 42"; "Block #2, point: 43@12, raw cbor hex: 43"; "Block #3, point: 44@13, raw cbor hex: 44"]%string /\
  ft_end ex_fetch = Some EndOk /\ length (blocks (ft_seen ex_fetch)) = 3%nat.
Proof. vm_compute. auto. Qed.
Lemma ex_honest c : c = [ex_A; ex_B; ex_C] \/ c = [ex_A; ex_B; ex_C; ex_D] -> honest hex_decode ex_decode (ex_cfg 0) c /\ Forall (readable ex_decode (ex_cfg 0) true) c.
Proof.
  intro Hc. split; [split|].
  - destruct Hc as [-> | ->]; repeat constructor; vm_compute; intro H; repeat (apply elem_of_cons in H as [H|H]; [discriminate|]); inversion H.
  - intros b H. assert (H' : b ∈ [ex_A; ex_B; ex_C; ex_D]) by (destruct Hc as [-> | ->]; [apply (elem_of_app [ex_A; ex_B; ex_C] [ex_D]); auto|exact H]).
    clear - H'. repeat (apply elem_of_cons in H' as [->|H']; [split; [reflexivity|]; split; [discriminate|]; eexists; split; [reflexivity|]; split; reflexivity|]). inversion H'.
  - destruct Hc as [-> | ->]; repeat constructor; eexists; reflexivity.
Qed.
Example C54_case_hypotheses : start_of (ex_cfg 0) None = BlockHeader 10 "41" /\ hex_decode "41" = Some "A"%string /\ "41"%string <> cf_genesis_parent (ex_cfg 0) /\
  NPoint 10 "A" ∈ map nb_point [ex_A; ex_B; ex_C] /\ node_grew [ex_A; ex_B; ex_C] ex_fetch /\ node_chain ex_fetch = [ex_A; ex_B; ex_C; ex_D] /\
  honest hex_decode ex_decode (ex_cfg 0) (node_chain ex_fetch) /\ Forall (good ex_decode (ex_cfg 0) true) [ex_A; ex_B; ex_C] /\ Forall (clean_f ex_decode (ex_cfg 0) true) ex_moves.
Proof.
  split; [reflexivity|]. split; [reflexivity|]. split; [discriminate|]. split; [left|]. split; [|split; [vm_compute; reflexivity|split; [|split]]].
  - intros t1 x t2 E. vm_compute in E. repeat (destruct t1 as [|? t1]; cbn [app] in E; [try discriminate|injection E as <- E]); try (destruct t1; discriminate).
    injection E as <- <-. exists [ex_D]. reflexivity.
  - replace (node_chain ex_fetch) with [ex_A; ex_B; ex_C; ex_D] by (vm_compute; reflexivity). apply ex_honest. auto.
  - repeat constructor; eexists; reflexivity.
  - repeat constructor; eexists; reflexivity.
Qed.
(** an endless schedule, and the whole run *)
Definition ex_endless (n : nat) : fetch_action := if Nat.even n then FProgram else ex_h.
Lemma ex_endless_fair : quiet_fair ex_endless.
Proof.
  split; [|split].
  - intro n. unfold ex_endless, ex_h. destruct (Nat.even n); reflexivity || exact Logic.I.
  - intro n. exists (2 * n)%nat. split; [lia|]. unfold ex_endless. rewrite Nat.even_mul. reflexivity.
  - intro n. exists (S (2 * n)), false. split; [lia|]. unfold ex_endless. rewrite Nat.even_succ, <- Nat.negb_even, Nat.even_mul. reflexivity.
Qed.
Example C54_all_case : exists n es, let f := fetch_run hex_decode ex_decode (ex_cfg 0) true (fetch_start [ex_A; ex_B; ex_C] None) (upto_n ex_endless n) in
  ft_end f = Some EndOk /\ made ex_decode (ex_cfg 0) true [ex_B; ex_C] es /\ ft_lines f = map line es.
Proof.
  destruct (ex_honest [ex_A; ex_B; ex_C]) as [H1 H2]; [auto|].
  apply (C54_all hex_decode ex_decode (ex_cfg 0) true [ex_A; ex_B; ex_C] None [] ex_A [ex_B; ex_C] 10 "41" "A" ex_endless); try reflexivity; try assumption; [discriminate|apply ex_endless_fair].
Qed.
(** from the beginning of the chain *)
Example C54_genesis_case : ft_lines (fetch_run hex_decode ex_decode (ex_cfg 0) true (fetch_start [ex_A; ex_B; ex_C] (Some ("00"%string, 0))) (times 40 [FProgram; ex_h])) =
  ["Block #0, point: 41@10, raw cbor hex: 41"; "Block #1, point: 42@11, raw cbor hex: 42"; "Block #2, point: 43@12, raw cbor hex: 43"]%string.
Proof. vm_compute. reflexivity. Qed.
Example C54_since_cases : parse_since "10,41" = SinceOk "41" 10 /\ parse_since "+7,ab,cd" = SinceOk "ab" 7 /\ parse_since "10" = SincePanic /\
  parse_since "41,10" = SinceOk "10" 41 /\ parse_since "x,41" = SinceErr /\ parse_since "" = SinceErr /\ parse_since "18446744073709551616,41" = SinceErr.
Proof. vm_compute. repeat split; reflexivity. Qed.

(** What does not hold. *)
(** When the node changes to another branch, the program ends without an error: the last line it printed is of a block that is no
    longer on the chain, and the blocks that replaced it are not printed. *)
Definition ex_decode_fork (raw : string) : option mblock :=
  if String.eqb raw "X" then Some (MBlock_ "X" (Some "B") 2 15 Later) else if String.eqb raw "Y" then Some (MBlock_ "Y" (Some "X") 3 16 Later) else ex_decode raw.
Theorem C54_fork_refuted : exists c0 c1 l, let f := fetch_run hex_decode ex_decode_fork (ex_cfg 0) true (fetch_start c0 None) l in
  c0 = [ex_A; ex_B; ex_C] /\ c1 = [ex_A; ex_B; ex_block 15 "X"; ex_block 16 "Y"] /\ chains (ft_seen f) = [c1] /\ Forall (clean_f ex_decode_fork (ex_cfg 0) true) l /\
  ft_end f = Some EndOk /\ ft_lines f = ["Block #1, point: 42@11, raw cbor hex: 42"; "Block #2, point: 43@12, raw cbor hex: 43"]%string.
Proof.
  exists [ex_A; ex_B; ex_C], [ex_A; ex_B; ex_block 15 "X"; ex_block 16 "Y"], (times 14 [FProgram; ex_h] ++ [FNode [ex_A; ex_B; ex_block 15 "X"; ex_block 16 "Y"]] ++ times 40 [FProgram; ex_h]).
  split; [reflexivity|]. split; [reflexivity|]. split; [vm_compute; reflexivity|]. split; [repeat constructor; eexists; reflexivity|]. vm_compute. auto.
Qed.

Definition all_C54 := (@C54_prints, @C54_prints_from_genesis, @C54_complete, @C54_ends, @C54_no_error, @C54_all, @C54_line_lossless, @C54_since, @C54_since_written, @C54_since_panics, @C54_fork_refuted).
Print Assumptions all_C54.
