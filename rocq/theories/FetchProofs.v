(** The fetcher is a caller of the Cardano source that resumes after the last block that it printed. *)
From Coq Require Import NArith Ascii String Lia.
From stdpp Require Import gmap strings list.
From Verif Require Import ValueModel EstimModel TimeModel UtilModel CardanoModel CardanoSpec CardanoProofs CardanoProps CardanoLiveProps JsonModel FetchModel.
Open Scope N_scope.

Lemma got_cons x t : got (x :: t) = got_of x ++ got t. Proof. reflexivity. Qed.
Lemma blocks_snoc t m : blocks (t ++ [Got m]) = blocks t ++ blocks_of m.
Proof. rewrite blocks_app. unfold blocks at 2. cbn. rewrite app_nil_r. reflexivity. Qed.
Lemma got_quiet t : (forall m, Got m ∉ t) -> got t = [].
Proof.
  induction t as [|x t IH]; intro H; [reflexivity|]. rewrite got_cons, IH by (intros m X; apply (H m); right; exact X).
  destruct x; try reflexivity. destruct (H m). left.
Qed.
Lemma got_in t m : m ∈ got t <-> Got m ∈ t.
Proof.
  induction t as [|x t IH]; [split; intro H; inversion H|]. rewrite got_cons, elem_of_app, IH, elem_of_cons. destruct x; cbn [got_of];
    rewrite ?elem_of_list_singleton, ?elem_of_nil; split; intros [H|H]; auto; try contradiction; try discriminate; try (left; congruence).
Qed.
Lemma first_asked t : Forall not_asked t \/ exists u f v, t = u ++ Asked f :: v /\ Forall not_asked u.
Proof.
  induction t as [|x t IH]; [left; constructor|].
  destruct x; try (destruct IH as [IH|(u & f & v & -> & H)]; [left; constructor; [exact I|exact IH]|]; right; eexists (_ :: u), f, v; split; [reflexivity|]; constructor; [exact I|exact H]).
  right. exists [], from, t. split; [reflexivity|constructor].
Qed.
Lemma last_asked_unique a f b a' f' b' : a ++ Asked f :: b = a' ++ Asked f' :: b' -> Forall not_asked b -> Forall not_asked b' -> a = a' /\ f = f' /\ b = b'.
Proof.
  revert a'. induction a as [|x a IH]; intros a' E H H'; destruct a' as [|x' a']; cbn [app] in E.
  - injection E as -> ->. auto.
  - injection E as <- ->. exfalso. rewrite Forall_forall in H. apply (H (Asked f')). apply elem_of_app. right. left.
  - injection E as -> <-. exfalso. rewrite Forall_forall in H'. apply (H' (Asked f)). apply elem_of_app. right. left.
  - injection E as -> E. destruct (IH a' E H H') as (-> & -> & ->). auto.
Qed.

Section Fetching.
  Context (read_id : string -> option string) (decode : string -> option mblock) (cfg : config) (chk : bool).
  Notation step := (CardanoModel.step read_id decode cfg chk).
  Notation run := (CardanoModel.run read_id decode cfg chk).
  Notation fstep := (fetch_step read_id decode cfg chk).
  Notation frun := (fetch_run read_id decode cfg chk).
  Notation good := (good decode cfg chk).
  Notation clean := (clean decode cfg chk).
  Notation honest := (honest read_id decode cfg).
  Notation trace c0 l := (snd (run (initial c0) l)).

  Lemma run_app l : forall s l', run s (l ++ l') = (let (s1, o1) := run s l in let (s2, o2) := run s1 l' in (s2, o1 ++ o2)).
  Proof.
    induction l as [|a l IH]; intros s l'; cbn [app CardanoModel.run]; [destruct (run s l'); reflexivity|].
    destruct (step s a) as [[s1 o1]|]; [|apply IH]. rewrite IH. destruct (run s1 l) as [s2 o2]. destruct (run s2 l') as [s3 o3]. rewrite app_assoc. reflexivity.
  Qed.
  Lemma run_snoc s l a s' o : step (fst (run s l)) a = Some (s', o) -> run s (l ++ [a]) = (s', snd (run s l) ++ o).
  Proof. intro H. rewrite run_app. destruct (run s l) as [s1 o1]. cbn [fst] in H. cbn [CardanoModel.run]. rewrite H. cbn [snd]. rewrite app_nil_r. reflexivity. Qed.
  Lemma frun_app l : forall f l', frun f (l ++ l') = frun (frun f l) l'.
  Proof. induction l as [|a l IH]; intros f l'; [reflexivity|]. cbn [app fetch_run]. apply IH. Qed.

  (** the points that the next pull is given *)
  Definition next_points (since : option (string * N)) (t : list seen) : list point :=
    match last (blocks t) with Some b => [BlockHeader (be_slot b) (be_id b)] | None => start_points since end.
  Definition start_of (since : option (string * N)) : point := match since with Some (id, slot) => BlockHeader slot id | None => cf_from cfg end.
  Definition unfinished (t : list seen) : Prop := MErr ∉ got t /\ GotNone ∉ t /\ GotErr ∉ t.
  Definition clean_f (a : fetch_action) : Prop := match a with FHandler ok _ => ok = true | FNode c => Forall good c | FProgram => True end.

  Record fine (c0 : list nblock) (since : option (string * N)) (cl : bool) (f : fetch) : Prop := {
    fn_run : exists al, run (initial c0) al = (ft_in f, ft_seen f) /\ (cl = true -> Forall clean al);
    fn_lines : ft_lines f = map line (blocks (ft_seen f));
    fn_from : ft_from f = next_points since (ft_seen f);
    fn_called : forall t1 from t2, ft_seen f = t1 ++ Called from :: t2 -> from = next_points since t1;
    fn_end : match ft_end f with
             | None => unfinished (ft_seen f)
             | Some EndOk => exists t, ft_seen f = t ++ [GotNone] /\ unfinished t
             | Some EndErr => exists t, (ft_seen f = t ++ [Got MErr] \/ ft_seen f = t ++ [GotErr]) /\ unfinished t
             end;
    fn_open : s_open (ft_in f) = true;
    fn_now : ft_end f = None ->
      (Forall not_asked (ft_seen f) /\ s_current (ft_in f) = None /\ s_c (ft_in f) <> CWait) \/
      exists t1 g t2, ft_seen f = t1 ++ Asked g :: t2 /\ Forall not_asked t2 /\ s_current (ft_in f) <> None /\ (s_c (ft_in f) = CWait \/ got t2 <> []) /\
        forall from, s_c (ft_in f) = CSend from -> exists v w, t2 = v ++ Ended :: w /\ got v <> [] /\ got w = [];
    fn_asked : forall t1 g t2, ft_seen f = t1 ++ Asked g :: t2 -> Forall not_asked t1 \/
      exists u g' v w, t1 = u ++ Asked g' :: v ++ Ended :: w /\ Forall not_asked (v ++ Ended :: w) /\ got v <> [] /\ got w = []
  }.

  (** where the source can be, and what is seen, in a move *)
  Lemma closes_c (l : list (list point * nat)) s : s_c (foldl (fun s r => close_tx s (snd r)) s l) = s_c s.
  Proof. revert s. induction l as [|r l IH]; intro s; cbn [foldl]; [|rewrite IH]; reflexivity. Qed.
  Lemma closes_current (l : list (list point * nat)) s : s_current (foldl (fun s r => close_tx s (snd r)) s l) = s_current s.
  Proof. revert s. induction l as [|r l IH]; intro s; cbn [foldl]; [|rewrite IH]; reflexivity. Qed.
  Lemma closes_open (l : list (list point * nat)) s : s_open (foldl (fun s r => close_tx s (snd r)) s l) = s_open s.
  Proof. revert s. induction l as [|r l IH]; intro s; cbn [foldl]; [|rewrite IH]; reflexivity. Qed.
  Lemma step_handler s ok late s' o : step s (Handler ok late) = Some (s', o) -> o = [] /\ s_c s' = s_c s /\ s_current s' = s_current s /\ s_open s' = s_open s.
  Proof.
    cbn [CardanoModel.step]. destruct (handler _ _ _ _ s ok late) as [s1|] eqn:H; [|discriminate]. intro E. injection E as <- <-. split; [reflexivity|].
    unfold handler in H.
    repeat match type of H with
           | context [match ?x with _ => _ end] => destruct x eqn:?
           | context [if ?x then _ else _] => destruct x eqn:?
           end; try discriminate; injection H as <-; cbn; auto;
      try (match goal with E : send _ _ _ = SSent _ |- _ => unfold send in E; destruct (c_rx _); [|discriminate]; destruct (_ <? _); [|discriminate]; injection E as <-; cbn; auto end).
    unfold die. cbn [s_c s_current s_open]. rewrite closes_c, closes_current, closes_open. auto.
  Qed.
  Lemma caller_cases s s' o : caller cfg s = Some (s', o) ->
    s_open s' = s_open s /\
    match s_c s with
    | CIdle => False
    | CRecv from =>
        (s_current s = None /\ o = [] /\ s_c s' = CSend from /\ s_current s' = s_current s) \/
        (s_current s <> None /\ s_current s' = s_current s /\ ((exists m, o = [Got m] /\ s_c s' = CIdle) \/ (o = [Ended] /\ s_c s' = CSend from)))
    | CSend from =>
        (o = [GotErr] /\ s_c s' = CIdle /\ s_current s' = s_current s) \/
        (o = [Asked (match from with [] => [cf_from cfg] | _ => from end)] /\ s_c s' = CWait /\ s_current s' <> None)
    | CWait => s_current s <> None /\ s_current s' = s_current s /\ s_c s' = CIdle /\ ((exists m, o = [Got m]) \/ o = [GotNone])
    end.
  Proof.
    unfold caller, recv. destruct (s_c s) as [|from|from|]; intro H; [discriminate| | |].
    - destruct (s_current s) as [ch|] eqn:Ec.
      + destruct (c_queue (chan_of s ch)) as [|m q]; [destruct (c_tx (chan_of s ch)); [discriminate|]|]; injection H as <- <-; cbn [set_c set_chan s_open s_c s_current]; rewrite ?Ec;
          (split; [reflexivity|]); right; (split; [congruence|]); (split; [reflexivity|]); eauto.
      + injection H as <- <-. cbn. split; [reflexivity|]. left. auto.
    - destruct (s_h s); try (injection H as <- <-; cbn; split; [reflexivity|]; left; auto);
        (destruct (s_requests s); [|discriminate]; injection H as <- <-; split; [cbn [s_open]; unfold drop_rx; destruct (s_current s); reflexivity|]; right; split; [reflexivity|]; split; [reflexivity|discriminate]).
    - destruct (s_current s) as [ch|] eqn:Ec; [|discriminate].
      destruct (c_queue (chan_of s ch)) as [|m q]; [destruct (c_tx (chan_of s ch)); [discriminate|]|]; injection H as <- <-; cbn [set_c set_chan s_open s_c s_current]; rewrite ?Ec;
        (split; [reflexivity|]); (split; [congruence|]); (split; [reflexivity|]); eauto.
  Qed.

  Lemma fine_start c0 since cl : fine c0 since cl (fetch_start c0 since).
  Proof.
    constructor; cbn.
    - exists []. split; [reflexivity|]. intros _. constructor.
    - reflexivity.
    - reflexivity.
    - intros t1 from t2 E. destruct t1; discriminate.
    - repeat split; intro H; inversion H.
    - reflexivity.
    - intros _. left. split; [constructor|]. split; [reflexivity|discriminate].
    - intros t1 g t2 E. destruct t1; discriminate.
  Qed.

  Lemma snoc_split {A} (a b c : list A) x y : a ++ [x] = b ++ y :: c -> (c = [] /\ a = b /\ x = y) \/ exists c', c = c' ++ [x] /\ a = b ++ y :: c'.
  Proof.
    destruct c as [|z c _] using rev_ind; intro E.
    - left. apply app_inj_tail in E as [-> ->]. auto.
    - right. rewrite app_comm_cons, app_assoc in E. apply app_inj_tail in E as [-> ->]. exists c. auto.
  Qed.
  Lemma fine_move c0 since cl f a f' : fine c0 since cl f -> (cl = true -> clean_f a) -> fstep f a = Some f' -> fine c0 since cl f'.
  Proof.
    intros [(al & R & Cl) Li Fr Ca En Op Now As] Ha. unfold fetch_step. destruct (ft_end f) eqn:Ef; [discriminate|].
    destruct (step (ft_in f) (source_action f a)) as [[s o]|] eqn:Es; [|discriminate]. intro E. injection E as <-. specialize (Now eq_refl).
    assert (R' : run (initial c0) (al ++ [source_action f a]) = (s, ft_seen f ++ o)).
    { erewrite run_snoc; rewrite R; [reflexivity|exact Es]. }
    assert (Cl' : cl = true -> Forall clean (al ++ [source_action f a])).
    { intro H. apply Forall_app. split; [auto|]. constructor; [|constructor]. destruct a; cbn; [destruct (s_c (ft_in f)); exact I|apply (Ha H)..]. }
    (* nothing is seen, or something that is neither a call nor a request nor a result *)
    assert (Quiet : forall g, ft_in g = s -> ft_from g = ft_from f -> ft_lines g = ft_lines f -> ft_end g = None -> ft_seen g = ft_seen f ++ o ->
              (o = [] \/ o = [Ended] \/ exists c, o = [NodeHas c]) -> s_open s = true ->
              ((Forall not_asked (ft_seen f ++ o) /\ s_current s = None /\ s_c s <> CWait) \/
              exists t1 g t2, ft_seen f ++ o = t1 ++ Asked g :: t2 /\ Forall not_asked t2 /\ s_current s <> None /\ (s_c s = CWait \/ got t2 <> []) /\
                forall from, s_c s = CSend from -> exists v w, t2 = v ++ Ended :: w /\ got v <> [] /\ got w = []) -> fine c0 since cl g).
    { intros g E1 E2 E3 E4 E5 Ho Hop Hn. assert (G : got (ft_seen f ++ o) = got (ft_seen f)).
      { rewrite got_app. destruct Ho as [-> |[-> |[c ->]]]; cbn; rewrite ?app_nil_r; reflexivity. }
      assert (B : blocks (ft_seen f ++ o) = blocks (ft_seen f)) by (unfold blocks; rewrite G; reflexivity).
      assert (O : forall x t1 t2, ft_seen f ++ o = t1 ++ x :: t2 -> match x with Called _ | Asked _ => True | _ => False end -> exists t2', ft_seen f = t1 ++ x :: t2').
      { intros x t1 t2 E X. destruct Ho as [-> |[-> |[c ->]]]; [rewrite app_nil_r in E; eauto|..]; apply snoc_split in E as [(_ & _ & <-)|(c' & _ & E)]; eauto; destruct X. }
      constructor.
      - exists (al ++ [source_action f a]). rewrite E1, E5. auto.
      - rewrite E3, E5, B. exact Li.
      - rewrite E2, E5. unfold next_points. rewrite B. exact Fr.
      - intros t1 from t2 E. rewrite E5 in E. destruct (O _ _ _ E Logic.I) as [t2' E']. apply (Ca _ _ _ E').
      - rewrite E4, E5. destruct En as (N1 & N2 & N3). split; [rewrite G; exact N1|]. rewrite !not_elem_of_app.
        destruct Ho as [-> |[-> |[c ->]]]; rewrite ?elem_of_list_singleton, ?elem_of_nil; split; split; auto; discriminate.
      - rewrite E1. exact Hop.
      - intros _. rewrite E1, E5. exact Hn.
      - intros t1 g0 t2 E. rewrite E5 in E. destruct (O _ _ _ E Logic.I) as [t2' E']. apply (As _ _ _ E'). }
    assert (Nowx : forall o', Forall not_asked o' -> got o' = [] -> (forall from, s_c s = CSend from -> s_c (ft_in f) = CSend from) -> (s_c s = CWait <-> s_c (ft_in f) = CWait) ->
              s_current s = s_current (ft_in f) ->
              ((Forall not_asked (ft_seen f ++ o') /\ s_current s = None /\ s_c s <> CWait) \/
              exists t1 g t2, ft_seen f ++ o' = t1 ++ Asked g :: t2 /\ Forall not_asked t2 /\ s_current s <> None /\ (s_c s = CWait \/ got t2 <> []) /\
                forall from, s_c s = CSend from -> exists v w, t2 = v ++ Ended :: w /\ got v <> [] /\ got w = [])).
    { intros o' Na Gn Hs Hw Hc. destruct Now as [(N1 & N2 & N3)|(t1 & g & t2 & N1 & N2 & N3 & N4 & N5)].
      - left. split; [apply Forall_app; auto|]. split; [congruence|]. intro X. apply N3, Hw, X.
      - right. exists t1, g, (t2 ++ o'). split; [rewrite N1, <- app_assoc; reflexivity|]. split; [apply Forall_app; auto|]. split; [congruence|].
        split; [rewrite got_app, Gn, app_nil_r; destruct N4 as [N4|N4]; [left; apply Hw, N4|auto]|].
        intros from X. destruct (N5 from (Hs _ X)) as (v & w & -> & G1 & G2). exists v, (w ++ o'). split; [rewrite <- app_assoc; reflexivity|]. split; [exact G1|].
        rewrite got_app, G2, Gn. reflexivity. }
    destruct a as [|ok late|c]; cbn [source_action] in Es.
    - (* the program *)
      destruct (s_c (ft_in f)) as [|from|from|] eqn:Ec; cbn [CardanoModel.step] in Es.
      + (* it calls pull *)
        rewrite Ec, Op in Es. injection Es as <- <-. unfold fetch_returned. constructor; cbn [ft_in ft_seen ft_lines ft_from ft_end].
        * eauto.
        * rewrite blocks_app. unfold blocks at 2. cbn. rewrite app_nil_r. exact Li.
        * unfold next_points. rewrite blocks_app. unfold blocks at 2. cbn. rewrite app_nil_r. exact Fr.
        * intros t1 from t2 E. apply snoc_split in E as [(_ & <- & E)|(c' & _ & E)]; [injection E as <-; exact Fr|apply (Ca _ _ _ E)].
        * destruct En as (N1 & N2 & N3). split; [rewrite got_app; cbn; rewrite app_nil_r; exact N1|]. rewrite !not_elem_of_app, !elem_of_list_singleton. split; split; auto; discriminate.
        * exact Op.
        * intros _. apply (Nowx [Called (ft_from f)]); [repeat constructor|reflexivity|cbn; discriminate|cbn; split; discriminate|reflexivity].
        * intros t1 g t2 E. apply snoc_split in E as [(_ & _ & E)|(c' & _ & E)]; [discriminate|apply (As _ _ _ E)].
      + (* it is served from the request that goes on, finds its end, or has made none *)
        destruct (caller_cases _ _ _ Es) as (Ho & K). rewrite Ec in K. destruct K as [(K1 & -> & K2 & K3)|(K1 & K2 & [(m & -> & K3)|(-> & K3)])].
        * apply Quiet; cbn; try reflexivity; [auto|congruence|]. left. destruct Now as [(N1 & N2 & N3)|(t1 & g & t2 & N1 & N2 & N3 & _)]; [|congruence].
          rewrite app_nil_r. split; [exact N1|]. split; congruence.
        * destruct Now as [(N1 & N2 & N3)|(t1 & g & t2 & N1 & N2 & N3 & N4 & N5)]; [congruence|].
          assert (Fin : forall from' lines' e, lines' = map line (blocks (ft_seen f ++ [Got m])) -> from' = next_points since (ft_seen f ++ [Got m]) ->
                    (e = None /\ m <> MErr \/ e = Some EndErr /\ m = MErr) -> fine c0 since cl (Fetch s from' lines' e (ft_seen f ++ [Got m]))).
          { intros from' lines' e H1 H2 H3. constructor; cbn [ft_in ft_seen ft_lines ft_from ft_end].
            - eauto.
            - exact H1.
            - exact H2.
            - intros u1 fr u2 E. apply snoc_split in E as [(_ & _ & E)|(c' & _ & E)]; [discriminate|apply (Ca _ _ _ E)].
            - destruct En as (M1 & M2 & M3). destruct H3 as [[-> H3]|[-> ->]].
              + split; [rewrite got_app, not_elem_of_app; cbn; rewrite elem_of_list_singleton; split; [exact M1|congruence]|].
                rewrite !not_elem_of_app, !elem_of_list_singleton. split; split; auto; discriminate.
              + exists (ft_seen f). split; [auto|]. split; auto.
            - congruence.
            - intros _. right. exists t1, g, (t2 ++ [Got m]). split; [rewrite N1, <- app_assoc; reflexivity|]. split; [apply Forall_app; split; [exact N2|repeat constructor]|].
              split; [congruence|]. split; [right; rewrite got_app; cbn; destruct (got t2); discriminate|]. intros fr X. rewrite K3 in X. discriminate.
            - intros u1 g0 u2 E. apply snoc_split in E as [(_ & _ & E)|(c' & _ & E)]; [discriminate|apply (As _ _ _ E)]. }
          destruct m as [p|b|]; unfold fetch_returned; apply Fin; rewrite ?blocks_snoc; cbn [blocks_of]; rewrite ?app_nil_r, ?map_app; cbn [map next_from]; rewrite <- ?Li; auto;
            try (left; split; [reflexivity|discriminate]); unfold next_points; rewrite blocks_snoc; cbn [blocks_of]; rewrite ?app_nil_r, ?last_snoc; try reflexivity; exact Fr.
        * apply Quiet; cbn; try reflexivity; [auto|congruence|]. right. destruct Now as [(N1 & N2 & N3)|(t1 & g & t2 & N1 & N2 & N3 & N4 & N5)]; [congruence|].
          exists t1, g, (t2 ++ [Ended]). split; [rewrite N1, <- app_assoc; reflexivity|]. split; [apply Forall_app; split; [exact N2|repeat constructor]|]. split; [congruence|].
          destruct N4 as [N4|N4]; [congruence|]. split; [right; rewrite got_app; destruct (got t2); [congruence|discriminate]|].
          intros fr _. exists t2, []. auto.
      + (* it makes a request *)
        destruct (caller_cases _ _ _ Es) as (Ho & K). rewrite Ec in K. destruct K as [(-> & K1 & K2)|(-> & K1 & K2)].
        * unfold fetch_returned. constructor; cbn [ft_in ft_seen ft_lines ft_from ft_end].
          -- eauto.
          -- rewrite blocks_app. unfold blocks at 2. cbn. rewrite app_nil_r. exact Li.
          -- unfold next_points. rewrite blocks_app. unfold blocks at 2. cbn. rewrite app_nil_r. exact Fr.
          -- intros u1 fr u2 E. apply snoc_split in E as [(_ & _ & E)|(c' & _ & E)]; [discriminate|apply (Ca _ _ _ E)].
          -- exists (ft_seen f). auto.
          -- congruence.
          -- discriminate.
          -- intros u1 g0 u2 E. apply snoc_split in E as [(_ & _ & E)|(c' & _ & E)]; [discriminate|apply (As _ _ _ E)].
        * unfold fetch_returned. constructor; cbn [ft_in ft_seen ft_lines ft_from ft_end].
          -- eauto.
          -- rewrite blocks_app. unfold blocks at 2. cbn. rewrite app_nil_r. exact Li.
          -- unfold next_points. rewrite blocks_app. unfold blocks at 2. cbn. rewrite app_nil_r. exact Fr.
          -- intros u1 fr u2 E. apply snoc_split in E as [(_ & _ & E)|(c' & _ & E)]; [discriminate|apply (Ca _ _ _ E)].
          -- destruct En as (N1 & N2 & N3). split; [rewrite got_app; cbn; rewrite app_nil_r; exact N1|]. rewrite !not_elem_of_app, !elem_of_list_singleton. split; split; auto; discriminate.
          -- congruence.
          -- intros _. right. eexists (ft_seen f), _, []. split; [reflexivity|]. split; [constructor|]. split; [exact K2|]. split; [auto|]. intros fr X. rewrite K1 in X. discriminate.
          -- intros u1 g0 u2 E. apply snoc_split in E as [(_ & <- & E)|(c' & _ & E)]; [|apply (As _ _ _ E)].
             destruct Now as [(N1 & _)|(t1 & g & t2 & N1 & N2 & N3 & N4 & N5)]; [auto|]. right. destruct (N5 _ eq_refl) as (v & w & -> & G1 & G2).
             exists t1, g, v, w. auto.
      + (* it waits for the first answer *)
        destruct (caller_cases _ _ _ Es) as (Ho & K). rewrite Ec in K. destruct K as (K1 & K2 & K3 & [(m & ->)| ->]).
        * destruct Now as [(N1 & N2 & N3)|(t1 & g & t2 & N1 & N2 & N3 & N4 & N5)]; [congruence|].
          assert (Fin : forall from' lines' e, lines' = map line (blocks (ft_seen f ++ [Got m])) -> from' = next_points since (ft_seen f ++ [Got m]) ->
                    (e = None /\ m <> MErr \/ e = Some EndErr /\ m = MErr) -> fine c0 since cl (Fetch s from' lines' e (ft_seen f ++ [Got m]))).
          { intros from' lines' e H1 H2 H3. constructor; cbn [ft_in ft_seen ft_lines ft_from ft_end].
            - eauto.
            - exact H1.
            - exact H2.
            - intros u1 fr u2 E. apply snoc_split in E as [(_ & _ & E)|(c' & _ & E)]; [discriminate|apply (Ca _ _ _ E)].
            - destruct En as (M1 & M2 & M3). destruct H3 as [[-> H3]|[-> ->]].
              + split; [rewrite got_app, not_elem_of_app; cbn; rewrite elem_of_list_singleton; split; [exact M1|congruence]|].
                rewrite !not_elem_of_app, !elem_of_list_singleton. split; split; auto; discriminate.
              + exists (ft_seen f). split; [auto|]. split; auto.
            - congruence.
            - intros _. right. exists t1, g, (t2 ++ [Got m]). split; [rewrite N1, <- app_assoc; reflexivity|]. split; [apply Forall_app; split; [exact N2|repeat constructor]|].
              split; [congruence|]. split; [right; rewrite got_app; cbn; destruct (got t2); discriminate|]. intros fr X. rewrite K3 in X. discriminate.
            - intros u1 g0 u2 E. apply snoc_split in E as [(_ & _ & E)|(c' & _ & E)]; [discriminate|apply (As _ _ _ E)]. }
          destruct m as [p|b|]; unfold fetch_returned; apply Fin; rewrite ?blocks_snoc; cbn [blocks_of]; rewrite ?app_nil_r, ?map_app; cbn [map next_from]; rewrite <- ?Li; auto;
            try (left; split; [reflexivity|discriminate]); unfold next_points; rewrite blocks_snoc; cbn [blocks_of]; rewrite ?app_nil_r, ?last_snoc; try reflexivity; exact Fr.
        * unfold fetch_returned. constructor; cbn [ft_in ft_seen ft_lines ft_from ft_end].
          -- eauto.
          -- rewrite blocks_app. unfold blocks at 2. cbn. rewrite app_nil_r. exact Li.
          -- unfold next_points. rewrite blocks_app. unfold blocks at 2. cbn. rewrite app_nil_r. exact Fr.
          -- intros u1 fr u2 E. apply snoc_split in E as [(_ & _ & E)|(c' & _ & E)]; [discriminate|apply (Ca _ _ _ E)].
          -- exists (ft_seen f). auto.
          -- congruence.
          -- discriminate.
          -- intros u1 g0 u2 E. apply snoc_split in E as [(_ & _ & E)|(c' & _ & E)]; [discriminate|apply (As _ _ _ E)].
    - destruct (step_handler _ _ _ _ _ Es) as (-> & K1 & K2 & K3). apply Quiet; cbn; try reflexivity; [auto|congruence|].
      apply (Nowx []); [constructor|reflexivity|intros; congruence|rewrite K1; reflexivity|exact K2].
    - cbn [CardanoModel.step] in Es. injection Es as <- <-. apply Quiet; cbn; try reflexivity; [eauto|exact Op|].
      apply (Nowx [NodeHas c]); cbn; [repeat constructor|reflexivity|auto|reflexivity|reflexivity].
  Qed.
  Lemma fine_run c0 since cl l : forall f, fine c0 since cl f -> (cl = true -> Forall clean_f l) -> fine c0 since cl (frun f l).
  Proof.
    induction l as [|a l IH]; intros f F Hl; [exact F|]. cbn [fetch_run].
    assert (Hl' : cl = true -> Forall clean_f l) by (intro H; specialize (Hl H); inversion Hl; assumption).
    destruct (fstep f a) as [f'|] eqn:E; [|apply IH; assumption]. apply IH; [|exact Hl']. eapply fine_move; [exact F| |exact E].
    intro H. specialize (Hl H). inversion Hl; assumption.
  Qed.

  (** the fetcher resumes after the last block *)
  Lemma fetch_faithful c0 since cl f : fine c0 since cl f -> faithful (start_of since) (ft_seen f).
  Proof.
    intros F t1 g t2 E. destruct (fn_run _ _ _ _ F) as (al & R & _).
    assert (E' : trace c0 al = t1 ++ Asked g :: t2) by (rewrite R; exact E).
    destruct (C38_asked read_id decode cfg chk c0 al t1 g t2 E') as (a & from & b & -> & Hb & ->).
    assert (Ef := fn_called _ _ _ _ F a from (b ++ Asked (match from with [] => [cf_from cfg] | _ => from end) :: t2) ltac:(rewrite E, <- app_assoc; reflexivity)).
    assert (B : blocks (a ++ Called from :: b) = blocks a).
    { rewrite blocks_app. unfold blocks at 2. rewrite got_cons. cbn [got_of app]. rewrite got_quiet; [apply app_nil_r|]. intros m X. rewrite Forall_forall in Hb. apply (Hb _ X). }
    unfold resume. rewrite B, Ef. unfold next_points. destruct (last (blocks a)) as [x|]; [reflexivity|]. unfold start_points, start_of. destruct since as [[id slot]|]; reflexivity.
  Qed.
End Fetching.
