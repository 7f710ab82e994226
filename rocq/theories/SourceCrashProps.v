(** * C67: the confirming source after a crash in the middle of a pull, and after a crash that
    lost a confirmed block *)
From Coq Require Import Lia NArith List.
From stdpp Require Import prelude numbers gmap sorting list.
From Verif Require Import MultiverseModel MultiverseSpec MultiverseProofs MultiverseHistProofs
  MultiverseQueryProofs MultiverseProps MultiverseCrashModel MultiverseCrashProps SourceModel SourceSpec SourceProofs
  SourceRunProofs SourceProps SourceCrashModel.

Local Open Scope N_scope.

(** ** The writes are what a pull does to the tree *)
Lemma gc_tree ds : forall m sel m', gc m sel ds = Done m' ->
  m_tree m' = apply_writes (m_tree m) (gc_writes m sel ds).
Proof.
  induction ds as [|[k a] ds IH]; intros m sel m' E; cbn [gc gc_writes] in *.
  - by injection E as <-.
  - destruct (mv_remove ((k, a) :: ds ++ sel) m k) as [[m1 b]| |] eqn:E1; try done.
    rewrite apply_writes_app. rewrite (IH _ _ _ E). f_equal.
    apply (C67_call_writes m _ m1 (RBlock b)). cbn [mv_step]. by rewrite E1.
Qed.

Section crash.
Context {point : Type} `{EqDecision point} (nf : block -> option point).

(** A pull that neither fails nor panics changes the tree by its writes. *)
Theorem C67_pull_writes enum st from ans st' asked r :
  ms_pull nf enum st from ans = (st', asked, r) -> r <> PErr -> r <> PPanic ->
  m_tree (ms_mv st') = apply_writes (m_tree (ms_mv st)) (pull_writes nf enum st from ans).1.
Proof.
  unfold ms_pull, pull_writes. intros E H1 H2.
  destruct (ms_checkpoints nf enum st from) as [r0|cps]; [by injection E as <- <- <-|].
  destruct ans as [| |[t|b]]; [by injection E as <- <- <-..|].
  destruct (mv_get (ms_mv st) (b_id b)) as [x|]; [by injection E as <- <- <-|].
  assert (forall m' sel, insert_and_gc enum (ms_mv st) b (ms_depth st) = Done (m', sel) ->
    m_tree m' = apply_writes (m_tree (ms_mv st))
      (insert_and_gc_writes enum (ms_mv st) b (ms_depth st))) as H.
  { clear. unfold insert_and_gc, insert_and_gc_writes. intros m' sel E.
    destruct (mv_insert (ms_mv st) b) as [m1| |] eqn:E1; try done.
    destruct (mv_select enum m1 [] (ms_depth st) 1) as [[sl dc]| |]; try done.
    destruct (gc m1 _ _) as [m2| |] eqn:E3; try done. injection E as <- <-.
    rewrite apply_writes_app, (gc_tree _ _ _ _ E3). f_equal.
    apply (C67_call_writes (ms_mv st) (OInsert b) m1 RUnit). cbn [mv_step]. by rewrite E1. }
  destruct (insert_and_gc enum (ms_mv st) b (ms_depth st)) as [[m' sel]| |];
    [|by injection E as <- <- <-..].
  specialize (H _ _ eq_refl). cbn [fst]. rewrite <- H.
  destruct (new_stable (ms_confirmed st) sel) as [k|]; [|by injection E as <- <- <-].
  destruct (mv_get m' k); by injection E as <- <- <-.
Qed.

(** ** Opening a store that holds at least what must be kept *)
Lemma reopen_ok enum d m s S' R D : fair enum -> rel m s -> s_from s = 0 -> inv d S' R D ->
  (forall b, b ∈ S' -> b ∈ s_blocks s) -> (forall b, b ∈ s_blocks s -> b ∈ R) ->
  exists m' s', mv_load_from (m_tree m) (m_from m) = Done m' /\ rel m' s' /\ s_from s' = 0 /\
    inv d (s_blocks s') R D /\ ms_new enum m' d = Done (Ms m' d (b_id <$> last D)).
Proof.
  intros Hf Rl F0 I Hsub Hsup. pose proof (grows_tree _ _ (i_grows _ _ _ _ I)) as T.
  destruct (rel_reopen _ s (m_from m) Rl) as (m' & E & R').
  match type of R' with rel _ ?x => set (s' := x) in * end.
  assert (forall b, b ∈ s_blocks s' <-> b ∈ s_blocks s) as Hel.
  { intros b. subst s'. cbn. rewrite merge_sort_Permutation. split; [apply Rl|].
    intros Hb. apply (r_kept _ _ Rl); [done|lia]. }
  assert (inv d (s_blocks s') R D) as I'.
  { split; [apply I| |by eapply rel_nodup| |apply I|apply I].
    - intros b. rewrite Hel. split; [apply Hsup|]. intros Hk. apply Hsub. by apply I.
    - apply sorted_parents_first.
      + subst s'. cbn. apply StronglySorted_merge_sort; [|].
        * intros x y z. unfold block_le. intros [H1|[H1 H1']] [H2|[H2 H2']]; try (left; lia).
          right. split; [lia|]. unfold bytes_le in *.
          destruct (bytes_cmp (b_id x) (b_id y)) eqn:E1; [| |done].
          -- apply bytes_cmp_eq in E1. by rewrite E1.
          -- destruct (bytes_cmp (b_id y) (b_id z)) eqn:E2; [| |done].
             ++ apply bytes_cmp_eq in E2. rewrite <- E2, E1. done.
             ++ by rewrite (bytes_cmp_trans _ _ _ E1 E2).
        * intros x y. unfold block_le.
          destruct (N.lt_trichotomy (b_num x) (b_num y)) as [?|[?|?]]; [by left; left| |by right; left].
          unfold bytes_le. destruct (bytes_cmp (b_id x) (b_id y)) eqn:E1.
          -- left. right. done.
          -- left. right. done.
          -- right. right. split; [done|]. rewrite (bytes_cmp_antisym (b_id x)), E1. done.
      + intros p c Hp Hcc Hl. rewrite Hel in Hp, Hcc.
        pose proof (t_link _ T _ _ (Hsup _ Hp) (Hsup _ Hcc) Hl). lia. }
  exists m', s'. split; [done|]. split; [done|]. split; [by cbn; rewrite (r_from _ _ Rl)|].
  split; [done|]. unfold ms_new.
  destruct (rel_select m' s' enum [] d 0 R' Hf) as (r & disc & Es & H0 & H1).
  { intros k a e H2. by apply elem_of_nil in H2. }
  { intros k a H2. by apply elem_of_nil in H2. }
  rewrite Es. do 2 f_equal.
  destruct (decide (s_blocks s' = [])) as [En|Hne].
  - destruct (H0 En) as [-> _]. destruct (last D) as [c|] eqn:El; [|done]. exfalso.
    assert (c ∈ s_blocks s') as Hin.
    { apply (i_elem _ _ _ _ I'). unfold kept. rewrite El.
      pose proof (i_top _ _ _ _ I') as Ht. rewrite El in Ht. split; [apply Ht|lia]. }
    rewrite En in Hin. by apply elem_of_nil in Hin.
  - destruct (H1 Hne) as (tip & Htop & Hr).
    pose proof (inv_select d _ _ D tip I' Htop) as Hs.
    destruct (last D) as [c|], r as [k|].
    + destruct Hr as (a & Ha & <- & _). cbn. do 2 f_equal.
      eapply nth_ancestor_fun; eauto. apply (i_nodup _ _ _ _ I').
    + destruct Hr as [Hno _]. by destruct (Hno c).
    + destruct Hr as (a & Ha & _). by destruct (Hs a).
    + done.
Qed.

(** Some of the removals. *)
Lemma gc_part ds : forall n m s sel, rel m s -> current_refs m (ds ++ sel) ->
  exists m' s', rel m' s' /\ m_tree m' = apply_writes (m_tree m) (take n (gc_writes m sel ds)) /\
    m_from m' = m_from m /\ s_from s' = s_from s /\
    (forall b, b ∈ s_blocks s' -> b ∈ s_blocks s) /\
    (forall b, b ∈ s_blocks s -> b_id b ∉ ds.*1 -> b ∈ s_blocks s').
Proof.
  induction ds as [|[k a] ds IH]; intros n m s sel R C.
  - exists m, s. cbn. rewrite take_nil. done.
  - cbn [gc_writes]. pose proof (rel_remove m s k ((k, a) :: ds ++ sel) R C) as Hr.
    destruct n as [|n]; [by exists m, s|].
    destruct (lookup_block (s_blocks s) k) as [b|] eqn:El.
    + destruct Hr as (m1 & E & R1). rewrite E.
      destruct (IH n m1 _ sel R1) as (m' & s' & R' & Et & Ef & Hf & H1 & H2).
      { eapply current_mono; [exact E|]. intros k' a' e Hin'. apply C. by right. }
      exists m', s'. split; [done|].
      assert (mv_step m (ORemove k ((k, a) :: ds ++ sel)) = Done (m1, RBlock b)) as Es
        by (cbn [mv_step]; by rewrite E).
      pose proof (C67_call_writes _ _ _ _ Es) as Hw.
      pose proof (rel_get m s k R) as Hg. rewrite El in Hg. unfold mv_get in Hg.
      cbn [call_writes] in Hw |- *. destruct (m_all m !! k) as [e|]; [|done].
      cbn [app take]. split; [|split; [|split; [done|split]]].
      * rewrite Et, Hw. done.
      * rewrite Ef. rewrite (r_from _ _ R), (r_from _ _ R1). done.
      * intros x Hx. apply H1 in Hx. cbn in Hx. by apply elem_of_without in Hx as [Hx _].
      * intros x Hx Hk. cbn [fmap list_fmap fst] in Hk. apply not_elem_of_cons in Hk as [Hk1 Hk2].
        apply H2; [|done]. cbn. by apply elem_of_without.
    + rewrite Hr. pose proof (rel_get m s k R) as Hg. rewrite El in Hg. unfold mv_get in Hg.
      cbn [call_writes]. destruct (m_all m !! k); [done|]. cbn [app]. rewrite take_nil.
      by exists m, s.
Qed.

(** What is in the store after all removals was not to be removed. *)
Lemma gc_all ds : forall m s sel m', rel m s -> current_refs m (ds ++ sel) -> gc m sel ds = Done m' ->
  exists s', rel m' s' /\ (forall x, x ∈ s_blocks s' -> x ∈ s_blocks s) /\
    forall x, x ∈ s_blocks s' -> b_id x ∉ ds.*1.
Proof.
  induction ds as [|[k a] ds IH]; intros m s sel m' R C E.
  - cbn in E. injection E as <-. exists s. split; [done|]. split; [done|].
    intros x _ Hin. by apply elem_of_nil in Hin.
  - cbn [gc] in E. pose proof (rel_remove m s k ((k, a) :: ds ++ sel) R C) as Hr.
    destruct (lookup_block (s_blocks s) k) as [b|]; [|by rewrite Hr in E].
    destruct Hr as (m1 & E1 & R1). rewrite E1 in E.
    destruct (IH m1 _ sel m' R1) as (s' & R' & H1 & H2); [|done|].
    { eapply current_mono; [exact E1|]. intros k' a' e Hin'. apply C. by right. }
    exists s'. split; [done|]. split.
    + intros x Hx. apply H1 in Hx. cbn in Hx. by apply elem_of_without in Hx as [Hx _].
    + intros x Hx Hin. cbn [fmap list_fmap fst] in Hin. apply elem_of_cons in Hin as [Hin|Hin].
      * apply H1 in Hx. cbn in Hx. by apply elem_of_without in Hx as [_ Hx].
      * by apply (H2 x Hx).
Qed.

Hypothesis (NF : points_ok nf).

Lemma insert_gc_part enum m s b d n : fair enum -> rel m s -> s_from s = 0 ->
  b_num b < 2 ^ 64 -> ~ has (s_blocks s) (b_id b) ->
  exists m' s', rel m' s' /\
    m_tree m' = apply_writes (m_tree m) (take (S n) (insert_and_gc_writes enum m b d)) /\
    m_from m' = m_from m /\ s_from s' = 0 /\
    (forall x, x ∈ s_blocks s' -> x ∈ s_blocks s ++ [b]) /\
    forall m2 s2 sel, insert_and_gc enum m b d = Done (m2, sel) -> rel m2 s2 ->
      forall x, x ∈ s_blocks s2 -> x ∈ s_blocks s'.
Proof.
  intros Hf R F0 Hn Hh. unfold insert_and_gc, insert_and_gc_writes.
  destruct (rel_insert m s b R Hn) as (m1 & E1 & R1).
  { intros b' Hb' Hid. destruct Hh. apply has_elem. eauto. }
  assert (mv_step m (OInsert b) = Done (m1, RUnit)) as Es by (cbn [mv_step]; by rewrite E1).
  pose proof (C67_call_writes _ _ _ _ Es) as Hw. rewrite E1.
  cbn [spec_step fst] in R1. rewrite decide_False in R1 by done.
  match type of R1 with rel _ ?x => set (s1 := x) in * end.
  assert (s_blocks s1 = s_blocks s ++ [b]) as Hs1 by done.
  assert (call_writes m (OInsert b) = [WPut (mk_sled_key (b_num b) (b_id b)) b]) as Ec.
  { cbn [call_writes]. rewrite (r_from _ _ R), F0.
    destruct (N.leb_spec 0 (b_num b)); [done|lia]. }
  rewrite Ec in Hw |- *.
  destruct (rel_select m1 s1 enum [] d 1 R1 Hf) as (r & disc & E2 & _ & H2).
  { intros k a e H0. by apply elem_of_nil in H0. }
  { intros k a H0. by apply elem_of_nil in H0. }
  rewrite E2. set (sel := refs_of m1 (option_list r)). set (ds := refs_of m1 (enum disc)).
  assert (current_refs m1 (ds ++ sel)) as Hc.
  { intros k' x e Hin He. apply elem_of_app in Hin as [Hin|Hin];
      destruct (refs_of_live _ _ _ _ Hin) as (e' & He' & <-); congruence. }
  destruct (gc_part ds n m1 s1 sel R1 Hc) as (m' & s' & R' & Et & Ef & Ff & H3 & H4).
  exists m', s'. split; [done|]. cbn [app take]. split; [by rewrite Et, Hw|].
  split; [rewrite Ef, (r_from _ _ R), (r_from _ _ R1); done|].
  split; [by rewrite Ff|]. split; [intros x Hx; rewrite <- Hs1; auto|].
  intros m2 s2 sl Eg R2 x Hx.
  destruct (gc m1 sel ds) as [m2'| |] eqn:E3; try done. injection Eg as -> ->.
  destruct (gc_all ds m1 s1 sel m2 R1 Hc E3) as (s2' & R2' & G1 & G2).
  assert (x ∈ s_blocks s2') as Hx'.
  { pose proof (rel_get_in _ _ _ R2 Hx) as Hg. by apply (rel_get_some _ _ _ _ R2') in Hg as [? _]. }
  apply H4; [by apply G1|by apply G2].
Qed.

Lemma crash_ok enum ans n enum' d from0 w s D : fair enum -> fair enum' ->
  from0 = None \/ w_accepted w <> [] -> winv d from0 w s D ->
  grows d (w_received w ++ match n with O => [] | _ =>
    (pull_writes nf enum (w_source w) (resume_point nf from0 (w_accepted w)) ans).2 end) ->
  exists w' s' D', c_step nf from0 w (CCrash enum ans n enum') = Some w' /\ winv d from0 w' s' D'.
Proof.
  intros Hf Hf' Hsafe W. cbn [c_step].
  assert (forall ws, take n ws = [] -> exists w' s' D',
    match mv_load_from (apply_writes (m_tree (ms_mv (w_source w))) (take n ws))
            (m_from (ms_mv (w_source w))) with
    | Done m =>
        match ms_new enum' m (ms_depth (w_source w)) with
        | Done st => Some (World st (w_received w ++ []) (w_accepted w) (w_results w))
        | _ => None
        end
    | _ => None
    end = Some w' /\ winv d from0 w' s' D') as Hnone.
  { intros ws ->. destruct (restart_ok nf enum' d from0 w s D Hf' W) as (w' & s' & E & W').
    exists w', s', D. split; [|done]. rewrite app_nil_r. exact E. }
  pose proof (checkpoints_ok nf NF enum d from0 w s D Hf W) as Hcp. cbv zeta in Hcp.
  unfold pull_writes. destruct Hcp as [[Ha Hcp]|(x & Hx & Hcp)]; rewrite Hcp; clear Hcp.
  2:{ intros _. specialize (Hnone [] (take_nil _)). by destruct n. }
  destruct ans as [| |[t|b]]; try (intros _; specialize (Hnone [] (take_nil _)); by destruct n).
  destruct (mv_get (ms_mv (w_source w)) (b_id b)) as [x|] eqn:Eg;
    [intros _; specialize (Hnone [] (take_nil _)); by destruct n|].
  destruct n as [|n]; [intros _; by apply Hnone|]. cbn [snd]. intros G.
  destruct W as (R & F0 & I & Hc & Hd & Hacc & Hres).
  apply (rel_get_none _ _ _ R) in Eg.
  destruct (insert_gc_inv enum d _ s _ D b Hf R F0 I Eg G)
    as (m2 & s2 & sel & D' & E1 & R2 & F2 & I2 & Hsel & Hcase).
  destruct (insert_gc_part enum _ s b d n Hf R F0 (received_small _ _ _ G) Eg)
    as (m' & s' & R' & Et & Em & F' & H1 & H2).
  rewrite Hd, <- Et, <- Em.
  destruct (reopen_ok enum' d m' s' _ _ D' Hf' R' F' I2) as (m3 & s3 & E3 & R3 & F3 & I3 & En).
  { by apply (H2 m2 s2 sel). }
  { intros x Hx. apply H1 in Hx. apply elem_of_app in Hx as [Hx|Hx]; apply elem_of_app;
      [left; by apply (i_elem _ _ _ _ I)|by right]. }
  rewrite E3, En. eexists _, s3, D'. split; [reflexivity|].
  split; [done|]. split; [done|]. split; [done|]. split; [done|]. split; [done|]. split; [|done].
  cbn [w_accepted]. destruct Hcase as [[-> _]|(c & -> & _)].
  - by left.
  - right. exists c. rewrite Ha. split; [done|]. intros Hnil. destruct Hsafe as [?|Hs]; [done|].
    exfalso. apply Hs. by rewrite Ha.
Qed.

Lemma c_step_received from0 w a w' : c_step nf from0 w a = Some w' ->
  exists Q, w_received w' = w_received w ++ Q.
Proof.
  destruct a as [a|enum ans n enum']; cbn [c_step]; [apply w_received_grows|].
  destruct (pull_writes _ _ _ _ _) as [ws bs]. destruct (mv_load_from _ _); try done.
  destruct (ms_new _ _ _); try done. intros [= <-]. cbn. eauto.
Qed.

Lemma c_run_received from0 acts : forall w w', c_run nf from0 w acts = Some w' ->
  exists Q, w_received w' = w_received w ++ Q.
Proof.
  induction acts as [|a acts IH]; intros w w' E; cbn in E.
  - injection E as <-. exists []. by rewrite app_nil_r.
  - destruct (c_step nf from0 w a) as [w1|] eqn:E1; [|done].
    destruct (c_step_received _ _ _ _ E1) as [Q1 H1]. destruct (IH _ _ E) as [Q2 H2].
    exists (Q1 ++ Q2). by rewrite H2, H1, app_assoc.
Qed.

Lemma c_step_ok d from0 w s D a w' : cact_fair a -> first_safe nf from0 w [a] ->
  winv d from0 w s D -> c_step nf from0 w a = Some w' -> grows d (w_received w') ->
  exists s' D', winv d from0 w' s' D'.
Proof.
  intros Hf [Hs _] W E G. destruct a as [a|enum ans n enum'].
  - destruct (w_step_ok nf NF d from0 w s D a w' Hf Hs W E G) as (s' & D' & ? & _). eauto.
  - destruct Hf as [Hf Hf'].
    assert (w_received w' = w_received w ++ match n with O => [] | _ =>
      (pull_writes nf enum (w_source w) (resume_point nf from0 (w_accepted w)) ans).2 end) as Er.
    { cbn [c_step] in E. destruct (pull_writes _ _ _ _ _) as [ws bs].
      destruct (mv_load_from _ _); try done. destruct (ms_new _ _ _); try done.
      by injection E as <-. }
    rewrite Er in G.
    destruct (crash_ok enum ans n enum' d from0 w s D Hf Hf' Hs W G) as (w1 & s1 & D1 & E1 & W1).
    rewrite E1 in E. injection E as <-. eauto.
Qed.

Lemma c_run_ok d from0 acts : forall w s D w', Forall cact_fair acts ->
  first_safe nf from0 w acts -> winv d from0 w s D -> c_run nf from0 w acts = Some w' ->
  grows d (w_received w') -> exists s' D', winv d from0 w' s' D'.
Proof.
  induction acts as [|a acts IH]; intros w s D w' Hf Hs W E G; cbn [c_run first_safe] in *.
  - injection E as <-. eauto.
  - apply Forall_cons in Hf as [Hf1 Hf]. destruct Hs as [Hs1 Hs].
    destruct (c_step nf from0 w a) as [w1|] eqn:E1; [|done].
    destruct (c_run_received _ _ _ _ E) as [Q EQ].
    destruct (c_step_ok d from0 w s D a w1 Hf1) as (s1 & D1 & W1); [|done|done| |eauto].
    + split; [done|]. by rewrite E1.
    + rewrite EQ in G. by eapply grows_prefix.
Qed.

(** ** C67, the source *)
(** With any number of crashes between any two writes of any pull (besides all that C34
    allows): the blocks the consumer has accepted are the settled blocks, in chain order,
    from the first one on, each once; at most the newest is missing. *)
Theorem C67_source_crashes d from0 acts w : Forall cact_fair acts ->
  first_safe nf from0 (w_start d) acts -> c_run nf from0 (w_start d) acts = Some w ->
  grows d (w_received w) ->
  exists D, settled_chain d (w_received w) D /\
    (w_accepted w = D \/ exists x, D = w_accepted w ++ [x]) /\
    Forall well_answered (w_results w).
Proof.
  intros Hf Hs E G.
  destruct (c_run_ok d from0 acts _ _ _ w Hf Hs (winv_start d from0) E G) as (s & D & W).
  exists D. destruct W as (_ & _ & I & _ & _ & Ha & Hr). split; [apply I|]. split; [|done].
  destruct Ha as [?|(x & ? & _)]; eauto.
Qed.

(** After a crash the source can be started, whatever was left of the pull; and the next
    pull gives the consumer the block it lacks, or asks the wrapped source. *)
Theorem C67_source_starts d from0 acts w enum ans n enum' : Forall cact_fair acts ->
  first_safe nf from0 (w_start d) (acts ++ [CCrash enum ans n enum']) ->
  c_run nf from0 (w_start d) acts = Some w -> fair enum -> fair enum' ->
  grows d (w_received w ++ match n with O => [] | _ =>
    (pull_writes nf enum (w_source w) (resume_point nf from0 (w_accepted w)) ans).2 end) ->
  exists w', c_step nf from0 w (CCrash enum ans n enum') = Some w' /\
    w_accepted w' = w_accepted w /\
    forall enum2 ans2, fair enum2 ->
    let '(st, asked, r) :=
      ms_pull nf enum2 (w_source w') (resume_point nf from0 (w_accepted w')) ans2 in
    (exists x, settled_chain d (w_received w') (w_accepted w' ++ [x]) /\ st = w_source w' /\
       asked = None /\ r = PEvent (EvBlock x)) \/
    (settled_chain d (w_received w') (w_accepted w') /\ is_Some asked).
Proof.
  intros Hf Hs E He He' G.
  assert (forall w0, first_safe nf from0 w0 (acts ++ [CCrash enum ans n enum']) ->
    c_run nf from0 w0 acts = Some w ->
    first_safe nf from0 w0 acts /\ (from0 = None \/ w_accepted w <> [])) as Hsplit.
  { clear. induction acts as [|a acts IH]; intros w0 Hs E; cbn [app first_safe c_run] in *.
    - injection E as <-. split; [done|]. apply Hs.
    - destruct Hs as [H1 H2]. destruct (c_step nf from0 w0 a) as [w1|]; [|done].
      destruct (IH _ H2 E) as [? ?]. done. }
  destruct (Hsplit _ Hs E) as [Hs1 Hs2].
  assert (grows d (w_received w)) as G0 by (by eapply grows_prefix).
  destruct (c_run_ok d from0 acts _ _ _ w Hf Hs1 (winv_start d from0) E G0) as (s & D & W).
  destruct (crash_ok enum ans n enum' d from0 w s D He He' Hs2 W G) as (w' & s' & D' & E' & W').
  exists w'. split; [done|]. split.
  { cbn [c_step] in E'. destruct (pull_writes _ _ _ _ _) as [ws bs].
    destruct (mv_load_from _ _); try done. destruct (ms_new _ _ _); try done.
    by injection E' as <-. }
  intros enum2 ans2 He2.
  pose proof (checkpoints_ok nf NF enum2 d from0 w' s' D' He2 W') as Hcp. cbv zeta in Hcp.
  destruct (ms_pull nf enum2 (w_source w') (resume_point nf from0 (w_accepted w')) ans2)
    as [[st asked] r] eqn:Ep. unfold ms_pull in Ep.
  destruct Hcp as [[Ha Hcp]|(x & Hx & Hcp)]; rewrite Hcp in Ep; clear Hcp.
  - right. split; [rewrite Ha; apply W'|].
    destruct ans2 as [| |[t|b]]; [by injection Ep as <- <- <-; eauto..|].
    destruct (mv_get (ms_mv (w_source w')) (b_id b)); [by injection Ep as <- <- <-; eauto|].
    destruct (insert_and_gc enum2 (ms_mv (w_source w')) b (ms_depth (w_source w'))) as [[m' sel]| |];
      [|by injection Ep as <- <- <-; eauto..].
    destruct (new_stable (ms_confirmed (w_source w')) sel) as [k|]; [|by injection Ep as <- <- <-; eauto].
    by destruct (mv_get m' k); injection Ep as <- <- <-; eauto.
  - left. exists x. injection Ep as <- <- <-. split; [rewrite <- Hx; apply W'|done].
Qed.

(** ** A crash that loses a confirmation *)
Lemma w_step_accepted from0 w a w' : w_step nf from0 w a = Some w' ->
  exists Q, w_accepted w' = w_accepted w ++ Q.
Proof.
  destruct a as [enum ans accept|enum]; cbn.
  - destruct (ms_pull _ _ _ _ _) as [[st asked] r]. intros [= <-]. cbn. eauto.
  - destruct (mv_load_from _ _); try done. destruct (ms_new _ _ _); try done.
    intros [= <-]. exists []. by rewrite app_nil_r.
Qed.

Lemma w_run_accepted from0 acts : forall w w', w_run nf from0 w acts = Some w' ->
  exists Q, w_accepted w' = w_accepted w ++ Q.
Proof.
  induction acts as [|a acts IH]; intros w w' E; cbn in E.
  - injection E as <-. exists []. by rewrite app_nil_r.
  - destruct (w_step nf from0 w a) as [w1|] eqn:E1; [|done].
    destruct (w_step_accepted _ _ _ _ E1) as [Q1 H1]. destruct (IH _ _ E) as [Q2 H2].
    exists (Q1 ++ Q2). by rewrite H2, H1, app_assoc.
Qed.

Lemma w_run_app from0 acts1 : forall w acts2 w1, w_run nf from0 w acts1 = Some w1 ->
  w_run nf from0 w (acts1 ++ acts2) = w_run nf from0 w1 acts2.
Proof.
  induction acts1 as [|a acts1 IH]; intros w acts2 w1 E; cbn in *; [by injection E as <-|].
  destruct (w_step nf from0 w a); [|done]. by apply IH.
Qed.

(** A consumer that is ahead of the store: what it asks from is neither the confirmed block
    nor its parent. *)
Lemma ahead_stuck enum d from0 st R D A c a s : fair enum ->
  winv d from0 (World st R D []) s D -> last D = Some c -> last A = Some a ->
  (forall x, x ∈ R -> b_id x = b_id a -> x = a) -> b_num c < b_num a ->
  ms_checkpoints nf enum st (resume_point nf from0 A) = inl PErr.
Proof.
  intros Hf W El EA Hid Hlt. destruct W as (Rl & F0 & I & Hc & Hd & _). cbn in Rl, I, Hc, Hd.
  pose proof (grows_tree _ _ (i_grows _ _ _ _ I)) as T.
  unfold ms_checkpoints.
  destruct (tip_points_ok nf NF (ms_mv st) s (enum (mv_tips (ms_mv st))) Rl) as (ps & E & _).
  { intros k. by rewrite (Hf _), elem_of_elements. }
  rewrite E. unfold ms_confirmed_with_parent. rewrite Hc, El. cbn.
  assert (c ∈ R) as HcR.
  { pose proof (i_top _ _ _ _ I) as Ht. rewrite El in Ht. apply Ht. }
  assert (c ∈ s_blocks s) as HcS.
  { apply (i_elem _ _ _ _ I). split; [done|]. unfold kept. rewrite El. lia. }
  rewrite (rel_get_in _ _ _ Rl HcS). cbn. destruct (proj1 NF c) as [pt Hpt]. rewrite Hpt. cbn.
  unfold resume_point. rewrite EA. destruct (proj1 NF a) as [pa Hpa]. rewrite Hpa.
  rewrite decide_False.
  - rewrite decide_False; [done|]. intros ->.
    rewrite <- Hpt in Hpa. apply (proj2 NF) in Hpa.
    assert (c = a) as -> by (by apply Hid). lia.
  - intros Hpar. destruct (mv_get (ms_mv st) (b_parent c)) as [p|] eqn:Eg; [|done].
    cbn in Hpar. apply (rel_get_some _ _ _ _ Rl) in Eg as [Hp Hpid].
    apply (i_elem _ _ _ _ I) in Hp. rewrite <- Hpa in Hpar. apply (proj2 NF) in Hpar.
    assert (p = a) as -> by (by apply Hid).
    pose proof (t_link _ T a c Hp HcR (eq_sym Hpid)). lia.
Qed.

(** If the crash lost the writes since an earlier moment, and the consumer has accepted a
    block since then, the source works never again: the store opens, but every pull fails
    without asking the wrapped source, whatever happens and however often the process is
    restarted. *)
Theorem C67_lost_confirmation d from0 acts0 acts1 w0 w enum acts2 :
  Forall act_fair (acts0 ++ acts1) -> Forall accepts (acts0 ++ acts1) ->
  w_run nf from0 (w_start d) acts0 = Some w0 -> w_run nf from0 w0 acts1 = Some w ->
  grows d (w_received w) -> w_accepted w0 <> [] -> w_accepted w <> w_accepted w0 ->
  fair enum -> Forall act_fair acts2 ->
  exists m st w2, mv_load_from (m_tree (ms_mv (w_source w0))) 0 = Done m /\
    ms_new enum m d = Done st /\
    w_run nf from0 (World st (w_received w0) (w_accepted w) []) acts2 = Some w2 /\
    w_accepted w2 = w_accepted w /\ w_received w2 = w_received w0 /\
    Forall (fun ar => ar = (ANone, PErr)) (w_results w2).
Proof.
  intros Hf Ha E0 E1 G Hne Hdiff He Hf2.
  apply Forall_app in Hf as [Hf0 Hf1]. apply Forall_app in Ha as [Ha0 Ha1].
  destruct (w_run_received nf _ _ _ _ E1) as [QR HQR].
  destruct (w_run_accepted _ _ _ _ E1) as [QA HQA].
  assert (forall acts, Forall accepts acts -> Forall (may_drop from0) acts) as Hdrop.
  { intros acts Hacc. eapply Forall_impl; [exact Hacc|]. by right. }
  destruct (w_run_ok nf NF d from0 acts0 Hf0 (Hdrop _ Ha0) _ _ _ _ (winv_start d from0) E0)
    as (s0 & D0 & W0 & HD0).
  { rewrite HQR in G. by eapply grows_prefix. }
  specialize (HD0 Ha0 eq_refl).
  destruct (w_run_ok nf NF d from0 acts1 Hf1 (Hdrop _ Ha1) _ _ _ _ W0 E1 G) as (s1 & D1 & W1 & HD1).
  specialize (HD1 Ha1 HD0). pose proof (grows_tree _ _ G) as T.
  assert (QA <> []) as HQ by (intros ->; by rewrite app_nil_r in HQA).
  destruct (last D0) as [c|] eqn:Ec; [|apply last_None in Ec; congruence].
  destruct QA as [|a QA _] using rev_ind; [done|]. rewrite app_assoc in HQA.
  assert (last (w_accepted w) = Some a) as Ea by (by rewrite HQA, last_snoc).
  destruct W1 as (_ & _ & I1 & _).
  assert (b_num c < b_num a) as Hlt.
  { pose proof (sc_linked _ _ _ (i_chain _ _ _ _ I1)) as HL. rewrite <- HD1 in HL.
    rewrite HQA, HD0 in HL. apply last_Some in Ec as [p ->].
    rewrite <- !app_assoc in HL. cbn in HL. clear -HL.
    induction p as [|x p IH]; [|apply IH; cbn in HL; by destruct p; cbn in HL |- *; [|]; apply HL].
    change (linked (c :: QA ++ [a])) in HL.
    pose proof (linked_nums _ HL (S (length QA)) a c) as Hn. rewrite Hn; [lia| |done].
    change ((QA ++ [a]) !! length QA = Some a). by apply list_lookup_middle. }
  assert (a ∈ w_received w) as HaR.
  { eapply sc_received; [apply I1|]. rewrite <- HD1, HQA. apply elem_of_app. right. by left. }
  assert (forall x, x ∈ w_received w0 -> b_id x = b_id a -> x = a) as Hid.
  { intros x Hx Ex. apply (t_id _ T); [|done|done]. rewrite HQR. apply elem_of_app. by left. }
  (* the consumer as it was at the earlier moment *)
  assert (winv d from0 (World (w_source w0) (w_received w0) D0 []) s0 D0) as V0.
  { destruct W0 as (R & F0 & I & Hc & Hd & _ & _). do 5 (split; [done|]). split; [by left|constructor]. }
  destruct (restart_ok nf enum d from0 _ s0 D0 He V0) as (v & s' & Ev & V). cbn in Ev.
  destruct W0 as (R0 & F0 & _ & _ & Hd0 & _). rewrite (r_from _ _ R0), F0, Hd0 in Ev.
  destruct (mv_load_from (m_tree (ms_mv (w_source w0))) 0) as [m| |] eqn:El; try done.
  destruct (ms_new enum m d) as [st| |] eqn:En; try done. injection Ev as <-.
  exists m, st.
  assert (forall acts st s res, Forall act_fair acts ->
    winv d from0 (World st (w_received w0) D0 []) s D0 -> Forall (fun ar => ar = (ANone, PErr)) res ->
    exists w2, w_run nf from0 (World st (w_received w0) (w_accepted w) res) acts = Some w2 /\
      w_accepted w2 = w_accepted w /\ w_received w2 = w_received w0 /\
      Forall (fun ar => ar = (ANone, PErr)) (w_results w2)) as Hrun.
  2:{ destruct (Hrun acts2 st s' [] Hf2 V) as (w2 & H2); [constructor|]. by exists w2. }
  clear -NF Ec Ea Hid Hlt. induction acts as [|x acts IH]; intros st s res Hf V Hr.
  - eexists. cbn [w_run]. split; [reflexivity|]. done.
  - apply Forall_cons in Hf as [Hf1 Hf]. cbn [w_run]. destruct x as [e ans accept|e].
    + pose proof (ahead_stuck e d from0 st _ D0 (w_accepted w) c a s Hf1 V Ec Ea Hid Hlt) as Hs.
      cbn [w_step w_source w_accepted]. unfold ms_pull. rewrite Hs.
      destruct ans as [| |[]]; rewrite !app_nil_r; eapply IH; try done;
        apply Forall_app; (split; [done|by constructor]).
    + destruct (restart_ok nf e d from0 _ s D0 Hf1 V) as (v & s' & Ev & V').
      cbn [w_step w_source] in Ev |- *.
      destruct (mv_load_from (m_tree (ms_mv st)) (m_from (ms_mv st))) as [m| |]; try done.
      destruct (ms_new e m (ms_depth st)) as [st'| |]; try done. injection Ev as <-.
      cbn [w_received w_accepted w_results]. by eapply IH.
Qed.

End crash.

(** ** Concrete cases *)
(** The run of C34 with crashes: before the first write of a pull, between the block and the
    removals, in the middle of the removals. *)
Definition ex_cacts : list cact :=
  [ CAct (pull_block (sx 10 9 5) true); CCrash elements (AEvent (EvBlock (sx 11 10 6))) 0 elements;
    CCrash elements (AEvent (EvBlock (sx 11 10 6))) 1 elements; CAct (pull_block (sx 21 10 6) true);
    CCrash elements (AEvent (EvBlock (sx 12 11 7))) 7 elements; CAct (Pull elements ANone true);
    CAct (pull_block (sx 22 21 7) true); CAct (pull_block (sx 13 12 8) true);
    CCrash elements (AEvent (EvBlock (sx 14 13 9))) 1 elements; CAct (Pull elements ANone true) ].

Definition ex_creceived : list block :=
  [sx 10 9 5; sx 11 10 6; sx 21 10 6; sx 12 11 7; sx 22 21 7; sx 13 12 8; sx 14 13 9].

Lemma ex_crun : w_obs (c_run ex_nf None (w_start 2) ex_cacts) =
  Some (ex_creceived, [sx 10 9 5; sx 11 10 6; sx 12 11 7]).
Proof. by vm_compute. Qed.

Lemma first_safe_none {point} `{EqDecision point} (nf : block -> option point) acts : forall w,
  first_safe nf None w acts.
Proof.
  induction acts as [|a acts IH]; intros w; [done|]. cbn [first_safe]. split.
  - destruct a; by left.
  - destruct (c_step nf None w a); [apply IH|done].
Qed.

Lemma ex_cgrows : grows 2 ex_creceived.
Proof.
  apply (grows_child 2 ex_received (sx 13 12 8)); try done.
  - apply ex_grows.
  - unfold ex_received. do 5 right. by left.
  - unfold ex_received. intros x Hx. list_cases; done.
  - intros x (t & [Ht Hmax] & Hb).
    assert (t = sx 13 12 8) as ->.
    { assert (sx 13 12 8 ∈ ex_received) as Hin by (unfold ex_received; do 5 right; by left).
      specialize (Hmax _ Hin). unfold ex_received in Ht. list_cases; done. }
    by exists 2%nat.
Qed.

Example C67_source_crashes_case : exists w, c_run ex_nf None (w_start 2) ex_cacts = Some w /\
  Forall cact_fair ex_cacts /\ first_safe ex_nf None (w_start 2) ex_cacts /\
  grows 2 (w_received w) /\ w_accepted w = [sx 10 9 5; sx 11 10 6; sx 12 11 7].
Proof.
  pose proof ex_crun as E. destruct (c_run ex_nf None (w_start 2) ex_cacts) as [w|] eqn:Ew; [|done].
  exists w. injection E as ER EA. split; [done|].
  split; [repeat constructor; apply elements_fair|]. split; [apply first_safe_none|].
  rewrite ER, EA. split; [apply ex_cgrows|done].
Qed.

(** The crash in the middle of the removals left blocks that an undisturbed pull would have
    removed, and the next pull removes them. *)
Definition w_stored (w : option world) (k : bytes) : option bool :=
  w ← w; Some (bool_decide (is_Some (mv_get (ms_mv (w_source w)) k))).
Example C67_leftover_case :
  let acts := [CAct (pull_block (sx 10 9 5) true); CAct (pull_block (sx 11 10 6) true);
    CAct (pull_block (sx 12 11 7) true); CAct (pull_block (sx 13 12 8) true);
    CAct (pull_block (sx 14 13 9) true)] in
  w_stored (c_run ex_nf None (w_start 1) acts) [11] = Some false /\
  let acts' := take 4 acts ++ [CCrash elements (AEvent (EvBlock (sx 14 13 9))) 1 elements] in
  w_stored (c_run ex_nf None (w_start 1) acts') [11] = Some true /\
  w_stored (c_run ex_nf None (w_start 1) (acts' ++ [CAct (Pull elements ANone true);
    CAct (pull_block (sx 15 14 10) true)])) [11] = Some false.
Proof. cbv zeta. split; [|split]; by vm_compute. Qed.

(** A chain; the consumer accepts the second block, and the crash loses the third. *)
Definition ex_lost0 : list act := [pull_block (sx 10 9 5) true; pull_block (sx 11 10 6) true].
Definition ex_lost1 : list act := [pull_block (sx 12 11 7) true].

Example C67_lost_case : exists w0 w, w_run ex_nf (Some [9]) (w_start 1) ex_lost0 = Some w0 /\
  w_run ex_nf (Some [9]) w0 ex_lost1 = Some w /\ grows 1 (w_received w) /\
  w_accepted w0 = [sx 10 9 5] /\ w_accepted w = [sx 10 9 5; sx 11 10 6].
Proof.
  assert (w_obs (w_run ex_nf (Some [9]) (w_start 1) (ex_lost0 ++ ex_lost1)) =
    Some ([sx 10 9 5; sx 11 10 6; sx 12 11 7], [sx 10 9 5; sx 11 10 6])) as E by (by vm_compute).
  assert (w_obs (w_run ex_nf (Some [9]) (w_start 1) ex_lost0) =
    Some ([sx 10 9 5; sx 11 10 6], [sx 10 9 5])) as E0 by (by vm_compute).
  destruct (w_run ex_nf (Some [9]) (w_start 1) ex_lost0) as [w0|] eqn:Ew0; [|done].
  rewrite (w_run_app ex_nf _ _ _ _ _ Ew0) in E.
  destruct (w_run ex_nf (Some [9]) w0 ex_lost1) as [w|] eqn:Ew; [|done].
  injection E as ER EA. injection E0 as ER0 EA0. exists w0, w. do 2 (split; [done|]).
  rewrite ER. split; [|done]. apply chain_grows. split; [done|].
  split; [apply (bool_decide_unpack _); by vm_compute|]. split.
  - intros b Hb. list_cases; done.
  - intros f p [= <-] Hp. list_cases; done.
Qed.

Definition all_SourceCrashProps := (@C67_pull_writes, @C67_source_crashes, @C67_source_starts,
  @C67_lost_confirmation, @C67_source_crashes_case, @C67_leftover_case, @C67_lost_case).
Print Assumptions all_SourceCrashProps.
