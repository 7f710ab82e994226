(** * Proofs about the confirming source: histories *)
From Coq Require Import Lia NArith List.
From stdpp Require Import prelude numbers list gmap sorting.
From Verif Require Import MultiverseModel MultiverseSpec MultiverseProofs MultiverseHistProofs
  MultiverseQueryProofs SourceModel SourceSpec SourceProofs.

Local Open Scope N_scope.

Section run.
Context {point : Type} `{EqDecision point} (nf : block -> option point).
Hypothesis (NF : points_ok nf).

Lemma rel_get_in m s b : rel m s -> b ∈ s_blocks s -> mv_get m (b_id b) = Some b.
Proof.
  intros R Hb. rewrite (rel_get _ _ _ R). by apply (lookup_block_some _ _ _ (rel_nodup _ _ R)).
Qed.

Lemma rel_get_some m s k b : rel m s -> mv_get m k = Some b -> b ∈ s_blocks s /\ b_id b = k.
Proof.
  intros R. rewrite (rel_get _ _ _ R). by apply (lookup_block_some _ _ _ (rel_nodup _ _ R)).
Qed.

Lemma rel_get_none m s k : rel m s -> mv_get m k = None <-> ~ has (s_blocks s) k.
Proof. intros R. rewrite (rel_get _ _ _ R). apply lookup_block_none. Qed.

Lemma tip_points_ok m s ks : rel m s -> (forall k, k ∈ ks -> k ∈ mv_tips m) ->
  exists ps, ms_tip_points nf m ks = inr ps /\
    ps = omap (fun k => mv_get m k ≫= nf) ks.
Proof.
  intros R. induction ks as [|k ks IH]; intros H; [by exists []|].
  destruct (proj1 (rel_tips _ _ k R) (H k ltac:(by left))) as (b & Hb & <- & _).
  destruct IH as (ps & E & Eps); [intros k' Hk'; apply H; by right|].
  cbn. rewrite (rel_get_in _ _ _ R Hb). cbn. destruct (proj1 NF b) as [p Hp]. rewrite Hp, E.
  exists (p :: ps). split; [done|]. by rewrite Eps.
Qed.

Definition winv (d : nat) (from0 : option point) (w : world) (s : store) (D : list block) : Prop :=
  rel (ms_mv (w_source w)) s /\ s_from s = 0 /\ inv d (s_blocks s) (w_received w) D /\
  ms_confirmed (w_source w) = b_id <$> last D /\ ms_depth (w_source w) = d /\
  (w_accepted w = D \/
   exists x, D = w_accepted w ++ [x] /\ (w_accepted w = [] -> from0 = None)) /\
  Forall well_answered (w_results w).

Lemma linked_last2 D y c : linked (D ++ [y; c]) -> b_parent c = b_id y /\ b_num c = b_num y + 1.
Proof.
  induction D as [|x D IH]; cbn; [tauto|]. destruct D as [|z D]; cbn.
  - tauto.
  - intros (_ & _ & H). by apply IH.
Qed.

Lemma sc_received d R D x : settled_chain d R D -> x ∈ D -> x ∈ R.
Proof.
  intros SC Hx. apply (sc_exact _ _ _ SC) in Hx as (P & Q & -> & t & _ & Hb).
  apply elem_of_app. left. by apply (back_in _ _ _ _ Hb).
Qed.

(** What a pull is asked, or what it redelivers. *)
Lemma checkpoints_ok enum d from0 w s D : fair enum -> winv d from0 w s D ->
  let from := resume_point nf from0 (w_accepted w) in
  (w_accepted w = D /\ ms_checkpoints nf enum (w_source w) from =
      inr (omap (fun k => mv_get (ms_mv (w_source w)) k ≫= nf)
             (enum (mv_tips (ms_mv (w_source w)))) ++ option_list from)) \/
  (exists x, D = w_accepted w ++ [x] /\
     ms_checkpoints nf enum (w_source w) from = inl (PEvent (EvBlock x))).
Proof.
  intros Hf (R & F0 & I & Hc & Hd & Hacc & _) from.
  pose proof (grows_tree _ _ (i_grows _ _ _ _ I)) as T.
  pose proof (i_elem _ _ _ _ I) as He. unfold kept in He.
  unfold ms_checkpoints.
  destruct (tip_points_ok (ms_mv (w_source w)) s (enum (mv_tips (ms_mv (w_source w)))) R)
    as (ps & E & Eps).
  { intros k. by rewrite (Hf _), elem_of_elements. }
  rewrite E. unfold ms_confirmed_with_parent. rewrite Hc.
  destruct (last D) as [c|] eqn:El; cbn.
  2:{ apply last_None in El. left. split; [|by rewrite Eps].
      destruct Hacc as [?|(x & Hx & _)]; [done|]. exfalso. rewrite El in Hx.
      by destruct (w_accepted w). }
  assert (c ∈ w_received w) as HcR.
  { pose proof (i_top _ _ _ _ I) as H. rewrite El in H. apply H. }
  assert (c ∈ s_blocks s) as HcS by (apply He; split; [done|lia]).
  rewrite (rel_get_in _ _ _ R HcS). cbn. destruct (proj1 NF c) as [pt Hpt]. rewrite Hpt. cbn.
  destruct Hacc as [Hacc|(x & Hx & H0)].
  - left. split; [done|]. subst from. unfold resume_point. rewrite Hacc, El, Hpt.
    assert (Some pt <> mv_get (ms_mv (w_source w)) (b_parent c) ≫= nf) as Hne.
    { intros Hpar. destruct (mv_get (ms_mv (w_source w)) (b_parent c)) as [p|] eqn:Eg; [|done].
      cbn in Hpar. apply (rel_get_some _ _ _ _ R) in Eg as [Hp Hid].
      rewrite <- Hpt in Hpar. apply (proj2 NF) in Hpar.
      apply He in Hp. assert (c = p) as -> by (by apply (t_id _ T)).
      pose proof (t_link _ T p p Hp Hp (eq_sym Hid)). lia. }
    rewrite decide_False by done. rewrite decide_True by done. by rewrite Eps.
  - right. assert (x = c) as ->.
    { rewrite Hx, last_snoc in El. by injection El. }
    exists c. split; [done|].
    assert (from = mv_get (ms_mv (w_source w)) (b_parent c) ≫= nf) as Hfr.
    { subst from. unfold resume_point.
      destruct (w_accepted w) as [|y A _] eqn:EA using rev_ind.
      - cbn. rewrite (H0 eq_refl).
        destruct (mv_get (ms_mv (w_source w)) (b_parent c)) as [p|] eqn:Eg; [|done]. exfalso.
        apply (rel_get_some _ _ _ _ R) in Eg as [Hp Hid]. apply He in Hp.
        destruct (sc_first _ _ _ (i_chain _ _ _ _ I)) as [Hz|Hz]; rewrite Hx in Hz; [done|].
        cbn in Hz. destruct (t_first _ T c) as [J _]; [done|]. by apply (J p Hp).
      - rewrite last_snoc.
        pose proof (sc_linked _ _ _ (i_chain _ _ _ _ I)) as HL. rewrite Hx in HL.
        rewrite <- app_assoc in HL. apply linked_last2 in HL as [Hl Hn].
        assert (y ∈ w_received w) as Hy.
        { eapply sc_received; [apply I|]. rewrite Hx. rewrite !elem_of_app. left. right. by left. }
        rewrite Hl, (rel_get_in _ _ y R); [done|]. apply He. split; [done|lia]. }
    by rewrite decide_True.
Qed.

Lemma received_small d R b : grows d (R ++ [b]) -> b_num b < 2 ^ 64.
Proof. intros G. apply (t_small _ (grows_tree _ _ G)). apply elem_of_app. right. by left. Qed.

(** What a pull does with a block. *)
Lemma insert_gc_inv enum d m s R D b : fair enum -> rel m s -> s_from s = 0 ->
  inv d (s_blocks s) R D -> ~ has (s_blocks s) (b_id b) -> grows d (R ++ [b]) ->
  exists m' s' sel D', insert_and_gc enum m b d = Done (m', sel) /\ rel m' s' /\
    s_from s' = 0 /\ inv d (s_blocks s') (R ++ [b]) D' /\ sel = b_id <$> last D' /\
    ((D' = D /\ new_stable (b_id <$> last D) sel = None) \/
     exists c, D' = D ++ [c] /\ new_stable (b_id <$> last D) sel = Some (b_id c) /\
       mv_get m' (b_id c) = Some c).
Proof.
  intros Hf Rl F0 I Hh G.
  destruct (insert_gc_ok enum m s b d Rl Hf (received_small _ _ _ G) Hh)
    as (m' & s' & sel & tip & E & Rl' & F' & Htop & Hsel).
  pose proof (nodup_snoc_ids _ _ (i_nodup _ _ _ _ I) Hh) as N.
  exists m', s', sel. destruct (decide (b ∈ R)) as [Hb|Hb].
  - destruct (step_old d _ R D b tip I Hb Hh Htop) as (c & El & Hc & I').
    exists D. split; [done|]. split; [done|]. split; [by rewrite F'|].
    destruct sel as [k|]; [|by destruct Hsel as [Hno _]; destruct (Hno c)].
    destruct Hsel as (a & Ha & <- & Hs').
    assert (a = c) as -> by (eapply nth_ancestor_fun; eauto).
    rewrite Hs', El. split; [by apply inv_again|]. split; [done|]. left. split; [done|].
    cbn. by rewrite decide_True.
  - destruct (step_new d _ R D b tip I Hb G Htop) as
      (_ & [(El & Hno & I')|(c & Hc & [(El & I')|(El & I')])]).
    + exists D. split; [done|]. split; [done|]. split; [by rewrite F'|].
      destruct sel as [k|]; [by destruct Hsel as (a & Ha & _); destruct (Hno a)|].
      destruct Hsel as [_ ->]. rewrite El. split; [done|]. split; [done|]. by left.
    + exists D. split; [done|]. split; [done|]. split; [by rewrite F'|].
      destruct sel as [k|]; [|by destruct Hsel as [Hno _]; destruct (Hno c)].
      destruct Hsel as (a & Ha & <- & Hs').
      assert (a = c) as -> by (eapply nth_ancestor_fun; eauto).
      rewrite Hs', El. split; [done|]. split; [done|]. left. split; [done|].
      cbn. by rewrite decide_True.
    + exists (D ++ [c]). split; [done|]. split; [done|]. split; [by rewrite F'|].
      destruct sel as [k|]; [|by destruct Hsel as [Hno _]; destruct (Hno c)].
      destruct Hsel as (a & Ha & <- & Hs').
      assert (a = c) as -> by (eapply nth_ancestor_fun; eauto).
      rewrite Hs', last_snoc. split; [done|]. split; [done|]. right. exists c. split; [done|].
      pose proof (grows_tree _ _ G) as T.
      pose proof (i_top _ _ _ _ I') as Ht. rewrite last_snoc in Ht. destruct Ht as (HcR & _).
      split.
      * cbn. destruct (last D) as [c0|] eqn:El0; cbn; [|by rewrite decide_False].
        rewrite decide_False; [done|]. intros Hid. injection Hid as Hid.
        apply El. f_equal. apply (t_id _ T); [|done|done].
        apply elem_of_app. left. pose proof (i_top _ _ _ _ I) as Ht. rewrite El0 in Ht. apply Ht.
      * apply (rel_get_in _ _ _ Rl'). rewrite Hs'. apply (i_elem _ _ _ _ I').
        split; [done|]. unfold kept. rewrite last_snoc. lia.
Qed.

Lemma w_received_grows from0 w a w' : w_step nf from0 w a = Some w' ->
  exists Q, w_received w' = w_received w ++ Q.
Proof.
  destruct a as [enum ans accept|enum]; cbn.
  - destruct (ms_pull _ _ _ _ _) as [[st asked] r]. intros [= <-]. cbn. eauto.
  - destruct (mv_load_from _ _); try done. destruct (ms_new _ _ _); try done.
    intros [= <-]. exists []. by rewrite app_nil_r.
Qed.

Lemma w_run_received from0 acts : forall w w', w_run nf from0 w acts = Some w' ->
  exists Q, w_received w' = w_received w ++ Q.
Proof.
  induction acts as [|a acts IH]; intros w w' H; cbn in H.
  - injection H as <-. exists []. by rewrite app_nil_r.
  - destruct (w_step nf from0 w a) as [w1|] eqn:E; [|done].
    destruct (w_received_grows _ _ _ _ E) as [Q1 E1]. destruct (IH _ _ H) as [Q2 E2].
    exists (Q1 ++ Q2). by rewrite E2, E1, app_assoc.
Qed.

Lemma pull_ok enum ans accept d from0 w s D w' : fair enum -> winv d from0 w s D ->
  from0 = None \/ accept = true -> w_step nf from0 w (Pull enum ans accept) = Some w' ->
  grows d (w_received w') -> exists s' D', winv d from0 w' s' D' /\
    (accept = true -> w_accepted w' = D').
Proof.
  intros Hf W Hdrop E G. cbn in E.
  pose proof (checkpoints_ok enum d from0 w s D Hf W) as Hcp. cbv zeta in Hcp.
  destruct W as (R & F0 & I & Hc & Hd & Hacc & Hres).
  unfold ms_pull in E. destruct Hcp as [[Ha Hcp]|(x & Hx & Hcp)]; rewrite Hcp in E; clear Hcp.
  2:{ injection E as <-. exists s, D.
      split; [|by intros ->; rewrite Hx].
      split; [done|]. split; [done|]. cbn. rewrite app_nil_r. split; [done|]. do 2 (split; [done|]).
      split.
      - destruct accept; [by left; rewrite Hx|]. rewrite app_nil_r. done.
      - apply Forall_app. split; [done|]. constructor; [|constructor]. cbn. eauto. }
  destruct ans as [| |[t|b]].
  - injection E as <-. cbn in G |- *. exists s, D.
    split; [|by rewrite app_nil_r]. split; [done|]. cbn. rewrite !app_nil_r.
    do 5 (split; [done|]). apply Forall_app. split; [done|]. by constructor.
  - injection E as <-. cbn in G |- *. exists s, D.
    split; [|by rewrite app_nil_r]. split; [done|]. cbn. rewrite !app_nil_r.
    do 5 (split; [done|]). apply Forall_app. split; [done|]. constructor; [by left|constructor].
  - injection E as <-. cbn in G |- *. exists s, D.
    split; [|by rewrite app_nil_r]. split; [done|]. cbn. rewrite !app_nil_r.
    do 5 (split; [done|]). apply Forall_app. split; [done|]. by constructor.
  - destruct (mv_get (ms_mv (w_source w)) (b_id b)) as [x|] eqn:Eg.
    + injection E as <-. cbn in G |- *. exists s, D.
      split; [|by rewrite app_nil_r]. split; [done|]. split; [done|]. cbn.
      rewrite app_nil_r. split.
      * apply inv_again; [done| |done]. apply (rel_get_some _ _ _ _ R) in Eg as [Hx Hid].
        apply (i_elem _ _ _ _ I) in Hx.
        destruct (grows_snoc_inv _ _ _ G) as (_ & [(En & _)|[?|(p & _ & _ & _ & _ & Hfr & _)]]).
        -- rewrite En in Hx. by apply elem_of_nil in Hx.
        -- done.
        -- by destruct (Hfr x Hx).
      * do 3 (split; [done|]). apply Forall_app. split; [done|].
        constructor; [by left|constructor].
    + apply (rel_get_none _ _ _ R) in Eg.
      assert (grows d (w_received w ++ [b])) as G'.
      { destruct (insert_and_gc enum (ms_mv (w_source w)) b (ms_depth (w_source w)))
          as [[m' sel]| |]; [|injection E as <-; done|injection E as <-; done].
        destruct (new_stable (ms_confirmed (w_source w)) sel) as [k|];
          [destruct (mv_get m' k)|]; injection E as <-; done. }
      destruct (insert_gc_inv enum d _ s _ D b Hf R F0 I Eg G')
        as (m' & s' & sel & D' & E1 & R' & F' & I' & Hsel & Hcase).
      rewrite Hd, E1, Hc in E. destruct Hcase as [[-> Hst]|(c & -> & Hst & Hget)].
      * rewrite Hst in E. injection E as <-. exists s', D. cbn. rewrite app_nil_r.
        split; [|done].
        do 6 (split; [done|]). apply Forall_app. split; [done|].
        constructor; [by left|constructor].
      * rewrite Hst, Hget in E. injection E as <-. exists s', (D ++ [c]). cbn.
        split; [|intros ->; by rewrite Ha].
        split; [done|]. split; [done|]. split; [done|].
        split; [by rewrite last_snoc|]. split; [done|]. split.
        -- rewrite Ha. destruct accept; [by left|]. right. exists c. rewrite app_nil_r.
           split; [done|]. intros _. by destruct Hdrop.
        -- apply Forall_app. split; [done|]. constructor; [right; eauto|constructor].
Qed.

Lemma restart_ok enum d from0 w s D : fair enum -> winv d from0 w s D ->
  exists w' s', w_step nf from0 w (Reopen enum) = Some w' /\ winv d from0 w' s' D.
Proof.
  intros Hf (R & F0 & I & Hc & Hd & Hacc & Hres). cbn.
  pose proof (grows_tree _ _ (i_grows _ _ _ _ I)) as T.
  destruct (rel_reopen _ s (m_from (ms_mv (w_source w))) R) as (m' & E & R'). rewrite E.
  match type of R' with rel _ ?x => set (s' := x) in * end.
  assert (forall b, b ∈ s_blocks s' <-> b ∈ s_blocks s) as Hel.
  { intros b. subst s'. cbn. rewrite merge_sort_Permutation. split; [apply R|].
    intros Hb. apply (r_kept _ _ R); [done|lia]. }
  assert (inv d (s_blocks s') (w_received w) D) as I'.
  { split; [apply I| |by eapply rel_nodup| |apply I|apply I].
    - intros b. rewrite Hel. apply I.
    - apply sorted_parents_first.
      + subst s'. cbn. apply StronglySorted_merge_sort; [|].
        * intros x y z. unfold block_le. intros [H1|[H1 H1']] [H2|[H2 H2']]; try (left; lia).
          right. split; [lia|]. unfold bytes_le in *.
          destruct (bytes_cmp (b_id x) (b_id y)) eqn:E1; [| |done].
          -- apply bytes_cmp_eq in E1. by rewrite E1.
          -- destruct (bytes_cmp (b_id y) (b_id z)) eqn:E2; [| |done].
             ++ apply bytes_cmp_eq in E2. rewrite <- E2, E1. done.
             ++ by rewrite (bytes_cmp_trans _ _ _ E1 E2).
        * intros x y. unfold block_le.
          destruct (N.lt_trichotomy (b_num x) (b_num y)) as [?|[?|?]]; [by left; left| |by right; left].
          unfold bytes_le. destruct (bytes_cmp (b_id x) (b_id y)) eqn:E1.
          -- left. right. done.
          -- left. right. done.
          -- right. right. split; [done|]. rewrite (bytes_cmp_antisym (b_id x)), E1. done.
      + intros p c Hp Hcc Hl. rewrite Hel in Hp, Hcc.
        apply (i_elem _ _ _ _ I) in Hp. apply (i_elem _ _ _ _ I) in Hcc.
        pose proof (t_link _ T _ _ Hp Hcc Hl). lia. }
  unfold ms_new. rewrite Hd.
  destruct (rel_select m' s' enum [] d 0 R' Hf) as (r & disc & Es & H0 & H1).
  { intros k a e H. by apply elem_of_nil in H. }
  { intros k a H. by apply elem_of_nil in H. }
  rewrite Es.
  assert (r = b_id <$> last D) as ->.
  { destruct (decide (s_blocks s' = [])) as [En|Hne].
    - destruct (H0 En) as [-> _]. destruct (last D) as [c|] eqn:El; [|done]. exfalso.
      assert (c ∈ s_blocks s') as Hin.
      { apply (i_elem _ _ _ _ I'). unfold kept. rewrite El.
        pose proof (i_top _ _ _ _ I') as Ht. rewrite El in Ht. split; [apply Ht|lia]. }
      rewrite En in Hin. by apply elem_of_nil in Hin.
    - destruct (H1 Hne) as (tip & Htop & Hr).
      pose proof (inv_select d _ _ D tip I' Htop) as Hs.
      destruct (last D) as [c|], r as [k|].
      + destruct Hr as (a & Ha & <- & _). cbn. do 2 f_equal.
        eapply nth_ancestor_fun; eauto. apply (i_nodup _ _ _ _ I').
      + destruct Hr as [Hno _]. by destruct (Hno c).
      + destruct Hr as (a & Ha & _). by destruct (Hs a).
      + done. }
  eexists _, s'. split; [reflexivity|]. split; [done|]. cbn.
  split; [by rewrite (r_from _ _ R)|]. do 4 (split; [done|]). done.
Qed.

Lemma winv_start d from0 : winv d from0 (w_start d) (empty_store 0) [].
Proof.
  split; [apply rel_empty|]. split; [done|]. split.
  - split; [constructor| | | | |].
    + intros b. cbn. split; [by intros H%elem_of_nil|by intros [H%elem_of_nil _]].
    + constructor.
    + intros p c Hp. by apply elem_of_nil in Hp.
    + split; [done|by left|]. intros x. split; [by intros H%elem_of_nil|].
      intros (P & Q & E & t & [Ht _] & _). symmetry in E. apply app_eq_nil in E as [-> _].
      by apply elem_of_nil in Ht.
    + cbn. done.
  - do 2 (split; [done|]). split; [by left|constructor].
Qed.

Lemma reopen_accepted from0 w enum w' : w_step nf from0 w (Reopen enum) = Some w' ->
  w_accepted w' = w_accepted w.
Proof.
  cbn. destruct (mv_load_from _ _); try done. destruct (ms_new _ _ _); try done.
  by intros [= <-].
Qed.

Lemma w_step_ok d from0 w s D a w' : act_fair a -> may_drop from0 a -> winv d from0 w s D ->
  w_step nf from0 w a = Some w' -> grows d (w_received w') -> exists s' D', winv d from0 w' s' D' /\
    (accepts a -> w_accepted w = D -> w_accepted w' = D').
Proof.
  intros Hf Hd W E G. destruct a as [enum ans accept|enum].
  - destruct (pull_ok _ _ _ _ _ _ _ _ _ Hf W Hd E G) as (s' & D' & ? & ?). exists s', D'. eauto.
  - destruct (restart_ok enum d from0 w s D Hf W) as (w1 & s1 & E1 & W1).
    assert (w_accepted w1 = w_accepted w) as Ha by (by eapply reopen_accepted).
    rewrite E1 in E. injection E as <-. exists s1, D. rewrite Ha. eauto.
Qed.

Lemma w_step_total d from0 w s D a : act_fair a -> winv d from0 w s D ->
  is_Some (w_step nf from0 w a).
Proof.
  intros Hf W. destruct a as [enum ans accept|enum].
  - cbn. destruct (ms_pull _ _ _ _ _) as [[st asked] r]. eauto.
  - destruct (restart_ok enum d from0 w s D Hf W) as (w1 & s1 & E1 & _). rewrite E1. eauto.
Qed.

Lemma w_run_ok d from0 acts : Forall act_fair acts -> Forall (may_drop from0) acts ->
  forall w s D w', winv d from0 w s D -> w_run nf from0 w acts = Some w' ->
  grows d (w_received w') -> exists s' D', winv d from0 w' s' D' /\
    (Forall accepts acts -> w_accepted w = D -> w_accepted w' = D').
Proof.
  intros Hf Hd. induction acts as [|a acts IH]; intros w s D w' W E G; cbn in E.
  - injection E as <-. eauto.
  - apply Forall_cons in Hf as [Hf1 Hf]. apply Forall_cons in Hd as [Hd1 Hd].
    destruct (w_step nf from0 w a) as [w1|] eqn:E1; [|done].
    destruct (w_run_received _ _ _ _ E) as [Q EQ].
    destruct (w_step_ok d from0 w s D a w1 Hf1 Hd1 W E1) as (s1 & D1 & W1 & Ha1).
    { rewrite EQ in G. by eapply grows_prefix. }
    destruct (IH Hf Hd _ _ _ _ W1 E G) as (s2 & D2 & W2 & Ha2). exists s2, D2. split; [done|].
    intros [H1 H2]%Forall_cons Ha. auto.
Qed.

End run.
