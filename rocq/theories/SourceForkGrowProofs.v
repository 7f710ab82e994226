(** * The fork-handling source over a wrapped source whose forks are shallow *)
From Coq Require Import Lia NArith List.
From stdpp Require Import prelude numbers list gmap sorting.
From Verif Require Import MultiverseModel MultiverseSpec MultiverseProofs MultiverseHistProofs
  MultiverseQueryProofs SourceModel SourceSpec SourceProofs SourceRunProofs SourceForkProofs.

Local Open Scope N_scope.

Section forkgrow.
Context {point : Type} `{EqDecision point} (nf : block -> option point).
Hypothesis (NF : points_ok nf).

Lemma tree_sane R : tree R -> sane R.
Proof.
  intros T. split.
  - apply (t_id _ T).
  - intros p c Hp Hc Hl. pose proof (t_link _ T p c Hp Hc Hl). lia.
  - apply (t_small _ T).
  - intros f p Hf Hp. by apply (t_first _ T f Hf).
Qed.

(** The latest settled block, or the first one. *)
Definition base (R D : list block) : option block :=
  match last D with Some c => Some c | None => head R end.

Record ginv (d : nat) (w : fworld (point:=point)) (s : store) (D : list block) : Prop := {
  gi_rel : rel (fh_mv (f_source w)) s;
  gi_from : s_from s = 0;
  gi_inv : inv d (s_blocks s) (f_received w) D;
  gi_conf : fh_confirmed (f_source w) = b_id <$> last D;
  gi_depth : fh_depth (f_source w) = d;
  gi_last : fh_last (f_source w) = b_id <$> last (f_received w);
  gi_desc : forall l c, last (f_received w) = Some l -> base (f_received w) D = Some c ->
    exists n, back (f_received w) n l c }.

Lemma back_stored m s R n y c : rel m s -> tree R ->
  (forall z, z ∈ R -> b_num c <= b_num z -> z ∈ s_blocks s) ->
  back R n y c -> stored_path m (b_id y) c.
Proof.
  intros Rl T Hst Hb. induction Hb as [b Hb|n b p a Hb Hl Hp IH].
  - constructor. apply (rel_get_in _ _ _ Rl). apply Hst; [done|lia].
  - pose proof (back_num _ _ _ _ T Hp) as Hn.
    pose proof (t_link _ T p b (proj1 (back_in _ _ _ _ Hp)) Hb Hl) as Hl'.
    eapply path_parent.
    + apply (rel_get_in _ _ _ Rl). apply Hst; [done|lia].
    + rewrite Hl. by apply IH.
Qed.

Lemma base_settled d S R D c x : inv d S R D -> last D = Some c -> settled d R x -> x = c.
Proof. intros I Hc Hx. apply (inv_settled _ _ _ _ x I) in Hx. congruence. Qed.

Lemma back_to_first R f b : tree R -> head R = Some f -> b ∈ R -> exists n, back R n b f.
Proof.
  intros T Hf Hb. exists (N.to_nat (b_num b - b_num f)).
  apply back_first; [done|done|done|].
  pose proof (proj1 (proj2 (t_first _ T f Hf) b Hb)). lia.
Qed.

(** The new block and the previous one have the base as common ancestor, and it is kept. *)
Lemma grow_common d S R D b : inv d S R D -> b ∉ R -> grows d (R ++ [b]) ->
  R <> [] -> exists c, base R D = Some c /\ exists n, back (R ++ [b]) n b c.
Proof.
  intros I Hb G Hne. pose proof (grows_tree _ _ G) as T.
  pose proof (grows_snoc_inv _ _ _ G) as [_ [[H0 _]|[H0|(p & Hp & Hl & Hn & _ & _ & Hs)]]]; [done|done|].
  unfold base. destruct (last D) as [c|] eqn:El.
  - exists c. split; [done|].
    assert (settled d R c) as Hc by (by apply (inv_settled _ _ _ _ c I)).
    destruct (Hs c Hc) as [n Hback]. exists (Datatypes.S n). econstructor; [|exact Hl|].
    + apply elem_of_app. right. by left.
    + eapply back_mono; [|exact Hback]. intros x Hx. apply elem_of_app. by left.
  - destruct R as [|f R]; [done|]. exists f. split; [done|].
    apply (back_to_first _ f b T); [done|]. apply elem_of_app. right. by left.
Qed.

Lemma grow_kept d S R D S' D' b : inv d S R D -> inv d S' (R ++ [b]) D' -> b ∉ R ->
  (D' = D \/ exists c, D' = D ++ [c]) -> forall c, base (R ++ [b]) D = Some c ->
  (forall z, z ∈ R ++ [b] -> b_num c <= b_num z -> z ∈ S') /\
  (forall c', base (R ++ [b]) D' = Some c' ->
     (exists n, back (R ++ [b]) n b c) -> exists n, back (R ++ [b]) n b c').
Proof.
  intros I I' Hb HD c Hc. pose proof (grows_tree _ _ (i_grows _ _ _ _ I')) as T.
  pose proof (i_elem _ _ _ _ I') as He. unfold kept in He.
  unfold base in *. destruct HD as [-> |[c1 ->]].
  - split.
    + intros z Hz Hn. apply He. split; [done|].
      destruct (last D) as [c2|]; [|done]. injection Hc as ->. lia.
    + intros c' Hc' ?. assert (c' = c) as -> by congruence. done.
  - rewrite last_snoc in He |- *.
    assert (settled d (R ++ [b]) c1) as Hset
      by (apply (inv_settled _ _ _ _ c1 I'); by rewrite last_snoc).
    assert (b_num c1 <= b_num c + 1) as Hnum.
    { pose proof (sc_linked _ _ _ (i_chain _ _ _ _ I')) as HL.
      destruct (last D) as [c2|] eqn:El.
      - injection Hc as ->. apply last_Some in El as [q ->]. rewrite <- app_assoc in HL. cbn in HL.
        apply linked_last2 in HL as [_ HL]. lia.
      - assert (D = []) as -> by (destruct D using rev_ind; [done|by rewrite last_snoc in El]).
        destruct (sc_first _ _ _ (i_chain _ _ _ _ I')) as [?|HF]; [done|]. cbn in HF.
        rewrite Hc in HF. injection HF as ->. lia. }
    split.
    + intros z Hz Hn. apply He. split; [done|]. lia.
    + intros c' [= <-] _. destruct Hset as (t & [Ht Hmax] & Hback).
      enough (t = b) as -> by eauto.
      apply elem_of_app in Ht as [Ht|Ht]; [|by apply elem_of_list_singleton in Ht].
      exfalso. pose proof (back_num _ _ _ _ T Hback) as Hbn.
      pose proof (sc_linked _ _ _ (i_chain _ _ _ _ I')) as HL.
      pose proof (i_top _ _ _ _ I) as Hti. destruct (last D) as [c2|] eqn:El.
      * injection Hc as ->. destruct Hti as (_ & _ & Hti). destruct (Hti t Ht) as [Hle _].
        apply last_Some in El as [q ->]. rewrite <- app_assoc in HL. cbn in HL.
        apply linked_last2 in HL as [_ HL]. lia.
      * assert (D = []) as -> by (destruct D using rev_ind; [done|by rewrite last_snoc in El]).
        destruct (sc_first _ _ _ (i_chain _ _ _ _ I')) as [?|HF]; [done|]. cbn in HF.
        rewrite Hc in HF. injection HF as ->.
        destruct R as [|f R]; [by apply elem_of_nil in Ht|]. injection Hc as <-.
        pose proof (Hti t f eq_refl Ht). lia.
Qed.

Lemma g_step d w s D a : ginv d w s D -> fpull_fair a ->
  grows d (f_received (f_step nf w a)) -> NoDup (f_received (f_step nf w a)) ->
  (forall enum from ans, a = FPull enum from ans -> f_received w = [] -> from <> None) ->
  fork_point_stored nf w a /\ exists s' D', ginv d (f_step nf w a) s' D'.
Proof.
  intros Gi Hfair G ND Hfrom. destruct a as [enum from ans]. cbn in Hfair.
  specialize (Hfrom enum from ans eq_refl).
  unfold fork_point_stored. unfold f_step in G, ND |- *.
  destruct (fh_pull nf enum (f_source w) from ans) as [[st asked] r] eqn:E.
  cbn [f_received] in G, ND.
  destruct Gi as [Rl F0 I Hconf Hdep Hlast Hdesc].
  assert (fh_mv st = fh_mv (f_source w) -> fh_confirmed st = fh_confirmed (f_source w) ->
     fh_depth st = fh_depth (f_source w) -> fh_last st = fh_last (f_source w) ->
     received_by asked ans r = [] ->
    (forall b, received_by asked ans r = [b] ->
       match last (f_received w) with
       | None => from <> None
       | Some l => b_parent b <> b_id l ->
          exists x, stored_path (fh_mv st) (b_id l) x /\ stored_path (fh_mv st) (b_id b) x
       end) /\
    exists s' D', ginv d (FWorld st (f_received w ++ received_by asked ans r)
      (apply_pulled nf (f_chain w) r) (f_results w ++ [r])) s' D') as Hkeep.
  { intros E1 E2 E3 E4 E5. rewrite E5. split; [done|]. exists s, D. rewrite app_nil_r.
    split; cbn [f_source f_received]; congruence || (rewrite ?E1; done). }
  unfold fh_pull in E.
  destruct (fh_events (f_source w)) as [|e q] eqn:Eq.
  2:{ injection E as <- <- <-. by apply Hkeep. }
  assert (conf_ok (fh_mv (f_source w)) (fh_confirmed (f_source w))) as Hco.
  { rewrite Hconf. intros k Hk. destruct (last D) as [c|] eqn:El; [|done]. injection Hk as <-.
    exists c. apply (rel_get_in _ _ _ Rl). apply (i_elem _ _ _ _ I). unfold kept. rewrite El.
    pose proof (i_top _ _ _ _ I) as Ht. rewrite El in Ht. split; [apply Ht|lia]. }
  rewrite (fh_checkpoints_ok nf NF enum _ from s Hfair Rl Hco) in E.
  destruct ans as [| |[t|b]]; [by injection E as <- <- <-; apply Hkeep..|].
  destruct (mv_get (fh_mv (f_source w)) (b_id b)) as [z|] eqn:Eg;
    [by injection E as <- <- <-; apply Hkeep|].
  clear Hkeep. apply (rel_get_none _ _ _ Rl) in Eg.
  assert (received_by asked (AEvent (EvBlock b)) r = [b]) as Hrec.
  { destruct (insert_and_gc enum (fh_mv (f_source w)) b (fh_depth (f_source w)))
      as [[m' sel]| |] eqn:Ei; [|by injection E as <- <- <-..].
    destruct (fh_switch nf m' [] (fh_last (f_source w)) b from) as [q' r'] eqn:Esw.
    cbv zeta in E. injection E as <- <- <-.
    pose proof (fh_switch_not_none nf m' [] (fh_last (f_source w)) b from) as Hn.
    rewrite Esw in Hn. cbn in Hn |- *. by destruct r'. }
  rewrite Hrec in *.
  assert (b ∉ f_received w) as Hnew.
  { apply NoDup_app in ND as (_ & ND & _). intros Hb. apply (ND b Hb). by left. }
  destruct (insert_gc_inv enum d _ s _ D b Hfair Rl F0 I Eg G) as
    (m' & s' & sel & D' & Ei & Rl' & F' & I' & Hsel & HD).
  rewrite Hdep, Ei in E.
  destruct (fh_switch nf m' [] (fh_last (f_source w)) b from) as [q' r'] eqn:Esw.
  cbv zeta in E. injection E as <- <- <-. cbn [fh_mv].
  pose proof (grows_tree _ _ G) as T.
  assert (D' = D \/ exists c, D' = D ++ [c]) as HD'.
  { destruct HD as [[-> _]|(c & -> & _)]; eauto. }
  assert (forall x, base (f_received w) D = Some x -> base (f_received w ++ [b]) D = Some x) as Hbase.
  { unfold base. intros x. destruct (last D); [done|]. by destruct (f_received w). }
  split.
  - intros b' [= <-]. destruct (last (f_received w)) as [l|] eqn:El.
    + intros _. assert (f_received w <> []) as Hne by (intros H0; by rewrite H0 in El).
      destruct (grow_common d _ _ D b I Hnew G Hne) as (c & Hc & n & Hb).
      destruct (Hdesc l c eq_refl Hc) as [n' Hl].
      destruct (grow_kept d _ _ D _ D' b I I' Hnew HD' c (Hbase c Hc)) as [Hk _].
      exists c. split; [|by eapply back_stored].
      eapply back_stored; [done|exact T|exact Hk|]. eapply back_mono; [|exact Hl].
      intros x Hx. apply elem_of_app. by left.
    + apply Hfrom. destruct (f_received w) as [|? R0] using rev_ind; [done|].
      by rewrite last_snoc in El.
  - exists s', D'. split; cbn [f_source f_received fh_mv fh_confirmed fh_depth fh_last]; try done.
    + rewrite Hconf. destruct HD as [[-> ->]|(c & -> & -> & _)]; [done|]. by rewrite last_snoc.
    + by rewrite last_snoc.
    + intros l c'. rewrite last_snoc. intros [= <-] Hc'.
      destruct (decide (f_received w = [])) as [H0|Hne].
      * rewrite H0 in *. exists 0%nat. cbn in Hc' |- *.
        assert (c' = b) as ->; [|constructor; by left].
        unfold base in Hc'. cbn in Hc'. destruct (last D') as [x|] eqn:El; [|congruence].
        assert (x ∈ D') as Hx by (apply last_Some in El as [q ->]; apply elem_of_app; right; by left).
        apply (sc_received _ _ _ _ (i_chain _ _ _ _ I')) in Hx. cbn in Hx.
        apply elem_of_list_singleton in Hx. congruence.
      * destruct (grow_common d _ _ D b I Hnew G Hne) as (c & Hc & Hb).
        destruct (grow_kept d _ _ D _ D' b I I' Hnew HD' c (Hbase c Hc)) as [_ Hk].
        by apply Hk.
Qed.

Lemma ginv_start d : ginv d (f_start d) (empty_store 0) [].
Proof.
  pose proof (winv_start (point:=point) d None) as (Rl & F0 & I & _).
  split; try done.
Qed.

Lemma g_run d acts : forall w s D, ginv d w s D -> Forall fpull_fair acts ->
  grows d (f_received (f_run nf w acts)) -> NoDup (f_received (f_run nf w acts)) ->
  first_has_point nf w acts ->
  fork_points_stored nf w acts /\ exists s' D', ginv d (f_run nf w acts) s' D'.
Proof.
  induction acts as [|[enum from ans] acts IH]; intros w s D Gi HF G ND Hfp;
    cbn [f_run first_has_point fork_points_stored] in *; [eauto|].
  inversion HF as [|? ? Ha HF']; subst. destruct Hfp as [Hf Hfp].
  destruct (f_run_received nf acts (f_step nf w (FPull enum from ans))) as [Q HQ].
  rewrite HQ in G, ND.
  destruct (g_step d w s D (FPull enum from ans) Gi Ha) as (Hfork & s' & D' & Gi').
  - by apply grows_prefix in G.
  - by apply NoDup_app in ND as [? _].
  - intros ? ? ? [= <- <- <-]. done.
  - rewrite <- HQ in G, ND. destruct (IH _ s' D' Gi' HF' G ND Hfp) as [H1 H2]. done.
Qed.

End forkgrow.
