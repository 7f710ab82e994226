(** * Proofs about the fork-handling source *)
From Coq Require Import Lia NArith List.
From stdpp Require Import prelude numbers list gmap sorting.
From Verif Require Import MultiverseModel MultiverseSpec MultiverseProofs MultiverseHistProofs
  MultiverseQueryProofs SourceModel SourceSpec SourceProofs SourceRunProofs.

Local Open Scope N_scope.

Section fork.
Context {point : Type} `{EqDecision point} (nf : block -> option point).
Hypothesis (NF : points_ok nf).

(** ** Chains *)

Lemma parent_linked_app C1 C2 : parent_linked (C1 ++ C2) -> parent_linked C1 /\ parent_linked C2.
Proof.
  induction C1 as [|x C1 IH]; cbn; [tauto|]. intros H0. destruct C1 as [|y C1].
  - cbn in *. destruct C2; [done|]. tauto.
  - cbn in H0. destruct H0 as [H1 H2]. destruct (IH H2). tauto.
Qed.

Lemma parent_linked_join C1 C2 : parent_linked C1 -> parent_linked C2 ->
  (forall x y, last C1 = Some x -> head C2 = Some y -> b_parent y = b_id x) ->
  parent_linked (C1 ++ C2).
Proof.
  induction C1 as [|x C1 IH]; intros H1 H2 Hj; [done|]. destruct C1 as [|y C1].
  - cbn. destruct C2 as [|z C2]; [done|]. split; [by apply Hj|done].
  - cbn in H1 |- *. destruct H1 as [H1 H3]. split; [done|]. apply IH; [done|done|].
    intros a b Ha Hb. by apply Hj.
Qed.

Lemma parent_linked_mid C1 x y C2 : parent_linked (C1 ++ x :: y :: C2) -> b_parent y = b_id x.
Proof. intros H0. apply parent_linked_app in H0 as [_ H0]. by destruct H0. Qed.

(** In a chain of distinct blocks, cutting at the point of a member keeps exactly what
    leads to it. *)
Lemma cut_rev_skip p x l : nf x = Some p ->
  (forall y, y ∈ l -> nf y <> Some p) -> forall r, cut_rev nf p (l ++ x :: r) = x :: r.
Proof.
  intros Hx. induction l as [|y l IH]; intros Hl r; cbn.
  - by rewrite decide_True.
  - rewrite decide_False by (apply Hl; by left). apply IH. intros z Hz. apply Hl. by right.
Qed.

Lemma cut_at p C1 x C2 : nf x = Some p -> (forall y, y ∈ C2 -> b_id y <> b_id x) ->
  cut nf p (C1 ++ x :: C2) = C1 ++ [x].
Proof.
  intros Hx Hd. unfold cut.
  replace (rev (C1 ++ x :: C2)) with (rev C2 ++ x :: rev C1).
  2:{ rewrite rev_app_distr. cbn. by rewrite <- app_assoc. }
  rewrite cut_rev_skip.
  - cbn. by rewrite rev_involutive.
  - done.
  - intros y Hy E. apply elem_of_list_In, in_rev, elem_of_list_In in Hy.
    apply (Hd y Hy). apply (proj2 NF). congruence.
Qed.

(** ** Walks *)

Lemma walk_fuel m s R : rel m s -> (forall b, b ∈ s_blocks s -> b ∈ R) -> sane R ->
  forall fuel cursor,
  (forall e, mv_get m cursor = Some e ->
     (length (filter (fun x => (b_num x <= b_num e)%N) (s_blocks s)) < fuel)%nat) ->
  (0 < fuel)%nat ->
  exists ids, walk_previous m fuel cursor = Some ids /\
    (forall k, k ∈ ids <-> exists x, b_id x = k /\ stored_path m cursor x).
Proof.
  intros Rl Hsub Sn. induction fuel as [|fuel IH]; intros cursor Hfuel Hpos; [lia|].
  cbn. destruct (mv_get m cursor) as [e|] eqn:Eg.
  2:{ exists []. split; [done|]. intros k. split; [by intros H0%elem_of_nil|].
      intros (x & _ & Hp). inversion Hp; congruence. }
  specialize (Hfuel e eq_refl). pose proof (rel_get_some _ _ _ _ Rl Eg) as [He Hid].
  destruct (IH (b_parent e)) as (ids & E & Hids).
  - intros e' Eg'. pose proof (rel_get_some _ _ _ _ Rl Eg') as [He' Hid'].
    assert (b_num e' < b_num e) as Hlt by (apply (sn_num _ Sn); [auto|auto|done]).
    enough (length (filter (fun x => (b_num x <= b_num e')%N) (s_blocks s)) <
            length (filter (fun x => (b_num x <= b_num e)%N) (s_blocks s)))%nat by lia.
    clear -He Hlt. induction (s_blocks s) as [|y l IHl]; [by apply elem_of_nil in He|].
    rewrite !filter_cons. apply elem_of_cons in He as [<-|He].
    + rewrite decide_False by lia. rewrite decide_True by lia. cbn.
      enough (length (filter (fun x => (b_num x <= b_num e')%N) l) <=
              length (filter (fun x => (b_num x <= b_num e)%N) l))%nat by lia.
      clear -Hlt. induction l as [|z l IHl]; [done|]. rewrite !filter_cons.
      destruct (decide (b_num z <= b_num e')), (decide (b_num z <= b_num e)); cbn; lia.
    + specialize (IHl He).
      destruct (decide (b_num y <= b_num e')), (decide (b_num y <= b_num e)); cbn; lia.
  - assert (0 < length (filter (fun x => (b_num x <= b_num e)%N) (s_blocks s)))%nat; [|lia].
    assert (e ∈ filter (fun x => (b_num x <= b_num e)%N) (s_blocks s)) as Hin
      by (apply elem_of_list_filter; split; [lia|done]).
    destruct (filter (fun x => (b_num x <= b_num e)%N) (s_blocks s)); [by apply elem_of_nil in Hin|].
    cbn. lia.
  - rewrite E. cbn. eexists. split; [reflexivity|]. intros k. rewrite elem_of_cons, Hids. split.
    + intros [-> |(x & <- & Hp)].
      * exists e. split; [done|]. by constructor.
      * exists x. split; [done|]. by eapply path_parent.
    + intros (x & <- & Hp). inversion Hp as [? ? Hg|? b ? Hg Hp']; subst.
      * left. congruence.
      * right. exists x. split; [done|]. by replace e with b by congruence.
Qed.

Lemma walk_previous_ok m s R cursor : rel m s -> (forall b, b ∈ s_blocks s -> b ∈ R) -> sane R ->
  exists ids, walk_previous m (S (mv_len m)) cursor = Some ids /\
    (forall k, k ∈ ids <-> exists x, b_id x = k /\ stored_path m cursor x).
Proof.
  intros Rl Hsub Sn. eapply walk_fuel; [exact Rl|exact Hsub|exact Sn| |lia].
  intros e _. rewrite (rel_len _ _ Rl).
  pose proof (filter_length (fun x => (b_num x <= b_num e)%N) (s_blocks s)). lia.
Qed.

(** The new branch back to the first block that the previous branch has. *)
Lemma walk_current_gen m s ids : rel m s -> forall fuel cursor x,
  (exists l, walk_previous m fuel cursor = Some l) ->
  stored_path m cursor x -> b_id x ∈ ids ->
  exists es y p, walk_current nf m ids fuel cursor = WEvents (map (fun b => FInner (EvBlock b)) es ++ [FRollback p]) /\
    nf y = Some p /\ b_id y ∈ ids /\ stored_path m cursor y /\
    parent_linked (rev (es ++ [y])) /\
    (forall b, b ∈ es -> exists k, mv_get m k = Some b) /\
    (forall e, head (es ++ [y]) = Some e -> mv_get m cursor = Some e).
Proof.
  intros Rl. induction fuel as [|fuel IH]; intros cursor x [l El] Hp Hx; [done|].
  cbn in El |- *. destruct (mv_get m cursor) as [e|] eqn:Eg.
  2:{ inversion Hp; congruence. }
  destruct (decide (b_id e ∈ ids)) as [Hin|Hnin].
  - destruct (proj1 NF e) as [p Hpt]. rewrite Hpt. exists [], e, p. cbn.
    do 3 (split; [done|]). split; [by constructor|]. split; [done|]. split.
    + intros b Hb. by apply elem_of_nil in Hb.
    + intros e' [= <-]. done.
  - destruct (walk_previous m fuel (b_parent e)) as [l'|] eqn:El'; [|done].
    destruct (IH (b_parent e) x) as (es & y & p & E & Hpt & Hy & Hpy & HL & Hes & Hhd).
    + eauto.
    + inversion Hp as [? ? Hg|? b ? Hg Hp']; subst.
      * replace x with e in Hx by congruence. done.
      * by replace e with b by congruence.
    + done.
    + rewrite E. exists (e :: es), y, p. cbn. split; [done|]. split; [done|]. split; [done|].
      split; [by eapply path_parent|]. split; [|split].
      * apply parent_linked_join; [done|done|]. intros a z Ha [= <-].
        assert (head (es ++ [y]) = Some a) as Hh.
        { rewrite <- (rev_involutive (es ++ [y])). clear -Ha.
          destruct (rev (es ++ [y])) as [|q l _] using rev_ind; [done|].
          rewrite last_snoc in Ha. injection Ha as ->. by rewrite rev_app_distr. }
        symmetry. by apply (rel_get_some _ _ _ _ Rl (Hhd a Hh)).
      * intros b [-> |Hb]%elem_of_cons; eauto.
      * intros e' [= <-]. done.
Qed.

(** ** The confirmed block stays stored *)

Definition conf_ok (m : mv) (conf : option bytes) : Prop :=
  forall k, conf = Some k -> is_Some (mv_get m k).

Lemma insert_gc_conf enum m s b d conf : rel m s -> fair enum -> b_num b < 2 ^ 64 ->
  ~ has (s_blocks s) (b_id b) -> conf_ok m conf ->
  exists m' s' sel, insert_and_gc enum m b d = Done (m', sel) /\ rel m' s' /\
    s_from s' = s_from s /\
    (forall x, x ∈ s_blocks s' -> x ∈ s_blocks s ++ [b]) /\
    (forall k, sel = Some k -> is_Some (mv_get m' k)) /\
    conf_ok m' (match new_stable conf sel with Some k => Some k | None => conf end) /\
    (new_stable conf sel = None -> conf_ok m' conf).
Proof.
  intros Rl Hf Hn Hh Hc.
  destruct (insert_gc_ok enum m s b d Rl Hf Hn Hh) as (m' & s' & sel & tip & E & Rl' & F & _ & Hs).
  exists m', s', sel. do 3 (split; [done|]).
  assert (forall k, sel = Some k -> is_Some (mv_get m' k)) as Hsel.
  { intros k ->. destruct Hs as (a & Ha & <- & Hb). exists a. apply (rel_get_in _ _ _ Rl').
    rewrite Hb. apply elem_of_list_filter. split; [lia|]. by apply nth_ancestor_in in Ha as [? _]. }
  assert (sel = None -> conf_ok m' conf) as Hnone.
  { intros -> k Hk. destruct Hs as [_ Hb]. destruct (Hc k Hk) as [x Hx].
    apply (rel_get_some _ _ _ _ Rl) in Hx as [Hx <-]. exists x. apply (rel_get_in _ _ _ Rl').
    rewrite Hb. apply elem_of_app. by left. }
  split; [|split; [done|]].
  - destruct sel; [destruct Hs as (a & _ & _ & ->)|destruct Hs as [_ ->]]; [|done].
    intros x Hx. by apply elem_of_list_filter in Hx as [_ ?].
  - assert (new_stable conf sel = None -> conf_ok m' conf) as Hns.
    { unfold new_stable. destruct sel as [k|]; [|auto].
      destruct (decide (conf = Some k)) as [-> |]; [|done]. intros _ k' [= <-]. auto. }
    split; [|done]. destruct (new_stable conf sel) as [k|] eqn:En; [|auto].
    intros k' [= <-]. unfold new_stable in En. destruct sel as [k''|]; [|done].
    destruct (decide (conf = Some k'')); [done|]. injection En as <-. auto.
Qed.

Lemma fh_tip_points_ok m s ks : rel m s -> (forall k, k ∈ ks -> k ∈ mv_tips m) ->
  fh_tip_points nf m ks = inr (omap (fun k => mv_get m k ≫= nf) ks).
Proof.
  intros R. induction ks as [|k ks IH]; intros H0; [done|].
  destruct (proj1 (rel_tips _ _ k R) (H0 k ltac:(by left))) as (b & Hb & <- & _).
  cbn. rewrite (rel_get_in _ _ _ R Hb). cbn. destruct (proj1 NF b) as [p Hp]. rewrite Hp.
  rewrite IH; [done|]. intros k' Hk'. apply H0. by right.
Qed.

Lemma fh_checkpoints_ok enum st from s : fair enum -> rel (fh_mv st) s ->
  conf_ok (fh_mv st) (fh_confirmed st) ->
  fh_checkpoints nf enum st from = inr
    (omap (fun k => mv_get (fh_mv st) k ≫= nf) (enum (mv_tips (fh_mv st))) ++
     option_list (k ← fh_confirmed st; mv_get (fh_mv st) k ≫= nf) ++ option_list from).
Proof.
  intros Hf R Hc. unfold fh_checkpoints.
  rewrite (fh_tip_points_ok _ s _ R) by (intros k; by rewrite (Hf _), elem_of_elements).
  destruct (fh_confirmed st) as [k|]; [|done]. destruct (Hc k eq_refl) as [x Hx]. cbn.
  rewrite Hx. cbn. destruct (proj1 NF x) as [p Hp]. by rewrite Hp.
Qed.

Lemma last_rev {A} (l : list A) : last (rev l) = head l.
Proof. destruct l as [|x l]; [done|]. cbn. apply last_snoc. Qed.

Lemma last_app_cons {A} (l1 : list A) x l2 : last (l1 ++ x :: l2) = last (x :: l2).
Proof. rewrite last_app. rewrite last_cons. by destruct (last l2). Qed.

Lemma fh_switch_not_none m q previous b from : snd (fh_switch nf m q previous b from) <> PNone.
Proof.
  unfold fh_switch. destruct (decide (previous = Some (b_parent b))); [done|].
  destruct previous as [c|]; [|by destruct from].
  destruct (walk_previous m (S (mv_len m)) c) as [ids|]; [|done].
  destruct (walk_current nf m ids (S (mv_len m)) (b_id b)) as [es| |]; [|done..].
  by destruct (rev es ++ q).
Qed.

(** ** The invariant *)

Definition inner_only (q : list (fevent point)) : Prop :=
  exists bs, q = map (fun b => FInner (EvBlock b)) bs.

Record finv (w : fworld (point:=point)) (s : store) : Prop := {
  fi_rel : rel (fh_mv (f_source w)) s;
  fi_sub : forall b, b ∈ s_blocks s -> b ∈ f_received w;
  fi_conf : conf_ok (fh_mv (f_source w)) (fh_confirmed (f_source w));
  fi_last : fh_last (f_source w) = b_id <$> last (f_received w);
  fi_queue : inner_only (fh_events (f_source w));
  fi_follows : follows (f_received w) (consumed nf w);
  fi_chain : forall b, b ∈ consumed nf w -> b ∈ f_received w;
  fi_empty : fh_events (f_source w) = [] \/ f_received w <> [] }.

Lemma apply_inner bs : forall c,
  foldl (apply_event nf) c (map (fun b => FInner (EvBlock b)) bs) = c ++ bs.
Proof.
  induction bs as [|b bs IH]; intros c; cbn; [by rewrite app_nil_r|].
  rewrite IH. by rewrite <- app_assoc.
Qed.

Lemma sane_prefix R Q : sane (R ++ Q) -> sane R.
Proof.
  intros [H1 H2 H3 H4]. assert (forall x, x ∈ R -> x ∈ R ++ Q) as Hm
    by (intros x Hx; apply elem_of_app; by left).
  split; auto. intros f p Hf Hp. apply H4; [|auto]. by destruct R.
Qed.

(** Numbers grow along a chain, so its blocks are distinct. *)
Lemma chain_numbers R C1 x C2 y : sane R -> parent_linked (C1 ++ x :: C2) ->
  (forall b, b ∈ C1 ++ x :: C2 -> b ∈ R) -> y ∈ C2 -> b_num x < b_num y.
Proof.
  intros Sn HL Hsub Hy. apply parent_linked_app in HL as [_ HL].
  assert (forall b, b ∈ x :: C2 -> b ∈ R) as Hsub'.
  { intros b Hb. apply Hsub. apply elem_of_app. by right. }
  clear Hsub. revert x HL Hsub'. induction C2 as [|z C2 IH]; intros x HL Hsub';
    [by apply elem_of_nil in Hy|].
  destruct HL as [Hl HL].
  assert (b_num x < b_num z) as Hlt.
  { apply (sn_num _ Sn); [apply Hsub'; by left|apply Hsub'; right; by left|done]. }
  apply elem_of_cons in Hy as [-> |Hy]; [done|].
  pose proof (IH Hy z HL ltac:(intros b Hb; apply Hsub'; by right)). lia.
Qed.

(** The stored ancestors of a member of the chain are members of the chain. *)
Lemma path_in_chain m s R C f : rel m s -> (forall b, b ∈ s_blocks s -> b ∈ R) -> sane R ->
  head R = Some f -> head C = Some f -> parent_linked C -> (forall b, b ∈ C -> b ∈ R) ->
  forall k x, stored_path m k x -> forall y, y ∈ C -> b_id y = k -> x ∈ C.
Proof.
  intros Rl Hsub Sn HfR HfC HL HC k x Hp. induction Hp as [k x Hg|k b x Hg Hp IH]; intros y Hy Hk.
  - apply (rel_get_some _ _ _ _ Rl) in Hg as [Hx Hid].
    assert (x = y) as -> by (apply (sn_id _ Sn); [auto|auto|congruence]). done.
  - apply (rel_get_some _ _ _ _ Rl) in Hg as [Hb Hid].
    assert (b = y) as -> by (apply (sn_id _ Sn); [auto|auto|congruence]).
    assert (exists z, mv_get m (b_parent y) = Some z) as [z Hz] by (inversion Hp; eauto).
    apply (rel_get_some _ _ _ _ Rl) in Hz as [Hz Hzid].
    apply elem_of_list_split in Hy as (C1 & C2 & HCe).
    destruct C1 as [|q C1 _] using rev_ind.
    + exfalso. rewrite HCe in HfC. injection HfC as ->. apply (sn_first _ Sn f z HfR); auto.
    + rewrite <- app_assoc in HCe. cbn in HCe.
      apply (IH q).
      * rewrite HCe. apply elem_of_app. right. by left.
      * rewrite HCe in HL. symmetry. by apply parent_linked_mid in HL.
Qed.

Lemma sane_small R b : sane (R ++ [b]) -> b_num b < 2 ^ 64.
Proof. intros Sn. apply (sn_small _ Sn). apply elem_of_app. right. by left. Qed.

(** A rollback names a block of the consumer's chain, unless nothing was received before. *)
Definition rollback_known (w : fworld (point:=point)) (r : pulled (fevent point)) : Prop :=
  forall p, r = PEvent (FRollback p) ->
    f_received w = [] \/ exists x, x ∈ f_chain w /\ nf x = Some p.

Lemma f_step_ok w s a : finv w s -> fpull_fair a -> sane (f_received (f_step nf w a)) ->
  fork_point_stored nf w a ->
  exists r s', f_results (f_step nf w a) = f_results w ++ [r] /\ fine r /\ rollback_known w r /\
    finv (f_step nf w a) s'.
Proof.
  intros I Hfair Sn Hfork. destruct a as [enum from ans]. cbn in Hfair.
  unfold fork_point_stored in Hfork. unfold f_step in Sn |- *.
  destruct (fh_pull nf enum (f_source w) from ans) as [[st asked] r] eqn:E.
  cbn [f_results f_received f_source] in *. unfold fh_pull in E.
  destruct (fi_queue _ _ I) as [bs Hbs].
  destruct (fh_events (f_source w)) as [|e q] eqn:Eq.
  2:{ (* a queued event *)
    injection E as <- <- <-. destruct bs as [|b bs]; [done|]. injection Hbs as -> Hq.
    exists (PEvent (FInner (EvBlock b))), s. split; [done|]. split; [done|].
    split; [intros p Hp; discriminate|].
    assert (forall x, consumed nf (FWorld (Fh (fh_mv (f_source w)) (fh_depth (f_source w))
       (fh_confirmed (f_source w)) (fh_last (f_source w)) q) x (f_chain w ++ [b]) (f_results w ++ [PEvent (FInner (EvBlock b))])) = consumed nf w) as Hcons.
    { intros x. unfold consumed. cbn. rewrite Eq. done. }
    split; cbn [f_source f_received f_chain f_results fh_mv fh_events fh_last fh_confirmed
      received_by apply_pulled apply_event]; rewrite ?app_nil_r, ?Hcons; try apply I.
    { exists bs. done. }
    right. destruct (fi_empty _ _ I) as [H0|H0]; [congruence|done]. }
  assert (consumed nf w = f_chain w) as Hcw by (unfold consumed; by rewrite Eq).
  pose proof (fi_follows _ _ I) as Hfol. rewrite Hcw in Hfol.
  pose proof (fi_chain _ _ I) as Hch. rewrite Hcw in Hch.
  rewrite (fh_checkpoints_ok enum _ from s Hfair (fi_rel _ _ I) (fi_conf _ _ I)) in E.
  assert (forall r', fine r' -> (forall b, r' <> PEvent (FInner (EvBlock b))) ->
    (forall p, r' <> PEvent (FRollback p)) ->
    (st, r) = (f_source w, r') -> received_by asked ans r = [] ->
    exists r0 s', f_results w ++ [r] = f_results w ++ [r0] /\ fine r0 /\ rollback_known w r0 /\
    finv (FWorld st (f_received w ++ received_by asked ans r) (apply_pulled nf (f_chain w) r)
           (f_results w ++ [r])) s') as Hkeep.
  { intros r' Hfine Hnb Hnr [= -> ->] Hrec. exists r', s. split; [done|]. split; [done|].
    split; [intros p Hp; by destruct (Hnr p)|]. rewrite Hrec, app_nil_r.
    assert (apply_pulled nf (f_chain w) r' = f_chain w) as ->.
    { destruct r' as [| |[[t|b]|p]| |]; try done; [by destruct (Hnb b)|by destruct (Hnr p)]. }
    split; cbn [f_source f_received f_chain f_results]; apply I. }
  destruct ans as [| |[t|b]].
  - injection E as <- <- <-. by apply (Hkeep PErr).
  - injection E as <- <- <-. by apply (Hkeep PNone).
  - injection E as <- <- <-. apply (Hkeep (PEvent (FInner (EvTip t)))); done.
  - destruct (mv_get (fh_mv (f_source w)) (b_id b)) as [z|] eqn:Eg.
    { injection E as <- <- <-. by apply (Hkeep PNone). }
    clear Hkeep. apply (rel_get_none _ _ _ (fi_rel _ _ I)) in Eg.
    assert (received_by asked (AEvent (EvBlock b)) r = [b]) as Hrec.
    { destruct (insert_and_gc enum (fh_mv (f_source w)) b (fh_depth (f_source w)))
        as [[m' sel]| |] eqn:Ei; [|by injection E as <- <- <-..].
      destruct (fh_switch nf m' [] (fh_last (f_source w)) b from) as [q' r'] eqn:Esw.
      cbv zeta in E. injection E as <- <- <-.
      pose proof (fh_switch_not_none m' [] (fh_last (f_source w)) b from) as Hn.
      rewrite Esw in Hn. cbn in Hn |- *. by destruct r'. }
    rewrite Hrec in Sn. specialize (Hfork b Hrec). rewrite Hrec. pose proof (sane_small _ _ Sn) as Hsmall.
    destruct (insert_gc_conf enum _ s b (fh_depth (f_source w)) _ (fi_rel _ _ I) Hfair Hsmall Eg
      (fi_conf _ _ I)) as (m' & s' & sel & E1 & Rl' & _ & Hsub' & _ & Hconf' & _).
    rewrite E1 in E. clear Hrec.
    assert (forall x, x ∈ s_blocks s' -> x ∈ f_received w ++ [b]) as Hsub.
    { intros x Hx. apply Hsub' in Hx. apply elem_of_app in Hx as [Hx|Hx]; apply elem_of_app;
        [left; by apply (fi_sub _ _ I)|by right]. }
    assert (forall bs', consumed nf (FWorld (Fh m' (fh_depth (f_source w))
        (match new_stable (fh_confirmed (f_source w)) sel with
         | Some k => Some k | None => fh_confirmed (f_source w) end)
        (Some (b_id b)) (map (fun b => FInner (EvBlock b)) bs')) (f_received w ++ [b])
        (apply_pulled nf (f_chain w) r) (f_results w ++ [r])) =
        apply_pulled nf (f_chain w) r ++ bs') as Hcons.
    { intros bs'. unfold consumed. cbn. apply apply_inner. }
    assert (forall bs', (st, asked, r) = (Fh m' (fh_depth (f_source w))
        (match new_stable (fh_confirmed (f_source w)) sel with
         | Some k => Some k | None => fh_confirmed (f_source w) end)
        (Some (b_id b)) (map (fun b => FInner (EvBlock b)) bs'), asked, r) ->
      fine r -> rollback_known w r ->
      (forall f, head (f_received w ++ [b]) = Some f ->
        head (apply_pulled nf (f_chain w) r ++ bs') = Some f) ->
      last (apply_pulled nf (f_chain w) r ++ bs') = Some b ->
      parent_linked (apply_pulled nf (f_chain w) r ++ bs') ->
      (forall x, x ∈ apply_pulled nf (f_chain w) r ++ bs' -> x ∈ f_received w ++ [b]) ->
      exists r0 s', f_results w ++ [r] = f_results w ++ [r0] /\ fine r0 /\ rollback_known w r0 /\
        finv (FWorld st (f_received w ++ [b]) (apply_pulled nf (f_chain w) r)
           (f_results w ++ [r])) s') as Hdone.
    { intros bs' [= ->] Hfine Hkn Hhd Hlst HL Hin. exists r, s'. do 3 (split; [done|]).
      split; rewrite ?Hcons; cbn [f_source f_received f_chain f_results fh_mv fh_events fh_last
        fh_confirmed]; try done.
      - by rewrite last_snoc.
      - by exists bs'.
      - right. destruct (f_received w ++ [b]) as [|f R0] eqn:ER; [by destruct (f_received w)|].
        exists f, b. rewrite <- ER. rewrite last_snoc. split; [by rewrite ER|]. split; [done|].
        split; [by apply Hhd|]. done.
      - right. by destruct (f_received w). }
    rewrite (fi_last _ _ I) in E. destruct (last (f_received w)) as [l|] eqn:El.
    + (* something was received before *)
      destruct Hfol as [[H0 _]|(f & l' & HfR & HlR & HfC & HlC & HL)]; [by rewrite H0 in El|].
      assert (l' = l) as -> by congruence. cbn in E. unfold fh_switch in E.
      assert (forall x, x ∈ f_chain w -> x ∈ f_received w ++ [b]) as HC.
      { intros x Hx. apply elem_of_app. left. auto. }
      assert (head (f_received w ++ [b]) = Some f) as Hhd by (by destruct (f_received w)).
      destruct (decide (Some (b_id l) = Some (b_parent b))) as [Hext|Hnext].
      * injection E as <- <- <-. apply (Hdone []); [done|done|by intros p Hp| |..];
          cbn; rewrite ?app_nil_r.
        -- intros f' Hf'. assert (f' = f) as -> by congruence. by destruct (f_chain w).
        -- by rewrite last_snoc.
        -- apply parent_linked_join; [done|done|]. intros x y Hx [= <-]. congruence.
        -- intros x Hx. apply elem_of_app in Hx as [Hx|Hx]; [auto|apply elem_of_app; by right].
      * destruct (walk_previous_ok m' s' _ (b_id l) Rl' Hsub Sn) as (ids & Ew & Hids).
        destruct (walk_previous_ok m' s' _ (b_id b) Rl' Hsub Sn) as (ids2 & Ew2 & _).
        rewrite Ew in E.
        assert (fh_mv st = m') as Hst.
        { destruct (walk_current nf m' ids (S (mv_len m')) (b_id b)) as [es| |];
            [destruct (rev es ++ []) as [|? ?]|..]; by injection E as <- <- <-. }
        destruct Hfork as (x & Hpl & Hpb); [congruence|]. rewrite Hst in Hpl, Hpb.
        destruct (walk_current_gen m' s' ids Rl' (S (mv_len m')) (b_id b) x) as
          (es & y & p & Ec & Hpt & Hy & Hpy & HLe & Hes & Hhe); [by exists ids2|done| |].
        { apply Hids. by exists x. }
        rewrite Ec in E. rewrite rev_app_distr, <- map_rev in E. cbn in E. rewrite app_nil_r in E.
        injection E as <- <- <-.
        assert (y ∈ f_chain w) as Hyc.
        { apply Hids in Hy as (x' & Hid & Hp').
          assert (x' ∈ f_chain w) as Hx'.
          { apply (path_in_chain m' s' _ _ f Rl' Hsub Sn Hhd HfC HL HC _ _ Hp' l); [|done].
            clear -HlC. apply last_Some in HlC as [q ->]. apply elem_of_app. right. by left. }
          assert (y ∈ f_received w ++ [b]) as Hyr.
          { apply Hsub. clear -Hpy Rl' NF. induction Hpy; [|done]. by eapply (rel_get_some _ _ _ _ Rl'). }
          replace y with x'; [done|]. apply (sn_id _ Sn); auto. }
        apply elem_of_list_split in Hyc as (C1 & C2 & HCe).
        assert (apply_pulled nf (f_chain w) (PEvent (FRollback p)) = C1 ++ [y]) as Hap.
        { cbn. rewrite HCe. apply cut_at; [done|]. intros z Hz Hid.
          rewrite HCe in HL, HC.
          pose proof (chain_numbers _ C1 y C2 z Sn HL HC Hz) as Hlt.
          assert (z = y) as ->; [|lia].
          apply (sn_id _ Sn); [apply HC..|done]; apply elem_of_app; right; [by right|by left]. }
        rewrite HCe in HL, HC. rewrite rev_app_distr in HLe. cbn in HLe.
        apply (Hdone (rev es)); rewrite ?Hap; [done|done| |..].
        -- intros p' [= <-]. right. exists y. split; [|done]. rewrite HCe.
           apply elem_of_app. right. by left.
        -- intros f' Hf'. assert (f' = f) as -> by congruence. rewrite HCe in HfC.
           by destruct C1.
        -- rewrite <- app_assoc. cbn. rewrite last_app_cons.
           replace (y :: rev es) with (rev (es ++ [y])) by (by rewrite rev_app_distr).
           rewrite last_rev. destruct (head (es ++ [y])) as [e|] eqn:He; [|by destruct es].
           f_equal. pose proof (Hhe e eq_refl) as Hg.
           apply (rel_get_some _ _ _ _ Rl') in Hg as [Hg Hid].
           apply (sn_id _ Sn); [auto|apply elem_of_app; right; by left|done].
        -- rewrite <- app_assoc. cbn. apply parent_linked_app in HL as HL'.
           destruct HL' as [HL1 _]. apply parent_linked_join; [done|done|].
           intros a c Ha [= <-]. apply last_Some in Ha as [q ->].
           rewrite <- app_assoc in HL. cbn in HL. by apply parent_linked_mid in HL.
        -- intros z Hz. apply elem_of_app in Hz as [Hz|Hz].
           ++ apply HC. apply elem_of_app in Hz as [Hz|Hz]; apply elem_of_app; [by left|right].
              apply elem_of_list_singleton in Hz as ->. by left.
           ++ apply elem_of_list_In, in_rev, elem_of_list_In in Hz.
              apply Hes in Hz as [k Hk]. apply Hsub. by apply (rel_get_some _ _ _ _ Rl') in Hk as [? _].
    + (* the first block *)
      destruct (f_received w) as [|? R0] eqn:ER; [|by rewrite last_cons in El; destruct (last R0)].
      destruct Hfol as [[_ HC]|(f & ? & HfR & _)]; [|done].
      cbn in E. unfold fh_switch in E. rewrite decide_False in E by done.
      destruct from as [p|]; [|done]. injection E as <- <- <-.
      rewrite HC in *. apply (Hdone [b]); cbn; try done.
      intros p' _. left. done.
Qed.

Lemma finv_start d : finv (f_start d) (empty_store 0).
Proof.
  split; cbn.
  - apply rel_empty.
  - by intros b Hb%elem_of_nil.
  - done.
  - done.
  - by exists [].
  - by left.
  - by intros b Hb%elem_of_nil.
  - by left.
Qed.

Lemma f_step_received w a : exists Q, f_received (f_step nf w a) = f_received w ++ Q.
Proof.
  destruct a as [enum from ans]. unfold f_step.
  destruct (fh_pull nf enum (f_source w) from ans) as [[st asked] r]. by eexists.
Qed.

Lemma f_run_received acts : forall w, exists Q, f_received (f_run nf w acts) = f_received w ++ Q.
Proof.
  induction acts as [|a acts IH]; intros w; cbn; [exists []; by rewrite app_nil_r|].
  destruct (IH (f_step nf w a)) as [Q ->]. destruct (f_step_received w a) as [Q' ->].
  rewrite <- app_assoc. by eexists.
Qed.

Lemma f_run_ok acts : forall w s, finv w s -> Forall fpull_fair acts ->
  sane (f_received (f_run nf w acts)) -> fork_points_stored nf w acts ->
  Forall fine (f_results w) ->
  exists s', finv (f_run nf w acts) s' /\ Forall fine (f_results (f_run nf w acts)).
Proof.
  induction acts as [|a acts IH]; intros w s I HF Sn Hfp Hr; cbn in *; [eauto|].
  inversion HF as [|? ? Ha HF']; subst. destruct Hfp as [Hf Hfp].
  destruct (f_run_received acts (f_step nf w a)) as [Q HQ].
  destruct (f_step_ok w s a I Ha) as (r & s' & Hres & Hfine & _ & I').
  { rewrite HQ in Sn. by apply sane_prefix in Sn. }
  { done. }
  apply (IH _ s' I' HF' Sn Hfp). rewrite Hres. apply Forall_app. split; [done|].
  by constructor.
Qed.

End fork.
