(** * Properties C34-C36 of the confirming and the fork-handling source (blockchain-source) *)
From Coq Require Import Lia NArith List.
From stdpp Require Import prelude numbers list gmap sorting.
From Verif Require Import MultiverseModel MultiverseSpec MultiverseProofs MultiverseHistProofs
  MultiverseQueryProofs MultiverseProps SourceModel SourceSpec SourceProofs SourceRunProofs
  SourceForkProofs SourceForkGrowProofs.

Local Open Scope N_scope.

(** ** C34: the confirming source *)

(** Such a chain is determined by what was received. *)
Lemma linked_tail b C : linked (b :: C) -> linked C.
Proof. destruct C; cbn; tauto. Qed.

Lemma linked_nums C : linked C -> forall i x f, C !! i = Some x -> head C = Some f ->
  b_num x = b_num f + N.of_nat i.
Proof.
  induction C as [|b C IH]; intros HL i x f Hi Hf; [done|]. injection Hf as ->.
  destruct i as [|i]; cbn in Hi; [injection Hi as ->; lia|].
  destruct C as [|b' C]; [done|]. pose proof (IH (linked_tail _ _ HL) i x b' Hi eq_refl).
  destruct HL as (_ & Hn & _). lia.
Qed.

Theorem C34_settled_chain_unique d R D D' : grows d R ->
  settled_chain d R D -> settled_chain d R D' -> D = D'.
Proof.
  intros G S S'. pose proof (grows_tree _ _ G) as T.
  assert (forall D1 D2, settled_chain d R D1 -> settled_chain d R D2 ->
    forall i x, D1 !! i = Some x -> D2 !! i = Some x) as Hsub.
  { intros D1 D2 S1 S2 i x Hi.
    assert (x ∈ D2) as Hx.
    { apply (sc_exact _ _ _ S2), (sc_exact _ _ _ S1). by eapply elem_of_list_lookup_2. }
    apply elem_of_list_lookup in Hx as [j Hj].
    destruct (sc_first _ _ _ S1) as [H0|H1]; [by rewrite H0 in Hi|].
    destruct (sc_first _ _ _ S2) as [H0|H2]; [by rewrite H0 in Hj|].
    destruct (head R) as [f|] eqn:Ef; [|by destruct D1].
    pose proof (linked_nums _ (sc_linked _ _ _ S1) i x f Hi H1).
    pose proof (linked_nums _ (sc_linked _ _ _ S2) j x f Hj H2).
    by replace i with j by lia. }
  apply list_eq. intros i. destruct (D !! i) as [x|] eqn:Ei.
  - symmetry. by apply (Hsub D D' S S').
  - destruct (D' !! i) as [x|] eqn:Ei'; [|done]. rewrite <- Ei. symmetry.
    rewrite Ei. apply (Hsub D' D S' S) in Ei'. congruence.
Qed.

(** A chain received in order: all its blocks but the last [d] are delivered, in order. *)
Definition chain (C : list block) : Prop :=
  linked C /\ NoDup (b_id <$> C) /\ (forall b, b ∈ C -> b_num b < 2 ^ 64) /\
  (forall f p, head C = Some f -> p ∈ C -> b_parent f <> b_id p).

Lemma chain_back C : linked C -> forall n i t x, C !! (i + n)%nat = Some t -> C !! i = Some x ->
  back C n t x.
Proof.
  intros HL. induction n as [|n IH]; intros i t x Ht Hx.
  - rewrite Nat.add_0_r in Ht. assert (t = x) as -> by congruence. constructor.
    by eapply elem_of_list_lookup_2.
  - destruct (C !! (i + n)%nat) as [p|] eqn:Ep.
    2:{ apply lookup_ge_None in Ep. apply lookup_lt_Some in Ht. lia. }
    apply (back_link C n t p x); [by eapply elem_of_list_lookup_2| |by eapply IH].
    replace (i + S n)%nat with (S (i + n)) in Ht by lia. clear -HL Ht Ep.
    revert Ht Ep. generalize (i + n)%nat as j. induction C as [|b C IH]; intros j Ht Ep; [done|].
    destruct j as [|j]; cbn in *.
    + injection Ep as ->. destruct C as [|b' C]; [done|]. injection Ht as ->. by destruct HL.
    + by apply (IH (linked_tail _ _ HL) j).
Qed.

Lemma linked_prefix C Q : linked (C ++ Q) -> linked C.
Proof.
  induction C as [|b C IH]; [done|]. cbn. destruct C as [|b' C]; [done|]. cbn.
  intros (? & ? & ?). do 2 (split; [done|]). by apply IH.
Qed.

Lemma chain_prefix C Q : chain (C ++ Q) -> chain C.
Proof.
  intros (H1 & H2 & H3 & H4). split; [by apply (linked_prefix _ Q)|]. split.
  - rewrite fmap_app in H2. by apply NoDup_app in H2 as [H2 _].
  - split; [intros b Hb; apply H3; apply elem_of_app; by left|].
    intros f p Hf Hp. apply H4; [by destruct C|apply elem_of_app; by left].
Qed.

Lemma chain_grows d C : chain C -> grows d C.
Proof.
  induction C as [|b C IH] using rev_ind; intros HC; [constructor|].
  pose proof (IH (chain_prefix _ _ HC)) as G. destruct HC as (HL & ND & Hs & Hf).
  assert (b_num b < 2 ^ 64) as Hb by (apply Hs, elem_of_app; right; by left).
  destruct C as [|p C _] using rev_ind.
  - apply grows_first; [done|]. cbn. apply Hf; [done|by left].
  - apply (grows_child d (C ++ [p]) p b); try done.
    + apply elem_of_app. right. by left.
    + rewrite <- app_assoc in HL. by apply linked_last2 in HL as [? ?].
    + rewrite <- app_assoc in HL. by apply linked_last2 in HL as [? ?].
    + intros x Hx. split.
      * intros Hid. rewrite fmap_app in ND. apply NoDup_app in ND as (_ & ND & _).
        apply (ND (b_id x)); [by apply elem_of_list_fmap_1|]. rewrite Hid. by left.
      * intros Hp. apply elem_of_list_lookup in Hx as [[|i] Hi].
        -- apply (Hf x b); [|apply elem_of_app; right; by left|done].
           destruct (C ++ [p]) eqn:E; [by destruct C|]. by injection Hi as ->.
        -- destruct ((C ++ [p]) !! i) as [y|] eqn:Ey.
           2:{ apply lookup_ge_None in Ey. apply lookup_lt_Some in Hi. lia. }
           assert (back ((C ++ [p]) ++ [b]) 1 x y) as Hb1.
           { apply (chain_back _ HL 1 i).
             - rewrite Nat.add_comm. rewrite lookup_app_l; [done|]. by apply lookup_lt_Some in Hi.
             - rewrite lookup_app_l; [done|]. by apply lookup_lt_Some in Ey. }
           inversion Hb1 as [|? ? q ? ? Hl Hq]; subst. inversion Hq; subst.
           rewrite fmap_app in ND. apply NoDup_app in ND as (_ & ND & _).
           apply (ND (b_id y)).
           ++ apply elem_of_list_fmap_1. by eapply elem_of_list_lookup_2.
           ++ rewrite <- Hl, Hp. by left.
    + intros x (t & _ & Hback).
      apply back_in in Hback as [_ Hx]. apply elem_of_list_lookup in Hx as [i Hi].
      exists (length C - i)%nat. apply (chain_back _ (linked_prefix _ _ HL) _ i); [|done].
      apply lookup_lt_Some in Hi as Hlt. rewrite app_length in Hlt. cbn in Hlt.
      replace (i + (length C - i))%nat with (length C) by lia.
      by apply list_lookup_middle.
Qed.

Section c34.
Context {point : Type} `{EqDecision point} (nf : block -> option point).

(** For every depth, every stream of the wrapped source (blocks, forks that leave no settled
    block out, blocks sent again, tips, errors and silence), every hash order, any number of
    restarts and, if the consumer began without a point, any number of lost deliveries: the
    blocks the consumer has accepted are the blocks that have been settled so far, in chain
    order, from the first one on, each once; at most the newest of them is missing, if it
    was lost. And every answer of the wrapped source is passed on. *)
Theorem C34_settled_blocks_in_order d from0 acts w : points_ok nf ->
  Forall act_fair acts -> Forall (may_drop from0) acts ->
  w_run nf from0 (w_start d) acts = Some w -> grows d (w_received w) ->
  exists D, settled_chain d (w_received w) D /\
    (w_accepted w = D \/ exists x, D = w_accepted w ++ [x]) /\
    Forall well_answered (w_results w).
Proof.
  intros NF Hf Hd E G.
  destruct (w_run_ok nf NF d from0 acts Hf Hd _ _ _ _ (winv_start d from0) E G) as (s & D & W & _).
  exists D. destruct W as (_ & _ & I & _ & _ & Ha & Hr). split; [apply I|]. split; [|done].
  destruct Ha as [?|(x & ? & _)]; eauto.
Qed.

(** A consumer that loses nothing has, at every moment, all of them. *)
Theorem C34_all_settled_blocks d from0 acts w : points_ok nf ->
  Forall act_fair acts -> Forall accepts acts ->
  w_run nf from0 (w_start d) acts = Some w -> grows d (w_received w) ->
  settled_chain d (w_received w) (w_accepted w).
Proof.
  intros NF Hf Hacc E G.
  destruct (w_run_ok nf NF d from0 acts Hf) with (w := w_start d)
    (s := empty_store 0) (D := @nil block) (w' := w) as (s & D & W & Ha).
  - eapply Forall_impl; [exact Hacc|]. by right.
  - apply winv_start.
  - done.
  - done.
  - rewrite (Ha Hacc eq_refl). apply W.
Qed.

Theorem C34_linear_chain d from0 acts w : points_ok nf ->
  Forall act_fair acts -> Forall accepts acts ->
  w_run nf from0 (w_start d) acts = Some w -> chain (w_received w) ->
  w_accepted w = take (length (w_received w) - d) (w_received w).
Proof.
  intros NF Hf Hacc E HC. pose proof (chain_grows d _ HC) as G.
  apply (C34_settled_chain_unique d (w_received w)); [done|by eapply C34_all_settled_blocks|].
  set (C := w_received w) in *. pose proof (grows_tree _ _ G) as T.
  destruct HC as (HL & ND & _ & _). split.
  - apply (linked_prefix _ (drop (length C - d) C)). by rewrite take_drop.
  - destruct C as [|b C]; [by left|]. destruct (length (b :: C) - d)%nat; [by left|by right].
  - intros x. rewrite elem_of_take. split.
    + intros (i & Hi & Hlt). exists (take (i + d + 1) C), (drop (i + d + 1) C).
      split; [by rewrite take_drop|].
      destruct (C !! (i + d)%nat) as [t|] eqn:Et.
      2:{ apply lookup_ge_None in Et. lia. }
      exists t. assert (forall j y, C !! j = Some y -> (j < i + d + 1)%nat ->
        take (i + d + 1) C !! j = Some y) as Htk.
      { intros j y Hj Hlj. rewrite lookup_take; [done|lia]. }
      split.
      * split; [eapply elem_of_list_lookup_2; apply (Htk (i + d)%nat); [done|lia]|].
        intros y Hy. apply elem_of_take in Hy as (j & Hj & Hlj).
        destruct C as [|f C']; [done|].
        pose proof (linked_nums _ HL j y f Hj eq_refl).
        pose proof (linked_nums _ HL (i + d) t f Et eq_refl). lia.
      * apply (chain_back _ (linked_prefix _ (drop (i + d + 1) C) ltac:(by rewrite take_drop)) d i);
          apply Htk; [done|lia|done|lia].
    + intros (P & Q & HPQ & t & [Ht _] & Hback).
      pose proof (grows_prefix d P Q ltac:(by rewrite <- HPQ)) as GP.
      pose proof (back_num _ _ _ _ (grows_tree _ _ GP) Hback) as Hn.
      apply back_in in Hback as [_ Hx].
      assert (forall y, y ∈ P -> y ∈ C) as HPC by (intros y Hy; rewrite HPQ; apply elem_of_app; by left).
      apply HPC, elem_of_list_lookup in Hx as [i Hi].
      apply HPC, elem_of_list_lookup in Ht as [j Hj].
      exists i. split; [done|]. destruct C as [|f C']; [done|].
      pose proof (linked_nums _ HL i x f Hi eq_refl).
      pose proof (linked_nums _ HL j t f Hj eq_refl).
      apply lookup_lt_Some in Hj. lia.
Qed.

(** The store can always be opened again, and nothing ever panics. *)
Theorem C34_never_stuck d from0 acts : points_ok nf -> forall acts' w,
  Forall act_fair (acts ++ acts') -> Forall (may_drop from0) acts ->
  w_run nf from0 (w_start d) acts = Some w -> grows d (w_received w) ->
  forall a, a ∈ acts' -> is_Some (w_step nf from0 w a).
Proof.
  intros NF acts' w Hf Hd E G a Ha. apply Forall_app in Hf as [Hf Hf'].
  destruct (w_run_ok nf NF d from0 acts Hf Hd _ _ _ _ (winv_start d from0) E G) as (s & D & W & _).
  rewrite Forall_forall in Hf'. eapply w_step_total; eauto.
Qed.

(** Resumption. Either the consumer is one block behind: the next pull gives it that block,
    without asking the wrapped source. Or the wrapped source is asked, with the points of
    the childless stored blocks and the consumer's own point. *)
Theorem C34_next_pull d from0 acts w enum ans : points_ok nf ->
  Forall act_fair acts -> Forall (may_drop from0) acts -> fair enum ->
  w_run nf from0 (w_start d) acts = Some w -> grows d (w_received w) ->
  exists D, settled_chain d (w_received w) D /\
  let '(st, asked, r) := ms_pull nf enum (w_source w) (resume_point nf from0 (w_accepted w)) ans in
  (exists x, D = w_accepted w ++ [x] /\ st = w_source w /\ asked = None /\ r = PEvent (EvBlock x)) \/
  (D = w_accepted w /\ exists cps, asked = Some cps /\ forall p, p ∈ cps <->
     resume_point nf from0 (w_accepted w) = Some p \/
     exists b, b_id b ∈ mv_tips (ms_mv (w_source w)) /\
       mv_get (ms_mv (w_source w)) (b_id b) = Some b /\ nf b = Some p).
Proof.
  intros NF Hf Hd He E G.
  destruct (w_run_ok nf NF d from0 acts Hf Hd _ _ _ _ (winv_start d from0) E G) as (s & D & W & _).
  exists D. split; [apply W|].
  pose proof (checkpoints_ok nf NF enum d from0 w s D He W) as Hcp. cbv zeta in Hcp.
  destruct (ms_pull nf enum (w_source w) (resume_point nf from0 (w_accepted w)) ans)
    as [[st asked] r] eqn:Ep. unfold ms_pull in Ep.
  destruct Hcp as [[Ha Hcp]|(x & Hx & Hcp)]; rewrite Hcp in Ep; clear Hcp.
  2:{ left. exists x. injection Ep as <- <- <-. done. }
  right. split; [done|].
  assert (asked = Some (omap (fun k => mv_get (ms_mv (w_source w)) k ≫= nf)
             (enum (mv_tips (ms_mv (w_source w)))) ++
             option_list (resume_point nf from0 (w_accepted w)))) as ->.
  { destruct ans as [| |[t|b]]; [by injection Ep as <- <- <-..|].
    destruct (mv_get (ms_mv (w_source w)) (b_id b)); [by injection Ep as <- <- <-|].
    destruct (insert_and_gc enum (ms_mv (w_source w)) b (ms_depth (w_source w))) as [[m' sel]| |];
      [|by injection Ep as <- <- <-..].
    destruct (new_stable (ms_confirmed (w_source w)) sel) as [k|]; [|by injection Ep as <- <- <-].
    by destruct (mv_get m' k); injection Ep as <- <- <-. }
  eexists. split; [reflexivity|]. intros p. rewrite elem_of_app, elem_of_list_omap.
  destruct W as (Rl & _). split.
  - intros [(k & Hk & Hp)|Hp].
    + right. rewrite (He _), elem_of_elements in Hk.
      destruct (mv_get (ms_mv (w_source w)) k) as [b|] eqn:Eg; [|done]. exists b.
      pose proof (rel_get_some _ _ _ _ Rl Eg) as [_ <-]. done.
    + left. destruct (resume_point nf from0 (w_accepted w)) as [q|]; cbn in Hp;
        [|by apply elem_of_nil in Hp]. apply elem_of_list_singleton in Hp. by subst.
  - intros [Hp|(b & Ht & Hg & Hp)].
    + right. rewrite Hp. by left.
    + left. exists (b_id b). split; [by rewrite (He _), elem_of_elements|]. by rewrite Hg.
Qed.

End c34.

(** *** A concrete run *)

(** Points are the identifiers. *)
Definition ex_nf (b : block) : option bytes := Some (b_id b).
Lemma ex_nf_ok : points_ok ex_nf.
Proof. split; [by eexists|]. by intros b b' [= ->]. Qed.

Definition sx (id parent num : N) : block := Block [id] [parent] num 0.
Definition pull_block (b : block) (accept : bool) : act :=
  Pull elements (AEvent (EvBlock b)) accept.

(** A chain of five blocks; a fork at the second; one delivery is lost, one tip passes, the
    source is restarted in the middle. *)
Definition ex_acts : list act :=
  [ pull_block (sx 10 9 5) true; pull_block (sx 11 10 6) true; pull_block (sx 21 10 6) true;
    pull_block (sx 12 11 7) false; Pull elements ANone true; Reopen elements;
    Pull elements (AEvent (EvTip 7)) true; pull_block (sx 22 21 7) true;
    pull_block (sx 13 12 8) true ].

Lemma ex_acts_fair : Forall act_fair ex_acts.
Proof. repeat constructor; apply elements_fair. Qed.

Lemma ex_acts_drop : Forall (may_drop (point:=bytes) None) ex_acts.
Proof. repeat constructor. Qed.

Definition w_obs (w : option world) : option (list block * list block) :=
  w ← w; Some (w_received w, w_accepted w).

Definition ex_received : list block :=
  [sx 10 9 5; sx 11 10 6; sx 21 10 6; sx 12 11 7; sx 22 21 7; sx 13 12 8].

Lemma ex_run : w_obs (w_run ex_nf None (w_start 2) ex_acts) =
  Some (ex_received, [sx 10 9 5; sx 11 10 6]).
Proof. by vm_compute. Qed.

Ltac list_cases :=
  repeat match goal with
  | H : _ ∈ _ :: _ |- _ => apply elem_of_cons in H as [-> |H]
  | H : _ ∈ [] |- _ => by apply elem_of_nil in H
  end.

Lemma ex_top_2 x : settled 2 [sx 10 9 5; sx 11 10 6; sx 21 10 6] x -> False.
Proof.
  intros (t & _ & Hb). inversion Hb as [|? ? p ? Ht Hl Hp]; subst.
  inversion Hp as [|? ? q ? Hp' Hl' Hq]; subst. inversion Hq; subst.
  list_cases; by vm_compute in *.
Qed.

Lemma settled_small d R x : tree R -> settled d R x -> forall f, head R = Some f ->
  exists t, t ∈ R /\ (b_num f + N.of_nat d <= b_num t)%N.
Proof.
  intros T (t & [Ht _] & Hb) f Hf. exists t. split; [done|].
  pose proof (back_num _ _ _ _ T Hb). apply back_in in Hb as [_ Hx].
  pose proof (proj1 (proj2 (t_first _ T f Hf) x Hx)). lia.
Qed.

Lemma ex_grows : grows 2 ex_received.
Proof.
  assert (grows 2 [sx 10 9 5; sx 11 10 6; sx 21 10 6]) as G3.
  { apply (grows_child 2 [sx 10 9 5; sx 11 10 6] (sx 10 9 5)); try done; [|by left|..].
    - apply (grows_child 2 [sx 10 9 5] (sx 10 9 5)); try done; [|by left|..].
      + by apply grows_first.
      + intros x Hx. list_cases. done.
      + intros x (t & _ & Hb). inversion Hb as [|? ? p ? Ht Hl Hp]; subst.
        list_cases. inversion Hp as [|? ? q ? Hp' Hl' Hq]; subst. list_cases. done.
    - intros x Hx. list_cases; done.
    - intros x (t & _ & Hb). inversion Hb as [|? ? p ? Ht Hl Hp]; subst.
      inversion Hp as [|? ? q ? Hp' Hl' Hq]; subst. inversion Hq; subst.
      list_cases; by vm_compute in *. }
  assert (grows 2 [sx 10 9 5; sx 11 10 6; sx 21 10 6; sx 12 11 7]) as G4.
  { apply (grows_child 2 [sx 10 9 5; sx 11 10 6; sx 21 10 6] (sx 11 10 6)); try done.
    - right. by left.
    - intros x Hx. list_cases; done.
    - intros x Hx. by apply ex_top_2 in Hx. }
  assert (forall x, settled 2 [sx 10 9 5; sx 11 10 6; sx 21 10 6; sx 12 11 7] x -> x = sx 10 9 5) as S4.
  { intros x (t & _ & Hb). pose proof (back_num _ _ _ _ (grows_tree _ _ G4) Hb) as Hn.
    apply back_in in Hb as [Ht Hx]. list_cases; done. }
  assert (grows 2 [sx 10 9 5; sx 11 10 6; sx 21 10 6; sx 12 11 7; sx 22 21 7]) as G5.
  { apply (grows_child 2 [sx 10 9 5; sx 11 10 6; sx 21 10 6; sx 12 11 7] (sx 21 10 6)); try done.
    - right. right. by left.
    - intros x Hx. list_cases; done.
    - intros x Hx. apply S4 in Hx as ->. exists 1%nat.
      apply (back_link _ _ _ (sx 10 9 5)); [right; right; by left|done|constructor; by left]. }
  apply (grows_child 2 [sx 10 9 5; sx 11 10 6; sx 21 10 6; sx 12 11 7; sx 22 21 7] (sx 12 11 7)); try done.
  - do 3 right. by left.
  - intros x Hx. list_cases; done.
  - intros x (t & _ & Hb). pose proof (back_num _ _ _ _ (grows_tree _ _ G5) Hb) as Hn.
    apply back_in in Hb as [Ht Hx]. assert (x = sx 10 9 5) as -> by (list_cases; done).
    exists 2%nat. apply (back_link _ _ _ (sx 11 10 6)); [do 3 right; by left|done|].
    apply (back_link _ _ _ (sx 10 9 5)); [right; by left|done|constructor; by left].
Qed.

Example C34_case : exists w, w_run ex_nf None (w_start 2) ex_acts = Some w /\
  grows 2 (w_received w) /\ w_accepted w = [sx 10 9 5; sx 11 10 6] /\
  settled_chain 2 (w_received w) [sx 10 9 5; sx 11 10 6].
Proof.
  pose proof ex_run as E. destruct (w_run ex_nf None (w_start 2) ex_acts) as [w|] eqn:Ew; [|done].
  exists w. injection E as ER EA. split; [done|]. rewrite ER, EA.
  split; [apply ex_grows|]. split; [done|].
  destruct (C34_settled_blocks_in_order ex_nf 2 None ex_acts w ex_nf_ok ex_acts_fair ex_acts_drop Ew)
    as (D & HD & Hacc & _); [rewrite ER; apply ex_grows|]. rewrite ER, EA in *.
  destruct Hacc as [<-|[x Hx]]; [done|].
  (* a third block would have number 7 and a top block of number 9 *)
  exfalso. subst D. pose proof (sc_linked _ _ _ HD) as HL. cbn in HL. destruct HL as (_ & _ & _ & Hn & _).
  assert (x ∈ [sx 10 9 5; sx 11 10 6] ++ [x]) as Hin by (apply elem_of_app; right; by left).
  apply (sc_exact _ _ _ HD) in Hin as (P & Q & HPQ & t & _ & Hb).
  pose proof ex_grows as G. rewrite HPQ in G. apply grows_prefix, grows_tree in G.
  pose proof (back_num _ _ _ _ G Hb) as Hnt. apply back_in in Hb as [Ht _].
  assert (t ∈ ex_received) as Ht' by (rewrite HPQ; apply elem_of_app; by left).
  cbn in Hn. unfold ex_received in Ht'. list_cases; cbn in Hnt; lia.
Qed.

Example C34_linear_case : exists w, w_run ex_nf (Some [9]) (w_start 1)
    [pull_block (sx 10 9 5) true; pull_block (sx 11 10 6) true; Reopen elements;
     pull_block (sx 12 11 7) true] = Some w /\
  chain (w_received w) /\ w_accepted w = [sx 10 9 5; sx 11 10 6].
Proof.
  match goal with |- exists w, ?X = Some w /\ _ =>
    assert (w_obs X = Some ([sx 10 9 5; sx 11 10 6; sx 12 11 7], [sx 10 9 5; sx 11 10 6])) as E by
      (by vm_compute); destruct X as [w|]; [|done] end.
  exists w. injection E as ER EA. split; [done|]. rewrite ER. split; [|done]. split; [done|].
  split; [apply (bool_decide_unpack _); by vm_compute|]. split.
  - intros b Hb. list_cases; done.
  - intros f p [= <-] Hp. list_cases; done.
Qed.

(** Whether the consumer accepts does not matter to the source. *)
Lemma accept_irrelevant {point} `{EqDecision point} (nf : block -> option point) from0 w0 acts
    enum ans a1 a2 w1 w2 :
  w_run nf from0 w0 (acts ++ [Pull enum ans a1]) = Some w1 ->
  w_run nf from0 w0 (acts ++ [Pull enum ans a2]) = Some w2 ->
  w_source w1 = w_source w2 /\ w_received w1 = w_received w2.
Proof.
  revert w0. induction acts as [|a acts IH]; intros w0.
  - cbn. destruct (ms_pull _ _ _ _ _) as [[st asked] r]. by intros [= <-] [= <-].
  - cbn [app w_run]. destruct (w_step nf from0 w0 a) as [w'|]; [|done]. apply IH.
Qed.

(** If the consumer began with a point, it cannot lose the first delivery: its next pull is
    refused as not continuous, and so is every later one. *)
Theorem C34_first_delivery_lost_refuted : exists acts w, Forall act_fair acts /\
  w_run ex_nf (Some [9]) (w_start 1) acts = Some w /\ grows 1 (w_received w) /\
  w_accepted w = [] /\ settled_chain 1 (w_received w) [sx 10 9 5] /\
  forall enum ans, fair enum ->
    ms_pull ex_nf enum (w_source w) (resume_point ex_nf (Some [9]) (w_accepted w)) ans =
    (w_source w, None, PErr).
Proof.
  set (acts := [pull_block (sx 10 9 5) true; pull_block (sx 11 10 6) false]).
  destruct (w_run ex_nf (Some [9]) (w_start 1) acts) as [w|] eqn:E; [|by vm_compute in E].
  assert (w_received w = [sx 10 9 5; sx 11 10 6] /\ w_accepted w = [] /\
    ms_confirmed (w_source w) = Some [10] /\ mv_get (ms_mv (w_source w)) [10] = Some (sx 10 9 5) /\
    mv_get (ms_mv (w_source w)) [9] = None) as (ER & EA & EC & EG & EP).
  { assert ((fun o => match o with Some w => Some (w_received w, w_accepted w,
      ms_confirmed (w_source w), mv_get (ms_mv (w_source w)) [10],
      mv_get (ms_mv (w_source w)) [9]) | None => None end)
      (w_run ex_nf (Some [9]) (w_start 1) acts) = Some ([sx 10 9 5; sx 11 10 6], [], Some [10],
        Some (sx 10 9 5), None)) as H by (by vm_compute).
    rewrite E in H. injection H as -> -> -> -> ->. done. }
  assert (Forall act_fair acts) as Hf by (repeat constructor; apply elements_fair).
  assert (grows 1 (w_received w)) as G.
  { rewrite ER. apply (chain_grows 1). split; [done|].
    split; [apply (bool_decide_unpack _); by vm_compute|]. split.
    - intros b Hb. list_cases; done.
    - intros f p [= <-] Hp. list_cases; done. }
  exists acts, w. split; [exact Hf|]. split; [exact E|]. split; [exact G|]. split; [exact EA|].
  (* the store of this run is the store of the run without losses *)
  destruct (w_run ex_nf (Some [9]) (w_start 1) [pull_block (sx 10 9 5) true; pull_block (sx 11 10 6) true])
    as [w'|] eqn:E'; [|by vm_compute in E'].
  assert (w_source w' = w_source w /\ w_received w' = w_received w /\ w_accepted w' = [sx 10 9 5])
    as (Es & Er & Ea).
  { destruct (accept_irrelevant ex_nf (Some [9]) (w_start 1) [pull_block (sx 10 9 5) true]
      elements (AEvent (EvBlock (sx 11 10 6))) true false w' w E' E) as [-> ->].
    split; [reflexivity|]. split; [reflexivity|].
    assert (w_accepted <$> w_run ex_nf (Some [9]) (w_start 1)
      [pull_block (sx 10 9 5) true; pull_block (sx 11 10 6) true] = Some [sx 10 9 5]) as H
      by (by vm_compute).
    rewrite E' in H. clear E E'. cbn in H. congruence. }
  clear E.
  assert (Forall act_fair [pull_block (sx 10 9 5) true; pull_block (sx 11 10 6) true]) as Hf'
    by (repeat constructor; apply elements_fair).
  assert (Forall (may_drop (Some [9]))
    [pull_block (sx 10 9 5) true; pull_block (sx 11 10 6) true]) as Hd'
    by (repeat constructor; by right).
  rewrite <- Er in G.
  destruct (w_run_ok ex_nf ex_nf_ok 1 (Some [9]) _ Hf' Hd' _ _ _ _ (winv_start 1 (Some [9])) E' G)
    as (s & D & W & HA).
  split.
  - rewrite <- Er, <- Ea. rewrite HA; [apply W| |done]. by repeat constructor.
  - intros enum ans He. unfold ms_pull, ms_checkpoints. destruct W as (Rl & _).
    rewrite Es in Rl.
    destruct (tip_points_ok ex_nf ex_nf_ok _ s (enum (mv_tips (ms_mv (w_source w)))) Rl) as (ps & Ep & _).
    { intros k. by rewrite (He _), elem_of_elements. }
    rewrite Ep. unfold ms_confirmed_with_parent. rewrite EC. cbn [mbind option_bind].
    rewrite EG. cbn [mbind option_bind ex_nf b_parent sx]. rewrite EP, EA. done.
Qed.

(** A fork that leaves a settled block out breaks the order: here the delivered block 11 is
    followed by its sibling 21, and the consumer is not told. *)
Theorem C34_deep_fork_refuted : exists acts w, Forall act_fair acts /\ Forall accepts acts /\
  w_run ex_nf None (w_start 1) acts = Some w /\
  w_received w = [sx 10 9 5; sx 11 10 6; sx 12 11 7; sx 21 10 6; sx 22 21 7; sx 23 22 8] /\
  w_accepted w = [sx 10 9 5; sx 11 10 6; sx 21 10 6; sx 22 21 7].
Proof.
  set (acts := [pull_block (sx 10 9 5) true; pull_block (sx 11 10 6) true;
    pull_block (sx 12 11 7) true; pull_block (sx 21 10 6) true; pull_block (sx 22 21 7) true;
    pull_block (sx 23 22 8) true]).
  assert (w_obs (w_run ex_nf None (w_start 1) acts) =
    Some ([sx 10 9 5; sx 11 10 6; sx 12 11 7; sx 21 10 6; sx 22 21 7; sx 23 22 8],
          [sx 10 9 5; sx 11 10 6; sx 21 10 6; sx 22 21 7])) as E by (by vm_compute).
  destruct (w_run ex_nf None (w_start 1) acts) as [w|] eqn:Ew; [|done].
  injection E as ER EA. exists acts, w. split; [repeat constructor; apply elements_fair|].
  split; [by repeat constructor|]. split; [exact Ew|]. split; [exact ER|exact EA].
Qed.

(** ** C35: the fork-handling source *)

Section c35.
Context {point : Type} `{EqDecision point} (nf : block -> option point).

(** Whatever blocks arrive in whatever order, as long as the fork points are stored: no pull
    panics or runs for ever, and after the queued events the consumer holds exactly the chain
    from the first block received to the last. *)
Theorem C35_consumer_follows d acts : points_ok nf -> Forall fpull_fair acts ->
  sane (f_received (f_run nf (f_start d) acts)) ->
  fork_points_stored nf (f_start d) acts ->
  let w := f_run nf (f_start d) acts in
  follows (f_received w) (consumed nf w) /\ Forall fine (f_results w).
Proof.
  intros NF Hf Sn Hp. cbv zeta.
  destruct (f_run_ok nf NF acts _ _ (finv_start nf d) Hf Sn Hp) as (s & I & Hr); [constructor|].
  split; [apply I|done].
Qed.

(** That chain is determined by what was received, and all of it was received. *)
Theorem C35_chain_received d acts : points_ok nf -> Forall fpull_fair acts ->
  sane (f_received (f_run nf (f_start d) acts)) ->
  fork_points_stored nf (f_start d) acts ->
  let w := f_run nf (f_start d) acts in
  forall b, b ∈ consumed nf w -> b ∈ f_received w.
Proof.
  intros NF Hf Sn Hp. cbv zeta.
  destruct (f_run_ok nf NF acts _ _ (finv_start nf d) Hf Sn Hp) as (s & I & Hr); [constructor|].
  apply I.
Qed.

(** Every rollback but the first names a block the consumer has. *)
Theorem C35_rollback_known d acts a : points_ok nf -> Forall fpull_fair (acts ++ [a]) ->
  sane (f_received (f_run nf (f_start d) (acts ++ [a]))) ->
  fork_points_stored nf (f_start d) (acts ++ [a]) ->
  let w := f_run nf (f_start d) acts in
  forall p, last (f_results (f_step nf w a)) = Some (PEvent (FRollback p)) ->
    f_received w = [] \/ exists x, x ∈ f_chain w /\ nf x = Some p.
Proof.
  intros NF Hf Sn Hp. cbv zeta. apply Forall_app in Hf as [Hf Ha].
  assert (forall acts w a, f_run nf w (acts ++ [a]) = f_step nf (f_run nf w acts) a) as Hrun.
  { clear. induction acts as [|b acts IH]; intros w a; [done|]. cbn [app f_run]. apply IH. }
  assert (forall acts w a, fork_points_stored nf w (acts ++ [a]) ->
    fork_points_stored nf w acts /\ fork_point_stored nf (f_run nf w acts) a) as Hsplit.
  { clear. induction acts as [|b acts IH]; intros w a; cbn [app f_run fork_points_stored]; [tauto|].
    intros [H1 H2]. apply IH in H2. tauto. }
  rewrite Hrun in Sn. apply Hsplit in Hp as [Hp Hp1].
  destruct (f_step_received nf (f_run nf (f_start d) acts) a) as [Q HQ].
  destruct (f_run_ok nf NF acts _ _ (finv_start nf d) Hf) as (s & I & Hr);
    [rewrite HQ in Sn; by apply sane_prefix in Sn|done|constructor|].
  apply Forall_cons in Ha as [Ha _].
  destruct (f_step_ok nf NF _ s a I Ha Sn Hp1) as (r & s' & Hres & _ & Hk & _).
  intros p. rewrite Hres, last_snoc. intros [= ->]. by apply Hk.
Qed.

(** The queue is delivered before the wrapped source is asked again. *)
Theorem C35_queue_first enum st from ans e q : fh_events st = e :: q ->
  fh_pull nf enum st from ans =
  (Fh (fh_mv st) (fh_depth st) (fh_confirmed st) (fh_last st) q, None, PEvent e).
Proof. intros H. unfold fh_pull. by rewrite H. Qed.

(** If the forks leave no settled block out and the wrapped source does not send a block
    twice, all fork points are stored: nothing else is needed. *)
Theorem C35_shallow_forks d acts : points_ok nf -> Forall fpull_fair acts ->
  first_has_point nf (f_start d) acts ->
  let w := f_run nf (f_start d) acts in
  grows d (f_received w) -> NoDup (f_received w) ->
  fork_points_stored nf (f_start d) acts /\ sane (f_received w) /\
  follows (f_received w) (consumed nf w) /\ Forall fine (f_results w).
Proof.
  intros NF Hf Hp. cbv zeta. intros G ND.
  destruct (g_run nf NF d acts _ _ _ (ginv_start d) Hf G ND Hp) as [Hfp _].
  pose proof (tree_sane _ (grows_tree _ _ G)) as Sn.
  split; [done|]. split; [done|]. by apply C35_consumer_follows.
Qed.

End c35.

Definition fpull_block (b : block) : fpull := FPull elements (Some [9]) (AEvent (EvBlock b)).
Definition fidle : fpull := FPull elements (Some [9]) ANone.

(** A chain, a fork one block longer that branches off two blocks back, and the way back. *)
Definition ex_facts : list fpull :=
  [ fpull_block (sx 10 9 5); fidle; fpull_block (sx 11 10 6); fpull_block (sx 12 11 7);
    fpull_block (sx 21 10 6); fidle; fpull_block (sx 22 21 7); fpull_block (sx 13 12 8) ].

Lemma ex_frun_received : f_received (f_run ex_nf (f_start 2) ex_facts) =
  [sx 10 9 5; sx 11 10 6; sx 12 11 7; sx 21 10 6; sx 22 21 7; sx 13 12 8].
Proof. by vm_compute. Qed.

Lemma ex_frun_queue : fh_events (f_source (f_run ex_nf (f_start 2) ex_facts)) =
  [FInner (EvBlock (sx 11 10 6)); FInner (EvBlock (sx 12 11 7)); FInner (EvBlock (sx 13 12 8))].
Proof. by vm_compute. Qed.

Lemma ex_frun_consumed : consumed ex_nf (f_run ex_nf (f_start 2) ex_facts) =
  [sx 10 9 5; sx 11 10 6; sx 12 11 7; sx 13 12 8].
Proof. by vm_compute. Qed.

Lemma ex_fgrows : grows 2
  [sx 10 9 5; sx 11 10 6; sx 12 11 7; sx 21 10 6; sx 22 21 7; sx 13 12 8].
Proof.
  assert (grows 2 [sx 10 9 5; sx 11 10 6; sx 12 11 7]) as G3.
  { apply (chain_grows 2). split; [done|]. split; [apply (bool_decide_unpack _); by vm_compute|].
    split.
    - intros b Hb. list_cases; done.
    - intros f p [= <-] Hp. list_cases; done. }
  assert (grows 2 [sx 10 9 5; sx 11 10 6; sx 12 11 7; sx 21 10 6]) as G4.
  { apply (grows_child 2 [sx 10 9 5; sx 11 10 6; sx 12 11 7] (sx 10 9 5)); try done; [by left|..].
    - intros x Hx. list_cases; done.
    - intros x (t & _ & Hb). pose proof (back_num _ _ _ _ (grows_tree _ _ G3) Hb) as Hn.
      apply back_in in Hb as [Ht Hx]. assert (x = sx 10 9 5) as -> by (list_cases; done).
      exists 0%nat. constructor. by left. }
  assert (grows 2 [sx 10 9 5; sx 11 10 6; sx 12 11 7; sx 21 10 6; sx 22 21 7]) as G5.
  { apply (grows_child 2 [sx 10 9 5; sx 11 10 6; sx 12 11 7; sx 21 10 6] (sx 21 10 6)); try done.
    - do 3 right. by left.
    - intros x Hx. list_cases; done.
    - intros x (t & _ & Hb). pose proof (back_num _ _ _ _ (grows_tree _ _ G4) Hb) as Hn.
      apply back_in in Hb as [Ht Hx]. assert (x = sx 10 9 5) as -> by (list_cases; done).
      exists 1%nat. apply (back_link _ _ _ (sx 10 9 5)); [do 3 right; by left|done|constructor; by left]. }
  apply (grows_child 2 [sx 10 9 5; sx 11 10 6; sx 12 11 7; sx 21 10 6; sx 22 21 7] (sx 12 11 7)); try done.
  - do 2 right. by left.
  - intros x Hx. list_cases; done.
  - intros x (t & _ & Hb). pose proof (back_num _ _ _ _ (grows_tree _ _ G5) Hb) as Hn.
    apply back_in in Hb as [Ht Hx]. assert (x = sx 10 9 5) as -> by (list_cases; done).
    exists 2%nat. apply (back_link _ _ _ (sx 11 10 6)); [do 2 right; by left|done|].
    apply (back_link _ _ _ (sx 10 9 5)); [right; by left|done|constructor; by left].
Qed.

Example C35_case :
  let w := f_run ex_nf (f_start 2) ex_facts in
  Forall fpull_fair ex_facts /\ first_has_point ex_nf (f_start 2) ex_facts /\
  grows 2 (f_received w) /\ NoDup (f_received w) /\
  consumed ex_nf w = [sx 10 9 5; sx 11 10 6; sx 12 11 7; sx 13 12 8].
Proof.
  cbv zeta.
  split; [repeat constructor; apply elements_fair|]. split.
  { unfold ex_facts, fpull_block, fidle. cbn [first_has_point].
    repeat (split; [intros _ ?; discriminate|]). exact Logic.I. }
  rewrite ex_frun_received. split; [apply ex_fgrows|].
  split; [apply (bool_decide_unpack _); by vm_compute|]. exact ex_frun_consumed.
Qed.

(** What happens without the conditions. *)

(** The first block asked for without a point: a panic. *)
Theorem C35_no_point_panics_refuted : exists b st asked,
  fh_pull ex_nf elements (f_source (f_start 2)) None (AEvent (EvBlock b)) = (st, asked, PPanic).
Proof. exists (sx 10 9 5). eexists _, _. vm_compute. reflexivity. Qed.

(** A block sent again after it was collected: it is not known any more, it does not follow
    the last block, and no ancestor of it is stored. A panic. *)
Theorem C35_resent_block_panics_refuted : exists acts, Forall fpull_fair acts /\
  grows 1 (f_received (f_run ex_nf (f_start 1) acts)) /\
  last (f_results (f_run ex_nf (f_start 1) acts)) = Some PPanic.
Proof.
  set (acts := [fpull_block (sx 10 9 5); fidle; fpull_block (sx 11 10 6); fpull_block (sx 12 11 7);
    fpull_block (sx 13 12 8); fpull_block (sx 10 9 5)]).
  exists acts. split; [repeat constructor; apply elements_fair|].
  assert (f_received (f_run ex_nf (f_start 1) acts) =
    [sx 10 9 5; sx 11 10 6; sx 12 11 7; sx 13 12 8; sx 10 9 5]) as -> by (by vm_compute).
  split; [|by vm_compute].
  apply (grows_again 1 [sx 10 9 5; sx 11 10 6; sx 12 11 7; sx 13 12 8]); [|by left].
  apply (chain_grows 1). split; [done|]. split; [apply (bool_decide_unpack _); by vm_compute|].
  split.
  - intros b Hb. list_cases; done.
  - intros f p [= <-] Hp. list_cases; done.
Qed.

(** A block that shares no stored ancestor with the last one is delivered without a
    rollback. *)
Theorem C35_no_fork_point_refuted : exists acts, Forall fpull_fair acts /\
  f_chain (f_run ex_nf (f_start 2) acts) = [sx 10 9 5; sx 11 10 6; sx 50 49 7] /\
  fh_events (f_source (f_run ex_nf (f_start 2) acts)) = [].
Proof.
  exists [fpull_block (sx 10 9 5); fidle; fpull_block (sx 11 10 6); fpull_block (sx 50 49 7)].
  split; [repeat constructor; apply elements_fair|]. split; vm_compute; reflexivity.
Qed.

(** A restart forgets which block was sent last: the source takes the stored block that is
    last in the order of numbers and identifiers. Here the consumer holds 10, 11, 12 and
    gets 23, whose parent it never got. *)
Theorem C35_restart_refuted : exists acts b,
  let w := f_run ex_nf (f_start 3) acts in
  Forall fpull_fair acts /\ f_chain w = [sx 10 9 5; sx 11 10 6; sx 12 11 7] /\
  fh_events (f_source w) = [] /\ b_parent b = [22] /\
  match mv_load_from (m_tree (fh_mv (f_source w))) 0 with
  | Done m =>
      match fh_new elements m 3 with
      | Done st => (fh_pull ex_nf elements st (Some [12]) (AEvent (EvBlock b))).2 =
                     PEvent (FInner (EvBlock b))
      | _ => False
      end
  | _ => False
  end.
Proof.
  exists [fpull_block (sx 10 9 5); fidle; fpull_block (sx 21 10 6); fpull_block (sx 22 21 7);
     fpull_block (sx 11 10 6); fidle; fpull_block (sx 12 11 7)], (sx 23 22 8). cbv zeta.
  split; [repeat constructor; apply elements_fair|]. split; [vm_compute; reflexivity|].
  split; [vm_compute; reflexivity|]. split; [reflexivity|]. vm_compute. reflexivity.
Qed.

(** ** C36: the confirmed block stays in the store *)

Section c36.
Context {point : Type} `{EqDecision point} (nf : block -> option point).

(** What can go wrong in a pull of the confirming source: the wrapped source fails, or the
    point passed is neither that of the confirmed block nor that of its parent. *)
Definition ms_sound (x : option point * option answer * pulled event) : Prop :=
  x.2 <> PPanic /\ x.2 <> PLoop /\
  (x.2 = PErr -> x.1.2 = Some AErr \/ (x.1.2 = None /\ x.1.1 <> None)).

(** From any store, with any stream, any points and any hash orders. *)
Theorem C36_confirming_source f os m enum0 d acts : points_ok nf ->
  one_block_per_id os -> refs_current (mv_new_with ∅ f) os -> after f os m -> fair enum0 ->
  Forall fpull_fair acts -> Forall fpull_small acts ->
  exists st0, ms_new enum0 m d = Done st0 /\
    let '(st, rs) := ms_pulls nf st0 acts in
    (forall k, ms_confirmed st = Some k -> exists b, mv_get (ms_mv st) k = Some b /\ b_id b = k) /\
    Forall ms_sound rs.
Proof.
  intros NF H1 H2 H3 He. pose proof (after_rel _ _ _ H1 H2 H3) as R.
  destruct (rel_select m _ enum0 [] d 0 R He) as (r & disc & Es & Hs0 & Hs1).
  { intros k a e Hk. by apply elem_of_nil in Hk. }
  { intros k a Hk. by apply elem_of_nil in Hk. }
  unfold ms_new. rewrite Es. intros Hf Hsm. eexists. split; [reflexivity|].
  assert (conf_ok m r) as Hc.
  { intros k ->. destruct (decide (s_blocks (spec_run (empty_store f) os).1 = [])) as [H0|H0].
    - by destruct (Hs0 H0).
    - destruct (Hs1 H0) as (tip & _ & a & Ha & <- & _). exists a.
      apply (rel_get_in _ _ _ R). by apply nth_ancestor_in in Ha as [? _]. }
  clear Es Hs0 Hs1 H1 H2 H3.
  assert (forall acts st s, rel (ms_mv st) s -> conf_ok (ms_mv st) (ms_confirmed st) ->
    Forall fpull_fair acts -> Forall fpull_small acts ->
    let '(st, rs) := ms_pulls nf st acts in
    (forall k, ms_confirmed st = Some k -> exists b, mv_get (ms_mv st) k = Some b /\ b_id b = k) /\
    Forall ms_sound rs) as Hall.
  2:{ by apply (Hall acts (Ms m d r) _ R Hc). }
  clear -NF. induction acts as [|[enum from ans] acts IH]; intros st s R Hc Hf Hsm; cbn [ms_pulls].
  { split; [|constructor]. intros k Hk. destruct (Hc k Hk) as [b Hb]. exists b. split; [done|].
    by apply (rel_get_some _ _ _ _ R) in Hb as [_ ?]. }
  apply Forall_cons in Hf as [Hf1 Hf]. apply Forall_cons in Hsm as [Hs1 Hsm].
  cbn in Hf1, Hs1.
  destruct (ms_pull nf enum st from ans) as [[st1 asked] r1] eqn:Ep.
  assert (exists s1, rel (ms_mv st1) s1 /\ conf_ok (ms_mv st1) (ms_confirmed st1) /\
    ms_sound (from, match asked with Some _ => Some ans | None => None end, r1)) as (s1 & R1 & Hc1 & Hr1).
  { unfold ms_pull, ms_checkpoints in Ep.
    destruct (tip_points_ok nf NF (ms_mv st) s (enum (mv_tips (ms_mv st))) R) as (ps & Eps & _).
    { intros k. by rewrite (Hf1 _), elem_of_elements. }
    rewrite Eps in Ep.
    assert (forall cps, (match ans with
      | AErr => (st, Some cps, PErr)
      | ANone => (st, Some cps, PNone)
      | AEvent (EvTip t) => (st, Some cps, PEvent (EvTip t))
      | AEvent (EvBlock b) =>
          match mv_get (ms_mv st) (b_id b) with
          | Some _ => (st, Some cps, PNone)
          | None =>
              match insert_and_gc enum (ms_mv st) b (ms_depth st) with
              | NotFound => (st, Some cps, PErr)
              | Panic => (st, Some cps, PPanic)
              | Done (m', selected) =>
                  match new_stable (ms_confirmed st) selected with
                  | None => (Ms m' (ms_depth st) (ms_confirmed st), Some cps, PNone)
                  | Some s =>
                      match mv_get m' s with
                      | None => (Ms m' (ms_depth st) (ms_confirmed st), Some cps, PPanic)
                      | Some x => (Ms m' (ms_depth st) (Some s), Some cps, PEvent (EvBlock x))
                      end
                  end
              end
          end
      end) = (st1, asked, r1) ->
      exists s1, rel (ms_mv st1) s1 /\ conf_ok (ms_mv st1) (ms_confirmed st1) /\
      ms_sound (from, match asked with Some _ => Some ans | None => None end, r1)) as Hgo.
    { intros cps. unfold ms_sound. cbn [fst snd].
      destruct ans as [| |[t|b]]; [by intros [= <- <- <-]; exists s; naive_solver..|].
      destruct (mv_get (ms_mv st) (b_id b)) as [z|] eqn:Eg;
        [by intros [= <- <- <-]; exists s; naive_solver|].
      apply (rel_get_none _ _ _ R) in Eg.
      destruct (insert_gc_conf enum (ms_mv st) s b (ms_depth st) _ R Hf1 Hs1 Eg Hc)
        as (m' & s' & sel & E1 & R' & _ & _ & Hsel & Hc' & Hc'').
      rewrite E1. destruct (new_stable (ms_confirmed st) sel) as [k|] eqn:En.
      - destruct (Hc' k eq_refl) as [x Hx]. rewrite Hx. intros [= <- <- <-]. exists s'.
        split; [done|]. split; [done|]. naive_solver.
      - intros [= <- <- <-]. exists s'. split; [done|]. split; [by apply Hc''|]. naive_solver. }
    destruct (ms_confirmed_with_parent nf st) as [[[parent conf] cp]|] eqn:Ecp.
    2:{ by apply (Hgo _ Ep). }
    destruct (decide (from = parent)).
    { injection Ep as <- <- <-. exists s. unfold ms_sound. naive_solver. }
    destruct from as [q|]; [|by apply (Hgo _ Ep)].
    destruct (decide (q = cp)); [by apply (Hgo _ Ep)|].
    injection Ep as <- <- <-. exists s. unfold ms_sound. naive_solver. }
  specialize (IH st1 s1 R1 Hc1 Hf Hsm). destruct (ms_pulls nf st1 acts) as [st2 rs].
  destruct IH as [IH1 IH2]. split; [done|]. by constructor.
Qed.

(** The same for the fork-handling source: its lookups succeed, so that it always asks the
    wrapped source when its queue is empty, and it fails only when the wrapped source does. *)
Definition fh_sound (x : option point * option answer * pulled (fevent point)) : Prop :=
  (x.2 = PErr -> x.1.2 = Some AErr) /\
  (x.1.2 = None -> exists e, x.2 = PEvent e).

Theorem C36_fork_source f os m enum0 d acts : points_ok nf ->
  one_block_per_id os -> refs_current (mv_new_with ∅ f) os -> after f os m -> fair enum0 ->
  Forall fpull_fair acts -> Forall fpull_small acts ->
  exists st0, fh_new enum0 m d = Done st0 /\
    let '(st, rs) := fh_pulls nf st0 acts in
    (forall k, fh_confirmed st = Some k -> exists b, mv_get (fh_mv st) k = Some b /\ b_id b = k) /\
    Forall fh_sound rs.
Proof.
  intros NF H1 H2 H3 He. pose proof (after_rel _ _ _ H1 H2 H3) as R.
  destruct (rel_select m _ enum0 [] d 0 R He) as (r & disc & Es & Hs0 & Hs1).
  { intros k a e Hk. by apply elem_of_nil in Hk. }
  { intros k a Hk. by apply elem_of_nil in Hk. }
  unfold fh_new. rewrite Es. intros Hf Hsm. eexists. split; [reflexivity|].
  assert (conf_ok m r) as Hc.
  { intros k ->. destruct (decide (s_blocks (spec_run (empty_store f) os).1 = [])) as [H0|H0].
    - by destruct (Hs0 H0).
    - destruct (Hs1 H0) as (tip & _ & a & Ha & <- & _). exists a.
      apply (rel_get_in _ _ _ R). by apply nth_ancestor_in in Ha as [? _]. }
  clear Es Hs0 Hs1 H1 H2 H3.
  assert (forall acts st s, rel (fh_mv st) s -> conf_ok (fh_mv st) (fh_confirmed st) ->
    Forall fpull_fair acts -> Forall fpull_small acts ->
    let '(st, rs) := fh_pulls nf st acts in
    (forall k, fh_confirmed st = Some k -> exists b, mv_get (fh_mv st) k = Some b /\ b_id b = k) /\
    Forall fh_sound rs) as Hall.
  2:{ by apply (Hall acts (Fh m d r (b_id <$> last (mv_iter enum0 m)) []) _ R Hc). }
  clear -NF. induction acts as [|[enum from ans] acts IH]; intros st s R Hc Hf Hsm; cbn [fh_pulls].
  { split; [|constructor]. intros k Hk. destruct (Hc k Hk) as [b Hb]. exists b. split; [done|].
    by apply (rel_get_some _ _ _ _ R) in Hb as [_ ?]. }
  apply Forall_cons in Hf as [Hf1 Hf]. apply Forall_cons in Hsm as [Hs1 Hsm].
  cbn in Hf1, Hs1.
  destruct (fh_pull nf enum st from ans) as [[st1 asked] r1] eqn:Ep.
  assert (exists s1, rel (fh_mv st1) s1 /\ conf_ok (fh_mv st1) (fh_confirmed st1) /\
    fh_sound (from, match asked with Some _ => Some ans | None => None end, r1)) as (s1 & R1 & Hc1 & Hr1).
  { unfold fh_pull in Ep. unfold fh_sound. cbn [fst snd].
    destruct (fh_events st) as [|e q]; [|injection Ep as <- <- <-; exists s; naive_solver].
    rewrite (fh_checkpoints_ok nf NF enum st from s Hf1 R Hc) in Ep.
    destruct ans as [| |[t|b]]; [by injection Ep as <- <- <-; exists s; naive_solver..|].
    destruct (mv_get (fh_mv st) (b_id b)) as [z|] eqn:Eg;
      [by injection Ep as <- <- <-; exists s; naive_solver|].
    apply (rel_get_none _ _ _ R) in Eg.
    destruct (insert_gc_conf enum (fh_mv st) s b (fh_depth st) _ R Hf1 Hs1 Eg Hc)
      as (m' & s' & sel & E1 & R' & _ & _ & Hsel & Hc' & Hc'').
    rewrite E1 in Ep. destruct (fh_switch nf m' [] (fh_last st) b from) as [q r'] eqn:Esw.
    cbv zeta in Ep. injection Ep as <- <- <-. exists s'. split; [done|]. split; [done|].
    split; [|done]. intros ->. exfalso. revert Esw. clear. unfold fh_switch.
    destruct (decide (fh_last st = Some (b_parent b))); [done|].
    destruct (fh_last st) as [c|]; [|by destruct from].
    destruct (walk_previous m' (S (mv_len m')) c) as [ids|]; [|done].
    destruct (walk_current nf m' ids (S (mv_len m')) (b_id b)) as [es| |]; [|done..].
    by destruct (rev es ++ []). }
  specialize (IH st1 s1 R1 Hc1 Hf Hsm). destruct (fh_pulls nf st1 acts) as [st2 rs].
  destruct IH as [IH1 IH2]. split; [done|]. by constructor.
Qed.

End c36.

(** A store with a fork, and a stream without sense: unknown parents, far-off numbers. *)
Definition ex_wild : list fpull :=
  [fpull_block (sx 50 49 90); FPull elements None (AEvent (EvBlock (sx 51 50 91)));
   FPull elements None (AEvent (EvBlock (sx 52 51 3)));
   FPull elements (Some [50]) (AEvent (EvBlock (sx 53 51 92)));
   FPull elements None AErr].

Example C36_case : Forall fpull_fair ex_wild /\ Forall fpull_small ex_wild /\
  (exists m, after 0 ex_hist m /\
   match ms_new elements m 1 with
   | Done st => let '(st', rs) := ms_pulls ex_nf st ex_wild in
       (ms_confirmed st, ms_confirmed st', map snd rs)
   | _ => (None, None, []) end = (Some [2], Some [2], [PErr; PNone; PNone; PErr; PErr])) /\
  (exists m, after 0 ex_hist m /\
   match fh_new elements m 1 with
   | Done st => let '(st', rs) := fh_pulls ex_nf st ex_wild in (fh_confirmed st, fh_confirmed st')
   | _ => (None, None) end = (Some [2], Some [51])).
Proof.
  split; [repeat constructor; apply elements_fair|]. split; [by repeat constructor|].
  split; (apply (run_obs 0 ex_hist); vm_compute; reflexivity).
Qed.

(** one traversal for all theorems of this file: what the tuple assumes is what any of them assumes *)
Definition all_SourceProps := (@C34_settled_chain_unique, @C34_settled_blocks_in_order, @C34_all_settled_blocks, @C34_linear_chain, @C34_never_stuck, @C34_next_pull, @C34_case, @C34_linear_case, @C34_first_delivery_lost_refuted, @C34_deep_fork_refuted, @C35_consumer_follows, @C35_chain_received, @C35_rollback_known, @C35_queue_first, @C35_shallow_forks, @C35_case, @C35_no_point_panics_refuted, @C35_resent_block_panics_refuted, @C35_no_fork_point_refuted, @C35_restart_refuted, @C36_confirming_source, @C36_fork_source, @C36_case).
Print Assumptions all_SourceProps.
