(** C39-C43: selection setups, largest-first and the two change balancers. *)
From Coq Require Import ZArith Lia.
From stdpp Require Import gmap strings list sorting.
From Verif Require Import ValueModel BalanceModel BalanceProofs StoreModel StoreSpec StoreProofs
  SelModel SelSpec SelProofs SelChangeProofs SelLargestProofs SelFewestProofs.
Open Scope Z_scope.

(** ** C39 the setup *)
(** The balances of a setup are the sums over the given inputs and outputs, token by token; a token is in a table
    exactly when one of the inputs (outputs) lists it, and its entry describes it as one of them does. *)
Theorem C39_totals ins outs change :
  let su := from_fixed ins outs change in
  su_in su = value_in ins /\ su_out su = value_out outs /\
  (forall t, amount t (su_in_assets su) = token_in t ins) /\
  (forall t, amount t (su_out_assets su) = token_out t outs) /\
  (forall t, is_Some (su_in_assets su !! t) <-> exists u, u ∈ ins /\ t ∈ map a_fp (u_assets u)) /\
  (forall t, is_Some (su_out_assets su !! t) <-> exists o, o ∈ outs /\ t ∈ map a_fp (o_assets o)) /\
  su_fixed_in su = ins /\ su_fixed_out su = outs /\ su_change su = change.
Proof.
  cbn [from_fixed su_in su_out su_in_assets su_out_assets su_fixed_in su_fixed_out su_change].
  rewrite !fold_tables, !fold_sum.
  split; [reflexivity|]. split; [reflexivity|].
  split. { intro t. rewrite amount_add_assets, held_flat. unfold amount. rewrite lookup_empty. reflexivity. }
  split. { intro t. rewrite amount_add_assets, held_flat. unfold amount. rewrite lookup_empty. reflexivity. }
  split. { intro t. rewrite add_assets_dom, lookup_empty. split.
    - intros [[? H]|H]; [discriminate|]. apply elem_of_list_fmap in H as (a & -> & H).
      apply elem_of_flat_map in H as (u & Hu & Ha). exists u. split; [exact Hu|]. apply elem_of_list_fmap. eauto.
    - intros (u & Hu & H). right. apply elem_of_list_fmap in H as (a & -> & Ha). apply elem_of_list_fmap. exists a.
      split; [reflexivity|]. apply elem_of_flat_map. eauto. }
  split; [|auto]. intro t. rewrite add_assets_dom, lookup_empty. split.
  - intros [[? H]|H]; [discriminate|]. apply elem_of_list_fmap in H as (a & -> & H).
    apply elem_of_flat_map in H as (u & Hu & Ha). exists u. split; [exact Hu|]. apply elem_of_list_fmap. eauto.
  - intros (u & Hu & H). right. apply elem_of_list_fmap in H as (a & -> & Ha). apply elem_of_list_fmap. exists a.
    split; [reflexivity|]. apply elem_of_flat_map. eauto.
Qed.

Theorem C39_descriptions ins outs change t a :
  (su_in_assets (from_fixed ins outs change) !! t = Some a ->
     a_fp a = t /\ exists u b, u ∈ ins /\ b ∈ u_assets u /\ a_fp b = t /\ a_policy a = a_policy b /\ a_name a = a_name b) /\
  (su_out_assets (from_fixed ins outs change) !! t = Some a ->
     a_fp a = t /\ exists o b, o ∈ outs /\ b ∈ o_assets o /\ a_fp b = t /\ a_policy a = a_policy b /\ a_name a = a_name b).
Proof.
  cbn [from_fixed su_in_assets su_out_assets]. rewrite !fold_tables.
  assert (D0 : described ∅ []) by (intros x y L; rewrite lookup_empty in L; discriminate).
  split; intro L; (split; [eapply filed_add_assets; [apply filed_empty|exact L]|]).
  - destruct (described_add_assets _ _ _ D0 _ _ L) as (b & Hb & A & B & C). cbn [app] in Hb.
    apply elem_of_flat_map in Hb as (u & Hu & Hb). exists u, b. auto.
  - destruct (described_add_assets _ _ _ D0 _ _ L) as (b & Hb & A & B & C). cbn [app] in Hb.
    apply elem_of_flat_map in Hb as (u & Hu & Hb). exists u, b. auto.
Qed.

(** the balance check that users call on a result is the equation it stands for *)
Theorem C39_is_balanced ord s : fair_t ord -> 0 <= se_out s -> 0 <= se_fee s ->
  nonneg_table (se_in_assets s) -> nonneg_table (se_out_assets s) ->
  is_balanced ord s = true <->
  se_in s = se_out s + se_fee s /\ forall t, amount t (se_in_assets s) = amount t (se_out_assets s).
Proof. apply is_balanced_spec. Qed.

Theorem C39_are_utxos_balanced ord s : fair_t ord ->
  Forall nonneg_in (se_fixed_in s ++ se_chosen s) -> Forall nonneg_out (se_fixed_out s ++ se_changes s) -> 0 <= se_fee s ->
  are_utxos_balanced ord s = true <->
  is_balanced ord s = true /\
  (value_in (se_fixed_in s ++ se_chosen s) + token_in MAIN (se_fixed_in s ++ se_chosen s) =
   value_out (se_fixed_out s ++ se_changes s) + token_out MAIN (se_fixed_out s ++ se_changes s) + se_fee s) /\
  forall t, t <> MAIN -> token_in t (se_fixed_in s ++ se_chosen s) = token_out t (se_fixed_out s ++ se_changes s).
Proof.
  intros Hf Hi Ho He. rewrite are_utxos_balanced_spec by assumption.
  assert (QI : forall t us, sumZ (map (quantity t) us) = (if decide (t = MAIN) then value_in us else 0) + token_in t us).
  { intros t us. unfold value_in, token_in. induction us as [|u us IH]; [destruct (decide (t = MAIN)); reflexivity|].
    cbn [map]. unfold sumZ in *. cbn [foldr]. rewrite IH, quantity_held. destruct (decide (t = MAIN)); lia. }
  assert (QO : forall t os, sumZ (map (quantity_out t) os) = (if decide (t = MAIN) then value_out os else 0) + token_out t os).
  { intros t os. unfold value_out, token_out. induction os as [|u us IH]; [destruct (decide (t = MAIN)); reflexivity|].
    cbn [map]. unfold sumZ in *. cbn [foldr]. rewrite IH. unfold quantity_out. destruct (decide (t = MAIN)); lia. }
  split; intros [B H]; (split; [exact B|]).
  - split.
    + specialize (H MAIN). rewrite QI, QO in H. rewrite !decide_True in H by reflexivity. lia.
    + intros t n. specialize (H t). rewrite QI, QO in H. rewrite !decide_False in H by exact n. lia.
  - intro t. rewrite QI, QO. destruct H as [H1 H2]. destruct (decide (t = MAIN)) as [->|n]; [lia|]. rewrite (H2 t n). lia.
Qed.

(** ** C40 largest first *)
Theorem C40_selected {E} (est : estimator E) enum ord h e su st' e' sel :
  (forall n, fair (enum n)) -> fair_t ord -> Forall wf_op h -> Forall nonneg_in (unspent h) ->
  fees_nonneg est -> 0 <= su_out su ->
  lf_select est enum ord (final h) e su = (st', SDone (e', sel)) ->
  (* distinct, available, and the others are left *)
  st' = final (spend h (se_chosen sel)) /\
  se_chosen sel ++ unspent (spend h (se_chosen sel)) ≡ₚ unspent h /\
  NoDup (map u_ptr (se_chosen sel)) /\
  (* the reported balances *)
  se_in sel = su_in su + value_in (se_chosen sel) /\
  (forall t, amount t (se_in_assets sel) = amount t (su_in_assets su) + token_in t (se_chosen sel)) /\
  se_out sel = su_out su /\ se_out_assets sel = su_out_assets su /\
  se_fixed_in sel = su_fixed_in su /\ se_fixed_out sel = su_fixed_out su /\ se_changes sel = [] /\
  (* the fee: what the estimator asks at first and then for each chosen input *)
  (exists fee0 g, e_min_fee est e = Some fee0 /\ charge est e (se_chosen sel) = Some (e', g) /\ se_fee sel = fee0 + g) /\
  (* everything is covered *)
  (forall t, t ∈ dom (su_out_assets su) -> amount t (su_out_assets su) <= amount t (se_in_assets sel)) /\
  su_out su + se_fee sel <= se_in sel.
Proof.
  intros He Ho Hw Hn Hf Hout H. assert (S := lf_select_spec est enum ord He Ho h e su Hw Hn Hf Hout). rewrite H in S.
  destruct S as (fee0 & F & A & B & C & D & K & O1 & O2 & O3 & O4 & O5 & Cov & M).
  split; [exact A|]. split; [exact B|].
  split. { assert (X := NoDup_unspent h). rewrite <- B, map_app in X. apply NoDup_app in X as [X _]. exact X. }
  do 7 (split; [assumption|]). split. { exists fee0, (se_fee sel - fee0). split; [exact F|]. split; [exact C|lia]. }
  split; [|exact M]. intros t Ht. apply elem_of_dom in Ht as [a L]. unfold amount at 1. rewrite L. exact (Cov t a L).
Qed.

(** whatever makes it fail, the available inputs are as before; and it neither panics nor runs forever *)
Theorem C40_failure {E} (est : estimator E) enum ord h e su :
  (forall n, fair (enum n)) -> fair_t ord -> Forall wf_op h -> Forall nonneg_in (unspent h) ->
  fees_nonneg est -> 0 <= su_out su ->
  match lf_select est enum ord (final h) e su with
  | (_, SDone _) => True
  | (st', SFail _) => st' = final h
  | (_, SPanic) | (_, SLoop) => False
  end.
Proof.
  intros He Ho Hw Hn Hf Hout. assert (S := lf_select_spec est enum ord He Ho h e su Hw Hn Hf Hout).
  destruct (lf_select est enum ord (final h) e su) as [st' [[e' sel]|e'| |]]; try exact I; try exact S. apply S.
Qed.

(** ** C41 no unnecessary failure, and the fewest inputs *)
(** With any estimator that accepts every input, failure means that some token cannot be covered by all that is
    available, or that all of it together does not pay for the outputs and its own fees. *)
Theorem C41_fails_only_when_short {E} (est : estimator E) enum ord h e su st' e' :
  (forall n, fair (enum n)) -> fair_t ord -> Forall wf_op h -> Forall nonneg_in (unspent h) ->
  fees_nonneg est -> inputs_ok est -> 0 <= su_out su ->
  lf_select est enum ord (final h) e su = (st', SFail e') ->
  (exists t, t ∈ dom (su_out_assets su) /\
     amount t (su_in_assets su) + token_in t (unspent h) < amount t (su_out_assets su)) \/
  (exists order fee0 g, order ≡ₚ unspent h /\ e_min_fee est e = Some fee0 /\ charge est e order = Some (e', g) /\
     su_in su + value_in (unspent h) < su_out su + fee0 + g).
Proof.
  intros He Ho Hw Hn Hf Hok Hout H. assert (S := lf_select_spec est enum ord He Ho h e su Hw Hn Hf Hout). rewrite H in S.
  destruct S as [_ [S|[S|[S|S]]]].
  - destruct (Hok e) as [[f F] _]. rewrite F in S. discriminate.
  - destruct S as (c & e1 & g & u & _ & [[A _]|A]).
    + destruct (Hok e1) as [_ X]. destruct (X u) as [[f F] _]. rewrite F in A. discriminate.
    + destruct (Hok e1) as [_ X]. destruct (X u) as [_ F]. rewrite A in F. discriminate.
  - left. destruct S as (t & a & L & Hlt). exists t. split; [apply elem_of_dom; eauto|]. unfold amount at 2. rewrite L. exact Hlt.
  - right. destruct S as (order & fee0 & g & P & F & C & Hlt). exists order, fee0, g.
    rewrite <- (value_in_perm _ _ P). auto.
Qed.

Theorem C41_fewest {E} (est : estimator E) enum ord h e su fee0 f :
  (forall n, fair (enum n)) -> fair_t ord -> Forall wf_op h -> 0 <= su_out su -> su_out_assets su = ∅ ->
  0 <= fee0 -> 0 <= f -> e_min_fee est e = Some fee0 ->
  (forall e u, e_fee_in est e u = Some f) -> (forall e u, snd (e_add_in est e u) = true) ->
  match snd (lf_select est enum ord (final h) e su) with
  | SDone (_, sel) => forall S, S ⊆+ unspent h ->
      su_out su + fee0 + f * Z.of_nat (length S) <= su_in su + value_in S -> (length (se_chosen sel) <= length S)%nat
  | SFail _ => forall S, S ⊆+ unspent h -> su_in su + value_in S < su_out su + fee0 + f * Z.of_nat (length S)
  | _ => False
  end.
Proof. apply lf_fewest. Qed.

(** so it succeeds exactly when some subset suffices *)
Theorem C41_succeeds_iff {E} (est : estimator E) enum ord h e su fee0 f :
  (forall n, fair (enum n)) -> fair_t ord -> Forall wf_op h -> Forall nonneg_in (unspent h) -> fees_nonneg est ->
  0 <= su_out su -> su_out_assets su = ∅ -> e_min_fee est e = Some fee0 ->
  (forall e u, e_fee_in est e u = Some f) -> (forall e u, snd (e_add_in est e u) = true) ->
  (exists r, snd (lf_select est enum ord (final h) e su) = SDone r) <->
  exists S, S ⊆+ unspent h /\ su_out su + fee0 + f * Z.of_nat (length S) <= su_in su + value_in S.
Proof.
  intros He Ho Hw Hn Hest Hout Hnone F Hin Hadd.
  assert (0 <= fee0) as Hfee0 by (apply (proj1 (Hest e) _ F)).
  split.
  - intros [[e' sel] H]. destruct (lf_select est enum ord (final h) e su) as [st' r] eqn:L. cbn [snd] in H. subst r.
    destruct (C40_selected est enum ord h e su st' e' sel He Ho Hw Hn Hest Hout L)
      as (_ & P & _ & I & _ & _ & _ & _ & _ & _ & (f0 & g & F' & C & Hfee) & _ & M).
    exists (se_chosen sel). split.
    + rewrite <- P. apply submseteq_inserts_r. reflexivity.
    + rewrite F in F'. injection F' as <-.
      destruct (charge_fixed est f Hin Hadd (se_chosen sel) e) as [e2 C2]. rewrite C in C2. injection C2 as _ ->. lia.
  - intros (S & HS & Hen).
    assert (0 <= f \/ unspent h = []) as [Hf|Hnil].
    { destruct (unspent h) as [|u ?]; [auto|]. left. apply (proj1 (proj2 (Hest e)) u f (Hin e u)). }
    + assert (X := lf_fewest est enum ord h e su fee0 f He Ho Hw Hout Hnone Hfee0 Hf F Hin Hadd).
      destruct (snd (lf_select est enum ord (final h) e su)) as [r|e'| |]; try contradiction; [eauto|].
      specialize (X S HS). lia.
    + rewrite Hnil in HS. apply submseteq_nil_r in HS. subst S.
      assert (X := lf_select_spec est enum ord He Ho h e su Hw Hn Hest Hout).
      destruct (lf_select est enum ord (final h) e su) as [st' [[e' sel]|e'| |]]; try contradiction; [cbn; eauto|].
      exfalso. destruct X as [_ [X|[X|[X|X]]]].
      * congruence.
      * destruct X as (c & e1 & g & u & _ & [[A _]|A]); [rewrite Hin in A; discriminate|].
        specialize (Hadd e1 u). rewrite A in Hadd. discriminate.
      * destruct X as (t & a & L & _). rewrite Hnone, lookup_empty in L. discriminate.
      * destruct X as (order & f0 & g & P & F' & C & Hlt). rewrite Hnil in P. apply Permutation_nil_r in P. subst order.
        cbn in C. injection C as _ <-. rewrite F in F'. injection F' as <-. cbn in *. lia.
Qed.

(** ** C42 the excess goes to the fee *)
(** It succeeds exactly when the estimator answers, the tokens are balanced and the main value is not short; then
    inputs are outputs plus fee and nothing else is changed. *)
Theorem C42_fee_change {E} (est : estimator E) ord e su : fair_t ord ->
  nonneg_table (su_in_assets su) -> nonneg_table (su_out_assets su) -> 0 <= su_out su -> fees_nonneg est ->
  match fee_balance est ord e su with
  | SDone (e', s) =>
      e' = e /\ (exists f, e_min_fee est e = Some f /\ f <= se_fee s) /\
      se_in s = se_out s + se_fee s /\ (forall t, amount t (se_in_assets s) = amount t (se_out_assets s)) /\
      se_in s = su_in su /\ se_in_assets s = su_in_assets su /\ se_out s = su_out su /\ se_out_assets s = su_out_assets su /\
      se_fixed_in s = su_fixed_in su /\ se_fixed_out s = su_fixed_out su /\ se_chosen s = [] /\ se_changes s = []
  | SFail e' => e' = e /\
      ((exists t, amount t (su_in_assets su) <> amount t (su_out_assets su)) \/ e_min_fee est e = None \/
       exists f, e_min_fee est e = Some f /\ su_in su < su_out su + f)
  | _ => False
  end.
Proof.
  intros Hf Hi Ho Hout Hest.
  destruct (fee_balance_spec est ord e su Hf Hi Ho Hout Hest) as [(f & F & Hlt & Hb & ->)|[H Hno]].
  - cbn. split; [reflexivity|]. split; [exists f; split; [exact F|lia]|]. split; [lia|]. split; [exact Hb|]. auto 10.
  - rewrite H. split; [reflexivity|]. unfold fee_balance in H.
    destruct (are_assets_balanced ord (su_in_assets su) (su_out_assets su)) eqn:B.
    + right. destruct (e_min_fee est e) as [f|] eqn:F; [|auto]. right. exists f. split; [reflexivity|].
      apply Znot_ge_lt. intro Hge. apply Hno. exists f. split; [reflexivity|]. split; [lia|].
      exact (proj1 (are_assets_balanced_spec ord _ _ Hf Hi Ho) B).
    + left. clear H Hno.
      destruct (decide (Exists (fun t => amount t (su_in_assets su) <> amount t (su_out_assets su))
                 (elements (dom (su_in_assets su)) ++ elements (dom (su_out_assets su))))) as [X|X].
      * apply Exists_exists in X as (t & _ & X). eauto.
      * exfalso. apply not_true_iff_false in B. apply B. apply are_assets_balanced_spec; try assumption.
        intro t. destruct (decide (amount t (su_in_assets su) = amount t (su_out_assets su))) as [|n]; [assumption|].
        exfalso. apply X, Exists_exists. exists t. split; [|exact n]. rewrite elem_of_app, !elem_of_elements, !elem_of_dom.
        unfold amount in n. destruct (su_in_assets su !! t); [left; eauto|]. destruct (su_out_assets su !! t); [right; eauto|].
        contradiction.
Qed.

(** how the balancers are used after a selection: the inputs chosen by it become fixed inputs *)
Definition after (sel : selection) (change : option string) : setup :=
  Setup (se_in sel) (se_in_assets sel) (se_out sel) (se_out_assets sel)
        (se_fixed_in sel ++ se_chosen sel) (se_fixed_out sel) change.

Lemma value_out_app a b : value_out (a ++ b) = value_out a + value_out b.
Proof. unfold value_out. rewrite map_app. apply sumZ_app. Qed.
Lemma token_out_app t a b : token_out t (a ++ b) = token_out t a + token_out t b.
Proof. unfold token_out. rewrite map_app. apply sumZ_app. Qed.
Lemma value_in_nonneg us : Forall nonneg_in us -> 0 <= value_in us.
Proof. unfold value_in. induction 1 as [|u us [Hv _] _ IH]; [reflexivity|]. cbn [map]. unfold sumZ in *. cbn [foldr]. lia. Qed.
Lemma value_out_nonneg us : Forall nonneg_out us -> 0 <= value_out us.
Proof. unfold value_out. induction 1 as [|u us [Hv _] _ IH]; [reflexivity|]. cbn [map]. unfold sumZ in *. cbn [foldr]. lia. Qed.
Lemma token_out_nonneg t us : Forall nonneg_out us -> 0 <= token_out t us.
Proof. unfold token_out. induction 1 as [|u us [_ Ha] _ IH]; [reflexivity|]. cbn [map]. unfold sumZ in *. cbn [foldr].
  assert (X := held_nonneg t _ Ha). lia. Qed.
Lemma nonneg_of_amounts m : (forall t, 0 <= amount t m) -> nonneg_table m.
Proof. intros H t a L. specialize (H t). unfold amount in H. rewrite L in H. exact H. Qed.
Lemma filed_from_fixed_in ins outs c : filed (su_in_assets (from_fixed ins outs c)).
Proof. cbn. rewrite fold_tables. apply filed_add_assets, filed_empty. Qed.

(** amounts that no sensible output lists: the main token as an asset *)
Definition no_main_in (u : utxo) : Prop := held MAIN (u_assets u) = 0.
Definition no_main_out (o : uout) : Prop := held MAIN (o_assets o) = 0.
Lemma token_in_no_main us : Forall no_main_in us -> token_in MAIN us = 0.
Proof. intro H. apply token_in_zero. intros u Hu. rewrite Forall_forall in H. apply H, Hu. Qed.
Lemma token_out_no_main us : Forall no_main_out us -> token_out MAIN us = 0.
Proof. unfold token_out. induction 1 as [|u us Hu _ IH]; [reflexivity|]. cbn [map]. unfold sumZ in *. cbn [foldr].
  unfold no_main_out in Hu. lia. Qed.

(** The whole way: a setup from fixed inputs and outputs, largest-first, then the fee balancer: the outputs and inputs
    of the transaction, the chosen ones included, balance exactly. *)
Theorem C42_pipeline {E} (est : estimator E) enum ord h ins outs c e st' e1 sel e2 s :
  (forall n, fair (enum n)) -> fair_t ord -> Forall wf_op h -> Forall nonneg_in (unspent h) -> fees_nonneg est ->
  Forall nonneg_in ins -> Forall nonneg_out outs -> Forall no_main_in ins -> Forall no_main_out outs ->
  lf_select est enum ord (final h) e (from_fixed ins outs c) = (st', SDone (e1, sel)) ->
  fee_balance est ord e1 (after sel c) = SDone (e2, s) ->
  are_utxos_balanced ord s = true /\
  value_in (ins ++ se_chosen sel) = value_out outs + se_fee s /\
  forall t, t <> MAIN -> token_in t (ins ++ se_chosen sel) = token_out t outs.
Proof.
  intros He Ho Hw Hn Hest Hi Hou Hmi Hmo L F.
  destruct (C39_totals ins outs c) as (T1 & T2 & T3 & T4 & _ & _ & T5 & T6 & _).
  assert (Hout : 0 <= su_out (from_fixed ins outs c)) by (rewrite T2; apply value_out_nonneg, Hou).
  destruct (C40_selected est enum ord h e _ st' e1 sel He Ho Hw Hn Hest Hout L)
    as (_ & P & _ & I & A & O1 & O2 & O3 & O4 & _ & _ & _ & M).
  assert (Hc : Forall nonneg_in (se_chosen sel)).
  { apply Forall_forall. intros u Hu. rewrite Forall_forall in Hn. apply Hn. rewrite <- P, elem_of_app. auto. }
  assert (Hcm : Forall no_main_in (se_chosen sel)).
  { apply Forall_forall. intros u Hu. apply held_main, (unspent_wf h Hw). rewrite <- P, elem_of_app. auto. }
  assert (NI : nonneg_table (se_in_assets sel)).
  { apply nonneg_of_amounts. intro t. rewrite A, T3. assert (X := token_in_nonneg t _ Hi). assert (Y := token_in_nonneg t _ Hc). lia. }
  assert (NO : nonneg_table (se_out_assets sel)).
  { apply nonneg_of_amounts. intro t. rewrite O2, T4. apply token_out_nonneg, Hou. }
  assert (Hout' : 0 <= su_out (after sel c)) by (cbn [after su_out]; rewrite O1; exact Hout).
  assert (S := C42_fee_change est ord e1 (after sel c) Ho NI NO Hout' Hest). rewrite F in S.
  destruct S as (_ & (f & Ff & Hfee) & Eq & Tk & S1 & S2 & S3 & S4 & S5 & S6 & S7 & S8).
  assert (0 <= f) by (apply (proj1 (Hest e1) _ Ff)).
  cbn [after su_in su_in_assets su_out su_out_assets su_fixed_in su_fixed_out] in S1, S2, S3, S4, S5, S6.
  rewrite O3, T5 in S5. rewrite O4, T6 in S6.
  assert (V : value_in (ins ++ se_chosen sel) = value_out outs + se_fee s).
  { rewrite value_in_app. rewrite S1, S3, I, O1, T1, T2 in Eq. lia. }
  assert (K : forall t, token_in t (ins ++ se_chosen sel) = token_out t outs).
  { intro t. rewrite token_in_app. specialize (Tk t). rewrite S2, S4, A, O2, T3, T4 in Tk. exact Tk. }
  split; [|split; [exact V|intros t _; apply K]].
  apply C39_are_utxos_balanced; [exact Ho| | |lia|].
  - rewrite S5, S7, app_nil_r. apply Forall_app. auto.
  - rewrite S6, S8, app_nil_r. exact Hou.
  - rewrite S5, S6, S7, S8, !app_nil_r. split.
    + apply is_balanced_spec; [exact Ho|rewrite S3, O1; exact Hout|lia|rewrite S2; exact NI|rewrite S4; exact NO|].
      split; [exact Eq|exact Tk].
    + split; [|intros t _; apply K]. rewrite (token_in_no_main _ (Forall_app_2 _ _ _ Hmi Hcm)), (token_out_no_main _ Hmo). lia.
Qed.

(** ** C43 one change output *)
Theorem C43_single_change {E} (est : estimator E) ord ordb extra e su e' s :
  fair_t ord -> fair_t ordb -> filed (su_in_assets su) ->
  nonneg_table (su_in_assets su) -> nonneg_table (su_out_assets su) -> 0 <= su_out su -> fees_nonneg est ->
  single_change est ord ordb extra e su = SDone (e', s) ->
  exists c f g,
    se_changes s = [c] /\ su_change su = Some (o_addr c) /\ o_extra c = extra /\
    (* the change holds exactly the excess tokens, each once and with a positive quantity *)
    (forall t, held t (o_assets c) = amount t (su_in_assets su) - amount t (su_out_assets su)) /\
    NoDup (map a_fp (o_assets c)) /\ Forall (fun a => 0 < a_qty a) (o_assets c) /\
    (* the fee: what was required, plus what this output adds *)
    e_min_fee est e = Some f /\
    e_fee_out est e (Uout (o_addr c) (su_in su - su_out su - f) (o_assets c) extra) = Some g /\ se_fee s = f + g /\
    e_add_out est e c = (e', true) /\
    (* inputs = outputs + change + fee *)
    su_in su = su_out su + o_value c + se_fee s /\
    se_in s = su_in su /\ se_out s = su_out su + o_value c /\ se_in_assets s = su_in_assets su /\
    (forall t, amount t (se_out_assets s) = amount t (su_out_assets su) + held t (o_assets c)) /\
    (forall t, amount t (se_in_assets s) = amount t (se_out_assets s)) /\
    se_fixed_in s = su_fixed_in su /\ se_fixed_out s = su_fixed_out su /\ se_chosen s = [].
Proof.
  intros Hf Hfb Hfi Hi Ho Hout Hest H.
  destruct (single_change_spec est ord ordb extra e su e' s Hf Hfb Hfi Hi Ho Hout Hest H)
    as (addr & f & g & c & Ca & F & G & A & E1 & E2 & V & (C1 & C2 & C3 & _) & Hle & Hcov & ->).
  exists c, f, g. cbn [se_changes se_fee se_in se_out se_in_assets se_out_assets se_fixed_in se_fixed_out se_chosen].
  rewrite E1. split; [reflexivity|]. do 8 (split; [first [assumption|reflexivity]|]). split; [exact A|].
  split; [lia|]. do 3 (split; [reflexivity|]). split; [intro t; apply amount_add_assets|]. split; [|auto].
  intro t. rewrite amount_add_assets, C1. lia.
Qed.

(** failure means that there is no change address, that something is short, or that the estimator refused *)
Theorem C43_failure {E} (est : estimator E) ord ordb extra e su : fair_t ord -> fair_t ordb -> filed (su_in_assets su) ->
  nonneg_table (su_in_assets su) -> nonneg_table (su_out_assets su) -> 0 <= su_out su -> fees_nonneg est ->
  match single_change est ord ordb extra e su with
  | SDone _ => True
  | SFail e' =>
      su_change su = None \/ e_min_fee est e = None \/
      (exists t, amount t (su_in_assets su) < amount t (su_out_assets su)) \/
      (exists f, e_min_fee est e = Some f /\ su_in su < su_out su + f) \/
      (exists o, e_fee_out est e o = None) \/ (exists o, e_add_out est e o = (e', false))
  | _ => False
  end.
Proof.
  intros Hf Hfb Hfi Hi Ho Hout Hest. destruct (single_change est ord ordb extra e su) as [r|e'| |] eqn:S; [exact I| | |].
  - eapply single_change_fails; eassumption.
  - apply (proj1 (single_change_no_panic est ord ordb extra e su) S).
  - apply (proj2 (single_change_no_panic est ord ordb extra e su) S).
Qed.

(** the whole way, when the change is not negative *)
Theorem C43_pipeline {E} (est : estimator E) enum ord ordb extra h ins outs c e st' e1 sel e2 s :
  (forall n, fair (enum n)) -> fair_t ord -> fair_t ordb -> Forall wf_op h -> Forall nonneg_in (unspent h) -> fees_nonneg est ->
  Forall nonneg_in ins -> Forall nonneg_out outs -> Forall no_main_in ins -> Forall no_main_out outs ->
  lf_select est enum ord (final h) e (from_fixed ins outs c) = (st', SDone (e1, sel)) ->
  single_change est ord ordb extra e1 (after sel c) = SDone (e2, s) ->
  exists change, se_changes s = [change] /\ c = Some (o_addr change) /\
    value_in (ins ++ se_chosen sel) = value_out (outs ++ [change]) + se_fee s /\
    (forall t, token_in t (ins ++ se_chosen sel) = token_out t (outs ++ [change])) /\
    (0 <= o_value change -> are_utxos_balanced ord s = true).
Proof.
  intros He Ho Hob Hw Hn Hest Hi Hou Hmi Hmo L F.
  assert (Hfil : filed (se_in_assets sel)).
  { eapply lf_select_filed; [exact Ho|apply filed_from_fixed_in| |exact L]. cbn. rewrite fold_tables.
    apply filed_add_assets, filed_empty. }
  destruct (C39_totals ins outs c) as (T1 & T2 & T3 & T4 & _ & _ & T5 & T6 & _).
  assert (Hout : 0 <= su_out (from_fixed ins outs c)) by (rewrite T2; apply value_out_nonneg, Hou).
  destruct (C40_selected est enum ord h e _ st' e1 sel He Ho Hw Hn Hest Hout L)
    as (_ & P & _ & I & A & O1 & O2 & O3 & O4 & _ & _ & _ & M).
  assert (Hc : Forall nonneg_in (se_chosen sel)).
  { apply Forall_forall. intros u Hu. rewrite Forall_forall in Hn. apply Hn. rewrite <- P, elem_of_app. auto. }
  assert (Hcm : Forall no_main_in (se_chosen sel)).
  { apply Forall_forall. intros u Hu. apply held_main, (unspent_wf h Hw). rewrite <- P, elem_of_app. auto. }
  assert (NI : nonneg_table (se_in_assets sel)).
  { apply nonneg_of_amounts. intro t. rewrite A, T3. assert (X := token_in_nonneg t _ Hi). assert (Y := token_in_nonneg t _ Hc). lia. }
  assert (NO : nonneg_table (se_out_assets sel)).
  { apply nonneg_of_amounts. intro t. rewrite O2, T4. apply token_out_nonneg, Hou. }
  assert (Hout' : 0 <= su_out (after sel c)) by (cbn [after su_out]; rewrite O1; exact Hout).
  destruct (C43_single_change est ord ordb extra e1 (after sel c) e2 s Ho Hob Hfil NI NO Hout' Hest F)
    as (ch & f & g & Hch & Ca & Ex & Hh & Hnd & Hpos & Ff & Fg & Fee & _ & Eq & S1 & S3 & S2 & S4 & Tk & S5 & S6 & S7).
  cbn [after su_in su_in_assets su_out su_out_assets su_fixed_in su_fixed_out su_change] in *.
  assert (Hf0 : 0 <= f) by (apply (proj1 (Hest e1) _ Ff)).
  assert (Hg0 : 0 <= g) by (apply (proj2 (proj2 (Hest e1)) _ _ Fg)).
  rewrite O3, T5 in S5. rewrite O4, T6 in S6.
  assert (V : value_in (ins ++ se_chosen sel) = value_out (outs ++ [ch]) + se_fee s).
  { rewrite value_in_app, value_out_app. rewrite I, O1, T1, T2 in Eq. unfold value_out at 2. cbn. lia. }
  assert (K : forall t, token_in t (ins ++ se_chosen sel) = token_out t (outs ++ [ch])).
  { intro t. rewrite token_in_app, token_out_app. specialize (Hh t). rewrite A, O2, T3, T4 in Hh.
    unfold token_out at 2. cbn. lia. }
  exists ch. split; [exact Hch|]. split; [exact Ca|]. split; [exact V|]. split; [exact K|]. intro Hnn.
  assert (Hall : Forall nonneg_out (outs ++ [ch])).
  { apply Forall_app. split; [exact Hou|]. constructor; [|constructor]. split; [exact Hnn|].
    eapply Forall_impl; [exact Hpos|]. cbn. lia. }
  apply C39_are_utxos_balanced; [exact Ho| | |lia|].
  - rewrite S5, S7, app_nil_r. apply Forall_app. auto.
  - rewrite S6, Hch. exact Hall.
  - rewrite S5, S6, S7, Hch, !app_nil_r. split.
    + apply is_balanced_spec; [exact Ho|rewrite S3, O1; lia|lia|rewrite S2; exact NI| |].
      * apply nonneg_of_amounts. intro t. rewrite <- Tk, S2, A, T3.
        assert (X := token_in_nonneg t _ Hi). assert (Y := token_in_nonneg t _ Hc). lia.
      * split; [lia|exact Tk].
    + split; [|intros t _; apply K]. rewrite <- (K MAIN), (token_in_no_main _ (Forall_app_2 _ _ _ Hmi Hcm)). lia.
Qed.

(** ** Cases that meet the hypotheses *)
(** an estimator with a base fee and a fee per input and output (as estimators/thermostat_estimator.rs:109-152) *)
Definition flat (base per_in per_out : Z) : estimator (N * N) :=
  Estimator (fun e => Some (base + per_in * Z.of_N e.1 + per_out * Z.of_N e.2)) (fun _ _ => Some per_in)
    (fun e _ => ((e.1 + 1, e.2)%N, true)) (fun _ _ => Some per_out) (fun e _ => ((e.1, e.2 + 1)%N, true))
    (fun e _ => (e, Some 0)) (fun _ => Some 0%N) (fun _ => Some 100%N).

Definition natural : enumeration := fun m => map_to_list m.
Definition tnatural {A} : torder A := fun m => map_to_list m.
Definition case_u1 := Utxo ("t1", 0%N) "me" 10 [Asset "p" "a" "A" 5] "".
Definition case_u2 := Utxo ("t1", 1%N) "me" 20 [] "".
Definition case_u3 := Utxo ("t2", 0%N) "me" 7 [Asset "p" "a" "A" 3; Asset "p" "b" "B" 2] "".
Definition case_u4 := Utxo ("t3", 0%N) "me" 90 [] "".
Definition case_h := [Insert case_u1; Insert case_u2; Insert case_u3; Insert case_u4; Remove ("t3", 0%N)].
Definition case_out := Uout "you" 15 [Asset "p" "a" "A" 6] None.
Definition case_setup := from_fixed [] [case_out] (Some "me").
Definition case_lf := lf_select (flat 2 1 1) (fun _ => natural) tnatural (final case_h) (0, 1)%N case_setup.

Example C40_case_hyps :
  (forall n, fair ((fun _ : nat => natural) n)) /\ fair_t (@tnatural asset) /\ Forall wf_op case_h /\
  Forall nonneg_in (unspent case_h) /\ 0 <= su_out case_setup.
Proof.
  split; [intros _ m; reflexivity|]. split; [intro m; reflexivity|]. split.
  - repeat constructor; cbn [wf_op]; try (unfold wf_utxo; apply (bool_decide_unpack _); by vm_compute).
  - split; [|vm_compute; discriminate]. change (unspent case_h) with [case_u1; case_u2; case_u3].
    repeat constructor; vm_compute; discriminate.
Qed.
Example C40_case :
  match case_lf with
  | (st', SDone (e', s)) =>
      (map u_ptr (se_chosen s), se_in s, se_fee s, amount "A" (se_in_assets s), amount "B" (se_in_assets s), store_len st', e')
      = ([("t1", 0%N); ("t2", 0%N); ("t1", 1%N)], 37, 6, 8, 2, 0%nat, (3, 1)%N)
  | _ => False
  end.
Proof. vm_compute. reflexivity. Qed.
Example C42_case :
  match case_lf with
  | (_, SDone (e', s)) =>
      (* tokens left over: the fee balancer refuses, the single change output takes them *)
      match fee_balance (flat 2 1 1) tnatural e' (after s (Some "me")) with SFail _ => True | _ => False end /\
      match single_change (flat 2 1 1) tnatural tnatural None e' (after s (Some "me")) with
      | SDone (_, r) =>
          se_changes r = [Uout "me" 15 [Asset "p" "b" "B" 2; Asset "p" "a" "A" 2] None] /\ se_fee r = 7 /\
          are_utxos_balanced tnatural r = true
      | _ => False
      end
  | _ => False
  end.
Proof. vm_compute. auto. Qed.
Example C42_case_success :
  match fee_balance (flat 2 1 1) tnatural (1, 1)%N (from_fixed [case_u1] [Uout "you" 3 [Asset "p" "a" "A" 5] None] None) with
  | SDone (_, r) => se_fee r = 7 /\ are_utxos_balanced tnatural r = true
  | _ => False
  end.
Proof. vm_compute. auto. Qed.
Example C41_case :
  match snd (lf_select (flat 2 1 1) (fun _ => natural) tnatural (final case_h) (0, 1)%N (from_fixed [] [Uout "you" 24 [] None] None)),
        snd (lf_select (flat 2 1 1) (fun _ => natural) tnatural (final case_h) (0, 1)%N (from_fixed [] [Uout "you" 34 [] None] None)) with
  | SDone (_, s), SFail _ => map u_ptr (se_chosen s) = [("t1", 1%N); ("t1", 0%N)]
  | _, _ => False
  end.
Proof. vm_compute. reflexivity. Qed.

Lemma flat_ok base per_in per_out : 0 <= base -> 0 <= per_in -> 0 <= per_out ->
  inputs_ok (flat base per_in per_out) /\ fees_nonneg (flat base per_in per_out) /\
  (forall e u, e_fee_in (flat base per_in per_out) e u = Some per_in) /\
  (forall e u, snd (e_add_in (flat base per_in per_out) e u) = true).
Proof.
  intros. split; [intro e; split; [cbn; eauto|]; intro u; cbn; eauto|]. split; [|split; reflexivity].
  intro e. cbn. split; [|split]; intros; match goal with H : Some _ = Some _ |- _ => injection H as <- end; lia.
Qed.

(** ** What does not hold *)
(** The change of the single-output balancer can be negative: when the excess is smaller than the fee of the change
    output itself, it is subtracted all the same (balance_change_single_output.rs:112-113). *)
Theorem C43_change_not_negative_refuted :
  exists (est : estimator (N * N)) e su r c, fees_nonneg est /\
    filed (su_in_assets su) /\ nonneg_table (su_in_assets su) /\ nonneg_table (su_out_assets su) /\ 0 <= su_out su /\
    single_change est tnatural tnatural None e su = SDone r /\ se_changes r.2 = [c] /\ o_value c < 0.
Proof.
  exists (flat 2 1 5), (1, 1)%N, (from_fixed [case_u2] [Uout "you" 11 [] None] (Some "me")).
  destruct (single_change (flat 2 1 5) tnatural tnatural None (1, 1)%N
              (from_fixed [case_u2] [Uout "you" 11 [] None] (Some "me"))) as [r|?| |] eqn:S;
    [|vm_compute in S; discriminate|vm_compute in S; discriminate|vm_compute in S; discriminate].
  exists r. vm_compute in S. injection S as <-. eexists. split; [apply flat_ok; lia|].
  split; [apply filed_from_fixed_in|]. 
  split. { apply nonneg_of_amounts. intro t. rewrite (proj1 (proj2 (proj2 (C39_totals _ _ _)))). vm_compute. discriminate. }
  split. { apply nonneg_of_amounts. intro t. rewrite (proj1 (proj2 (proj2 (proj2 (C39_totals _ _ _))))). vm_compute. discriminate. }
  split; [vm_compute; discriminate|]. split; [reflexivity|]. split; [reflexivity|]. vm_compute. reflexivity.
Qed.

(** one traversal for all theorems of this file: what the tuple assumes is what any of them assumes *)
Definition all_SelProps := (@C39_totals, @C39_descriptions, @C39_is_balanced, @C39_are_utxos_balanced, @C40_selected, @C40_failure, @C41_fails_only_when_short, @C41_fewest, @C41_succeeds_iff, @C42_fee_change, @C42_pipeline, @C43_single_change, @C43_failure, @C43_pipeline, @C43_change_not_negative_refuted).
Print Assumptions all_SelProps.
