(** C42, C43 and C46: when selecting inputs largest first and then balancing the change succeeds, and that the fee of the result is
    what the estimator requires for it. *)
From Coq Require Import ZArith Lia Sorting.
From stdpp Require Import gmap strings list.
From Verif Require Import ValueModel ValueProofs BalanceModel BalanceProofs StoreModel StoreSpec StoreProofs StoreProps SelModel SelSpec SelProofs SelChangeProofs SelLargestProofs SelFewestProofs SelProps ThermoModel ThermoProofs ThermoFeeProofs ThermoExtraProofs ThermoCountProofs ThermoProps EstimModel EstimProps.
Open Scope Z_scope.

(** no tokens anywhere *)
Definition plain_in (u : utxo) : Prop := u_assets u = [].
Definition plain_out (o : uout) : Prop := o_assets o = [].

Lemma linear_ok {E} (est : estimator E) a b : linear est a b ->
  inputs_ok est /\ (forall e u, e_fee_in est e u = Some a) /\ (forall e u, snd (e_add_in est e u) = true).
Proof.
  intro L. split; [|split].
  - intro e. destruct (L e) as (f & F & Hi & _). split; [by eexists|]. intro u. destruct (Hi u) as (A & e' & B & _). split; [by eexists|]. by rewrite B.
  - intros e u. destruct (L e) as (f & _ & Hi & _). apply Hi.
  - intros e u. destruct (L e) as (f & _ & Hi & _). destruct (Hi u) as (_ & e' & -> & _). reflexivity.
Qed.
Lemma linear_charge {E} (est : estimator E) a b : linear est a b -> forall us e e' g f, charge est e us = Some (e', g) -> e_min_fee est e = Some f ->
  g = a * Z.of_nat (length us) /\ e_min_fee est e' = Some (f + g).
Proof.
  intro L. induction us as [|u us IH]; intros e e' g f C F; cbn [charge] in C.
  - injection C as <- <-. rewrite F, Z.add_0_r. cbn. split; [lia|reflexivity].
  - destruct (L e) as (f' & F' & Hi & _). rewrite F in F'. injection F' as <-. destruct (Hi u) as (A & e1 & B & D). rewrite A, B in C.
    destruct (charge est e1 us) as [[e2 g2]|] eqn:C2; [|discriminate]. injection C as <- <-. destruct (IH _ _ _ _ C2 D) as [-> ->].
    split; [cbn [length]; lia|f_equal; lia].
Qed.
Lemma token_in_plain t us : Forall plain_in us -> token_in t us = 0.
Proof. intro H. apply token_in_zero. intros u Hu. rewrite Forall_forall in H. by rewrite (H u Hu). Qed.
Lemma token_out_plain t us : Forall plain_out us -> token_out t us = 0.
Proof. unfold token_out. induction 1 as [|u us Hu _ IH]; [reflexivity|]. cbn [map]. unfold sumZ in *. cbn [foldr]. rewrite Hu. cbn. lia. Qed.
Lemma plain_table us : Forall plain_out us -> foldl (fun m o => add_assets m (o_assets o)) ∅ us = ∅.
Proof. induction 1 as [|u us Hu _ IH]; [reflexivity|]. cbn. rewrite Hu. exact IH. Qed.

Section Pipeline.
  Context {E : Type} (est : estimator E) (enum : nat -> enumeration) (ord : torder asset) (ordb : torder (balance Z)) (extra : option string).
  Context (h : list store_op) (ins : list utxo) (outs : list uout) (e : E) (base a b : Z).
  Context (He : forall n, fair (enum n)) (Ho : fair_t ord) (Hob : fair_t ordb) (Hw : Forall wf_op h) (Hn : Forall nonneg_in (unspent h)).
  Context (Hest : fees_nonneg est) (Hi : Forall nonneg_in ins) (Hou : Forall nonneg_out outs) (Hli : linear est a b) (Hb : e_min_fee est e = Some base).
  Notation select c := (lf_select est enum ord (final h) e (from_fixed ins outs c)).

  Lemma selected_facts c st' e1 sel : select c = (st', SDone (e1, sel)) ->
    e_min_fee est e1 = Some (base + a * Z.of_nat (length (se_chosen sel))) /\ se_chosen sel ⊆+ unspent h /\
    se_in sel = value_in (ins ++ se_chosen sel) /\ se_out sel = value_out outs /\
    (forall t, amount t (se_in_assets sel) = token_in t (ins ++ se_chosen sel)) /\ (forall t, amount t (se_out_assets sel) = token_out t outs) /\
    value_out outs + base + a * Z.of_nat (length (se_chosen sel)) <= value_in (ins ++ se_chosen sel) /\
    (forall t, token_out t outs <= token_in t (ins ++ se_chosen sel)) /\
    nonneg_table (se_in_assets sel) /\ nonneg_table (se_out_assets sel) /\ 0 <= se_out sel /\ filed (se_in_assets sel).
  Proof.
    intro L. destruct (C39_totals ins outs c) as (T1 & T2 & T3 & T4 & _ & _ & T5 & T6 & _).
    assert (Hout : 0 <= su_out (from_fixed ins outs c)) by (rewrite T2; apply value_out_nonneg, Hou).
    destruct (C40_selected est enum ord h e _ st' e1 sel He Ho Hw Hn Hest Hout L)
      as (_ & P & _ & I & A & O1 & O2 & O3 & O4 & _ & (fee0 & g & F & C & Fee) & Cov & M).
    rewrite Hb in F. injection F as <-. destruct (linear_charge est a b Hli _ _ _ _ _ C Hb) as [-> F1].
    assert (Hc : Forall nonneg_in (se_chosen sel)).
    { apply Forall_forall. intros u Hu. rewrite Forall_forall in Hn. apply Hn. rewrite <- P, elem_of_app. auto. }
    assert (At : forall t, amount t (se_in_assets sel) = token_in t (ins ++ se_chosen sel)) by (intro t; rewrite A, T3, token_in_app; reflexivity).
    assert (Ot : forall t, amount t (se_out_assets sel) = token_out t outs) by (intro t; rewrite O2, T4; reflexivity).
    assert (Nt : forall t, 0 <= token_in t (ins ++ se_chosen sel)) by (intro t; apply token_in_nonneg, Forall_app; auto).
    split; [exact F1|]. split; [rewrite <- P; apply submseteq_inserts_r; reflexivity|]. split; [rewrite I, T1, value_in_app; reflexivity|].
    split; [rewrite O1; exact T2|]. split; [exact At|]. split; [exact Ot|]. split; [rewrite value_in_app, <- T1, <- T2; lia|].
    split; [|split; [apply nonneg_of_amounts; intro t; rewrite At; apply Nt|split; [apply nonneg_of_amounts; intro t; rewrite Ot; apply token_out_nonneg, Hou|split; [rewrite O1; exact Hout|]]]].
    - intro t. rewrite <- At, <- Ot. destruct (decide (t ∈ dom (su_out_assets (from_fixed ins outs c)))) as [Hd|Hd].
      + rewrite O2. apply Cov, Hd.
      + rewrite O2. unfold amount at 1. apply not_elem_of_dom in Hd. rewrite Hd, At. apply Nt.
    - eapply lf_select_filed; [exact Ho|apply filed_from_fixed_in| |exact L]. cbn. rewrite fold_tables. apply filed_add_assets, filed_empty.
  Qed.

  (** With fixed prices, the single change output can always be made for what was selected. *)
  Theorem C43_change_follows addr st' e1 sel : select (Some addr) = (st', SDone (e1, sel)) ->
    exists e2 s ch, single_change est ord ordb extra e1 (after sel (Some addr)) = SDone (e2, s) /\ se_changes s = [ch] /\ o_addr ch = addr /\
      se_fee s = base + a * Z.of_nat (length (se_chosen sel)) + b /\ e_min_fee est e2 = Some (se_fee s) /\
      value_in (ins ++ se_chosen sel) = value_out (outs ++ [ch]) + se_fee s /\ (forall t, token_in t (ins ++ se_chosen sel) = token_out t (outs ++ [ch])).
  Proof.
    intro L. destruct (selected_facts _ _ _ _ L) as (F1 & _ & I & O & At & Ot & Cv & Ct & NI & NO & Hout & Fi).
    assert (X := C43_failure est ord ordb extra e1 (after sel (Some addr)) Ho Hob Fi NI NO Hout Hest).
    destruct (single_change est ord ordb extra e1 (after sel (Some addr))) as [[e2 s]|e'| |] eqn:S; try contradiction.
    - destruct (C43_single_change est ord ordb extra e1 (after sel (Some addr)) e2 s Ho Hob Fi NI NO Hout Hest S)
        as (ch & f & g & Hch & Ca & _ & Hh & _ & _ & Ff & Fg & Fee & Ad & Eq & _).
      cbn [after su_in su_out su_in_assets su_out_assets su_change] in *. rewrite F1 in Ff. injection Ff as <-.
      destruct (Hli e1) as (f' & F' & _ & Hob' & _). rewrite F1 in F'. injection F' as <-.
      destruct (Hob' (Uout (o_addr ch) (se_in sel - se_out sel - (base + a * Z.of_nat (length (se_chosen sel)))) (o_assets ch) extra)) as [G _]. rewrite G in Fg. injection Fg as <-.
      destruct (Hob' ch) as (_ & e2' & Ad' & F2). rewrite Ad in Ad'. injection Ad' as <-. injection Ca as ->.
      exists e2, s, ch. split; [reflexivity|]. split; [exact Hch|]. split; [reflexivity|]. split; [exact Fee|]. split; [rewrite F2, Fee; reflexivity|].
      split; [rewrite value_out_app; unfold value_out at 2; cbn; rewrite <- I, <- O; lia|].
      intro t. rewrite token_out_app. unfold token_out at 2. cbn. specialize (Hh t). rewrite At, Ot in Hh. lia.
    - exfalso. cbn [after su_in su_out su_in_assets su_out_assets su_change] in X. destruct X as [X|[X|[(t & X)|[(f & Ff & X)|[(o & X)|(o & X)]]]]].
      + discriminate.
      + congruence.
      + rewrite At, Ot in X. specialize (Ct t). lia.
      + rewrite F1 in Ff. injection Ff as <-. rewrite I, O in X. lia.
      + destruct (Hli e1) as (f' & _ & _ & Q & _). destruct (Q o) as [Q' _]. congruence.
      + destruct (Hli e1) as (f' & _ & _ & Q & _). destruct (Q o) as (_ & e2 & Q' & _). congruence.
  Qed.

  (** Given enough of everything, the two steps succeed, the transaction balances, and its fee is what the estimator requires. *)
  Theorem C43_succeeds addr :
    (forall t, token_out t outs <= token_in t (ins ++ unspent h)) ->
    value_out outs + base + a * Z.of_nat (length (unspent h)) <= value_in (ins ++ unspent h) ->
    exists st' e1 sel e2 s ch, select (Some addr) = (st', SDone (e1, sel)) /\
      single_change est ord ordb extra e1 (after sel (Some addr)) = SDone (e2, s) /\ se_changes s = [ch] /\ o_addr ch = addr /\
      se_fee s = base + a * Z.of_nat (length (se_chosen sel)) + b /\ e_min_fee est e2 = Some (se_fee s) /\
      value_in (ins ++ se_chosen sel) = value_out (outs ++ [ch]) + se_fee s /\ (forall t, token_in t (ins ++ se_chosen sel) = token_out t (outs ++ [ch])).
  Proof.
    intros Ht Hv. destruct (C39_totals ins outs (Some addr)) as (T1 & T2 & T3 & T4 & _ & _ & T5 & T6 & _).
    assert (Hout : 0 <= su_out (from_fixed ins outs (Some addr))) by (rewrite T2; apply value_out_nonneg, Hou).
    destruct (linear_ok est a b Hli) as (Hok & _ & _).
    assert (X := C40_failure est enum ord h e (from_fixed ins outs (Some addr)) He Ho Hw Hn Hest Hout).
    destruct (select (Some addr)) as [st' [[e1 sel]|e'| |]] eqn:L; try contradiction.
    - destruct (C43_change_follows addr st' e1 sel L) as (e2 & s & ch & R). exists st', e1, sel, e2, s, ch. auto.
    - exfalso. destruct (C41_fails_only_when_short est enum ord h e _ st' e' He Ho Hw Hn Hest Hok Hout L) as [(t & _ & S)|(order & fee0 & g & P & F & C & S)].
      + rewrite T3, T4 in S. specialize (Ht t). rewrite token_in_app in Ht. lia.
      + rewrite Hb in F. injection F as <-. destruct (linear_charge est a b Hli _ _ _ _ _ C Hb) as [-> _]. rewrite (Permutation_length P), T1, T2 in S.
        rewrite value_in_app in Hv. lia.
  Qed.

  (** Without tokens, each of the two ways succeeds exactly when some of the available outputs suffice. *)
  Theorem C43_succeeds_iff addr : Forall plain_out outs ->
    (exists st' e1 sel e2 s, select (Some addr) = (st', SDone (e1, sel)) /\ single_change est ord ordb extra e1 (after sel (Some addr)) = SDone (e2, s)) <->
    exists S, S ⊆+ unspent h /\ value_out outs + base + a * Z.of_nat (length S) <= value_in (ins ++ S).
  Proof.
    intro Po. destruct (C39_totals ins outs (Some addr)) as (T1 & T2 & _). destruct (linear_ok est a b Hli) as (_ & Hin & Hadd).
    assert (Hout : 0 <= su_out (from_fixed ins outs (Some addr))) by (rewrite T2; apply value_out_nonneg, Hou).
    assert (Hno : su_out_assets (from_fixed ins outs (Some addr)) = ∅) by (cbn; apply plain_table, Po).
    assert (X := C41_succeeds_iff est enum ord h e _ base a He Ho Hw Hn Hest Hout Hno Hb Hin Hadd). rewrite T1, T2 in X.
    split.
    - intros (st' & e1 & sel & e2 & s & L & _). destruct X as [X _]. destruct X as (S & HS & Hle); [rewrite L; cbn; eauto|].
      exists S. rewrite value_in_app. split; [exact HS|lia].
    - intros (S & HS & Hle). destruct X as [_ X]. destruct X as [[e1 sel] R]. { exists S. rewrite value_in_app in Hle. auto. }
      destruct (select (Some addr)) as [st' r] eqn:L. cbn in R. subst r. destruct (C43_change_follows addr st' e1 sel L) as (e2 & s & ch & Q & _). eauto 10.
  Qed.

  Theorem C42_succeeds_iff c : Forall plain_in ins -> Forall plain_in (unspent h) -> Forall plain_out outs ->
    (exists st' e1 sel e2 s, select c = (st', SDone (e1, sel)) /\ fee_balance est ord e1 (after sel c) = SDone (e2, s)) <->
    exists S, S ⊆+ unspent h /\ value_out outs + base + a * Z.of_nat (length S) <= value_in (ins ++ S).
  Proof.
    intros Pi Pu Po. destruct (C39_totals ins outs c) as (T1 & T2 & _). destruct (linear_ok est a b Hli) as (_ & Hin & Hadd).
    assert (Hout : 0 <= su_out (from_fixed ins outs c)) by (rewrite T2; apply value_out_nonneg, Hou).
    assert (Hno : su_out_assets (from_fixed ins outs c) = ∅) by (cbn; apply plain_table, Po).
    assert (X := C41_succeeds_iff est enum ord h e _ base a He Ho Hw Hn Hest Hout Hno Hb Hin Hadd). rewrite T1, T2 in X.
    split.
    - intros (st' & e1 & sel & e2 & s & L & _). destruct X as [X _]. destruct X as (S & HS & Hle); [rewrite L; cbn; eauto|].
      exists S. rewrite value_in_app. split; [exact HS|lia].
    - intros (S & HS & Hle). destruct X as [_ X]. destruct X as [[e1 sel] R]. { exists S. rewrite value_in_app in Hle. auto. }
      destruct (select c) as [st' r] eqn:L. cbn in R. subst r.
      destruct (selected_facts _ _ _ _ L) as (F1 & Sub & I & O & At & Ot & Cv & _ & NI & NO & Ho' & _).
      assert (Pc : Forall plain_in (se_chosen sel)).
      { apply Forall_forall. intros u Hu. rewrite Forall_forall in Pu. apply Pu. eapply elem_of_submseteq; eassumption. }
      assert (Y := C42_fee_change est ord e1 (after sel c) Ho NI NO Ho' Hest).
      destruct (fee_balance est ord e1 (after sel c)) as [[e2 s]|e'| |] eqn:Q; try contradiction; [eauto 10|].
      exfalso. cbn [after su_in su_out su_in_assets su_out_assets] in Y. destruct Y as [_ [(t & Y)|[Y|(f & Ff & Y)]]].
      + apply Y. rewrite At, Ot, (token_out_plain t _ Po). apply token_in_plain, Forall_app. auto.
      + congruence.
      + rewrite F1 in Ff. injection Ff as <-. rewrite I, O in Y. lia.
  Qed.
  (** and the fee is then at least what the estimator requires for the inputs chosen *)
  Theorem C42_fee_suffices c st' e1 sel e2 s : select c = (st', SDone (e1, sel)) -> fee_balance est ord e1 (after sel c) = SDone (e2, s) ->
    e2 = e1 /\ e_min_fee est e2 = Some (base + a * Z.of_nat (length (se_chosen sel))) /\ base + a * Z.of_nat (length (se_chosen sel)) <= se_fee s /\
    se_fee s = value_in (ins ++ se_chosen sel) - value_out outs.
  Proof.
    intros L F. destruct (selected_facts _ _ _ _ L) as (F1 & Sub & I & O & At & Ot & Cv & _ & NI & NO & Ho' & _).
    assert (Y := C42_fee_change est ord e1 (after sel c) Ho NI NO Ho' Hest). rewrite F in Y.
    destruct Y as (-> & (f & Ff & Hle) & Eq & _ & S1 & _ & S3 & _). cbn [after su_in su_out] in S1, S3. rewrite F1 in Ff. injection Ff as <-.
    split; [reflexivity|]. split; [exact F1|]. split; [exact Hle|]. rewrite S1, S3, I, O in Eq. lia.
  Qed.
End Pipeline.

(** With the estimator for a multisignature plan: the fee of the transaction with the change is the network's fee for its assumed size. *)
Theorem C46_single_change_fee sc script_len min_ada n p c s0 k k0 l e enum ord ordb extra h ins outs addr st' e1 sel e2 s :
  0 < sc -> estimator_new sc script_len n p = Some (c, s0) -> linear_fee n = Some (k, k0) -> est_calls sc min_ada c s0 l = Some e ->
  (forall n, fair (enum n)) -> fair_t ord -> fair_t ordb -> Forall wf_op h -> Forall nonneg_in (unspent h) -> Forall nonneg_in ins -> Forall nonneg_out outs ->
  lf_select (thermostat_estimator sc min_ada c) enum ord (final h) e (from_fixed ins outs (Some addr)) = (st', SDone (e1, sel)) ->
  single_change (thermostat_estimator sc min_ada c) ord ordb extra e1 (after sel (Some addr)) = SDone (e2, s) ->
  se_fee s = sc * Z.of_N (k0 + k * tx_bytes (script_len p) (p_quorum p) (inputs_of l + N.of_nat (length (se_chosen sel))) (outputs_of l + 1) (magic_bytes l)).
Proof.
  intros Hsc Hnew Hk Hl He Ho Hob Hw Hn Hi Hou L S.
  destruct (C46_fixed_prices sc script_len min_ada _ _ _ _ Hsc Hnew) as (k' & k0' & K & Li & _ & N1 & N2 & _). rewrite Hk in K. injection K as <- <-.
  destruct (C46_fee_formula sc script_len min_ada _ _ _ _ _ _ Hnew Hl) as (k' & k0' & K & F). rewrite Hk in K. injection K as <- <-.
  assert (Hest : fees_nonneg (thermostat_estimator sc min_ada c)).
  { intro x. split; [|split; [intros; eapply N1; eassumption|intros; eapply N2; eassumption]]. intros f Q. cbn [thermostat_estimator e_min_fee] in Q. injection Q as <-.
    destruct (new_some _ _ _ _ _ _ Hnew) as (? & ? & _ & _ & P1 & P2 & P3 & _). unfold est_min_fee, lovelace. rewrite P1, P2, P3. lia. }
  destruct (C43_change_follows _ enum ord ordb extra h ins outs e _ _ _ He Ho Hob Hw Hn Hest Hi Hou Li F addr st' e1 sel L) as (e2' & s' & ch & S' & _ & _ & Fee & _).
  rewrite S in S'. injection S' as <- <-. rewrite Fee. unfold tx_bytes. lia.
Qed.

(** ** cases *)
Lemma flat_linear base a b : linear (flat base a b) a b.
Proof.
  intro e. eexists. split; [reflexivity|]. split; [|split].
  - intro u. split; [reflexivity|]. eexists. split; [reflexivity|]. cbn. f_equal. lia.
  - intro o. split; [reflexivity|]. eexists. split; [reflexivity|]. cbn. f_equal. lia.
  - reflexivity.
Qed.
Example C43_succeeds_case :
  linear (flat 2 1 1) 1 1 /\ e_min_fee (flat 2 1 1) (0, 1)%N = Some 3 /\ (forall t, token_out t [case_out] <= token_in t ([] ++ unspent case_h)) /\
  value_out [case_out] + 3 + 1 * Z.of_nat (length (unspent case_h)) <= value_in ([] ++ unspent case_h).
Proof.
  split; [apply flat_linear|]. split; [reflexivity|]. change (unspent case_h) with [case_u1; case_u2; case_u3]. split; [|vm_compute; discriminate].
  intro t. destruct (decide (t = "A")) as [->|NA]; [vm_compute; discriminate|]. unfold token_out, token_in, held.
  cbn [map app case_out case_u1 case_u2 case_u3 u_assets o_assets filter list_filter]. unfold sumZ. cbn [foldr].
  repeat case_decide; cbn in *; try congruence; lia.
Qed.
Example C42_succeeds_case : let h := [Insert case_u2; Insert case_u4] in
  Forall plain_in (unspent h) /\ Forall plain_out [Uout "you" 100 [] None] /\ [case_u2; case_u4] ⊆+ unspent h /\ value_out [Uout "you" 100 [] None] + 3 + 1 * 2 <= value_in [case_u2; case_u4].
Proof. cbv zeta. change (unspent [Insert case_u2; Insert case_u4]) with [case_u2; case_u4]. split; [repeat constructor|]. split; [repeat constructor|]. split; [reflexivity|vm_compute; discriminate]. Qed.

Definition all_PipelineProps := (@C43_change_follows, @C43_succeeds, @C43_succeeds_iff, @C42_succeeds_iff, @C42_fee_suffices, @C46_single_change_fee).
Print Assumptions all_PipelineProps.
