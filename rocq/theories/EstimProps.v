(** C46: the fee estimators. *)
From Coq Require Import ZArith Lia Sorting Ascii.
From stdpp Require Import gmap strings list.
From Verif Require Import ValueModel ValueProofs BalanceModel BalanceProofs StoreModel StoreSpec StoreProofs StoreProps SelModel SelSpec SelProofs SelProps ThermoModel ThermoProofs ThermoFeeProofs ThermoExtraProofs ThermoCountProofs ThermoProps EstimModel.
Open Scope Z_scope.

(** ** the specification: what a history of calls should cost *)
Definition inputs_of (l : list ecall) : N := N.of_nat (length (List.filter (fun x => match x with CallInput _ => true | _ => false end) l)).
Definition outputs_of (l : list ecall) : N := N.of_nat (length (List.filter (fun x => match x with CallOutput _ => true | _ => false end) l)).
(** the bytes of metadata: those of the last protocol magic given *)
Definition magic_bytes (l : list ecall) : N :=
  fold_left (fun n x => match x with CallMagic t => N.of_nat (length t) + 5 | _ => n end)%N l 0%N.
Definition no_magic (l : list ecall) : Prop := Forall (fun x => match x with CallMagic _ => False | _ => True end) l.
(** a transaction: 17 bytes and 50 of margin, the script, 108 for each signature, 38 for each input, 151 for each output *)
Definition tx_bytes (script quorum ins outs metadata : N) : N := (67 + script + 108 * quorum + 38 * ins + 151 * outs + metadata)%N.

(** ** proofs *)
Lemma read_shown n : 0 <= n -> read_digits 0 (show_nat n) = Some n /\ show_nat n <> [] /\ head (show_nat n) <> Some "+"%char.
Proof.
  intro H. destruct (show_nat_digits n H) as (es & E & Fd & V & NE). rewrite E. split; [rewrite read_digits_map by exact Fd; congruence|].
  destruct es as [|d es]; [congruence|]. split; [discriminate|]. cbn [map head]. intro Q. injection Q as Q. inversion Fd as [|? ? Hd]; subst.
  unfold is_digit in Hd. unfold digit_char in Q. apply (f_equal nat_of_ascii) in Q. rewrite Ascii.nat_ascii_embedding in Q by lia.
  change (nat_of_ascii "+") with 43%nat in Q. lia.
Qed.
Lemma parse_u64_shown n : parse_u64 (show_nat (Z.of_N n)) = if (n <? 2 ^ 64)%N then Some n else None.
Proof.
  destruct (read_shown (Z.of_N n) ltac:(lia)) as (R & NE & P). unfold parse_u64.
  destruct (show_nat (Z.of_N n)) as [|c t]; [congruence|]. cbn zeta.
  destruct (Ascii.eqb_spec c "+") as [->|_]; [cbn in P; congruence|]. rewrite R, N2Z.id. reflexivity.
Qed.

Lemma big_some n m : big n = Some m <-> m = n /\ (n < 2 ^ 64)%N.
Proof. unfold big, u64_bound. destruct (N.ltb_spec n (2 ^ 64)); split; [intro Q; injection Q as <-; auto|intros [-> _]; reflexivity|discriminate|lia]. Qed.
Lemma big_none n : big n = None <-> (2 ^ 64 <= n)%N.
Proof. unfold big, u64_bound. destruct (N.ltb_spec n (2 ^ 64)); split; [discriminate|lia|auto|reflexivity]. Qed.

Section Est.
  Context (sc : Z) (script_len : plan -> N) (min_ada : uout -> option N).
  Notation new := (estimator_new sc script_len).
  Notation est := (thermostat_estimator sc min_ada).
  Notation calls := (est_calls sc min_ada).

  (** what new gives, when it does not panic *)
  Lemma new_some n p c s : new n p = Some (c, s) -> exists k0 k,
    linear_fee n = Some (k, k0) /\ pr_network c = n /\
    pr_empty c = sc * Z.of_N (k0 + k * (67 + script_len p + 108 * p_quorum p)) /\
    pr_input c = sc * Z.of_N (k * 38) /\ pr_output c = sc * Z.of_N (k * 151) /\
    pr_max c = max_tx_size n /\ pr_size_in c = 38%N /\ pr_size_out c = 151%N /\
    s = Estate 0 (117 + script_len p + 108 * p_quorum p) [] [] ∅.
  Proof.
    unfold estimator_new, assumed_empty_transaction, assumed_cost_native_script, assumed_cost_one_witness, assumed_cost_one_input,
      assumed_cost_one_output, with_fee. destruct (linear_fee n) as [[k k0]|]; [|discriminate].
    unfold big_mul, big_add. destruct (big (k * SIZE_EMPTY)) as [x1|] eqn:E1; [|discriminate]. apply big_some in E1 as [-> _].
    destruct (big (k * SIZE_EMPTY + k0)) as [x2|] eqn:E2; [|discriminate]. apply big_some in E2 as [-> _].
    destruct (big (k * script_len p)) as [x3|] eqn:E3; [|discriminate]. apply big_some in E3 as [-> _].
    destruct (big (k * SIZE_WITNESS)) as [x4|] eqn:E4; [|discriminate]. apply big_some in E4 as [-> _].
    destruct (big (k * SIZE_INPUT)) as [x5|] eqn:E5; [|discriminate]. apply big_some in E5 as [-> _].
    destruct (big (k * SIZE_OUTPUT)) as [x6|] eqn:E6; [|discriminate]. apply big_some in E6 as [-> _].
    intro H. injection H as <- <-. exists k0, k. cbn [pr_network pr_empty pr_input pr_output pr_max pr_size_in pr_size_out].
    split; [reflexivity|]. split; [reflexivity|]. split; [unfold lovelace; change SIZE_EMPTY with 67%N; change SIZE_WITNESS with 108%N; lia|].
    split; [reflexivity|]. split; [reflexivity|]. split; [reflexivity|]. split; [reflexivity|]. split; [reflexivity|].
    f_equal. unfold estimate_size_overhead. change SIZE_EMPTY with 67%N. change SIZE_WITNESS with 108%N. change ASSUMED_OVERHEAD with 50%N. lia.
  Qed.

  Lemma calls_snoc c x : forall l s, calls c s (l ++ [x]) = match calls c s l with Some s' => est_call sc min_ada c s' x | None => None end.
  Proof.
    induction l as [|y l IH]; intro s; cbn [app est_calls]; [destruct (est_call sc min_ada c s x); reflexivity|].
    destruct (est_call sc min_ada c s y); [apply IH|reflexivity].
  Qed.
  Lemma magic_snoc l x : magic_bytes (l ++ [x]) = match x with CallMagic t => (N.of_nat (length t) + 5)%N | _ => magic_bytes l end.
  Proof. unfold magic_bytes. rewrite fold_left_app. reflexivity. Qed.
  Lemma inputs_snoc l x : inputs_of (l ++ [x]) = (inputs_of l + match x with CallInput _ => 1 | _ => 0 end)%N.
  Proof. unfold inputs_of. rewrite List.filter_app, app_length. destruct x; cbn; lia. Qed.
  Lemma outputs_snoc l x : outputs_of (l ++ [x]) = (outputs_of l + match x with CallOutput _ => 1 | _ => 0 end)%N.
  Proof. unfold outputs_of. rewrite List.filter_app, app_length. destruct x; cbn; lia. Qed.

  Lemma state_after n p c s0 k k0 : new n p = Some (c, s0) -> linear_fee n = Some (k, k0) -> forall l s, calls c s0 l = Some s ->
    N.of_nat (length (es_inputs s)) = inputs_of l /\ N.of_nat (length (es_outputs s)) = outputs_of l /\
    es_metadata s = (k * magic_bytes l)%N /\
    (no_magic l -> es_size s = (117 + script_len p + 108 * p_quorum p + 38 * inputs_of l + 151 * outputs_of l)%N).
  Proof.
    intros Hn Hk. destruct (new_some _ _ _ _ Hn) as (k0' & k' & K & Hnet & _ & _ & _ & _ & S1 & S2 & ->).
    rewrite Hk in K. injection K as <- <-. induction l as [|x l IH] using rev_ind; intros s H.
    - cbn in H. injection H as <-. cbn. repeat split; intros; lia.
    - rewrite calls_snoc in H. destruct (calls c _ l) as [s1|]; [|discriminate]. destruct (IH s1 eq_refl) as (A & B & C & D).
      rewrite inputs_snoc, outputs_snoc, magic_snoc.
      assert (Hm : no_magic (l ++ [x]) -> no_magic l /\ match x with CallMagic _ => False | _ => True end).
      { intro Q. apply Forall_app in Q as [Q1 Q2]. inversion Q2; subst. auto. }
      destruct x as [u|o|o|t]; cbn [est_call thermostat_estimator e_add_in e_add_out e_min_value fst] in H.
      + injection H as <-. cbn [est_add_input es_inputs es_outputs es_metadata es_size]. rewrite app_length. cbn [length].
        split; [lia|]. split; [lia|]. split; [exact C|]. intro Q. apply Hm in Q as [Q _]. specialize (D Q). lia.
      + injection H as <-. cbn [est_add_output es_inputs es_outputs es_metadata es_size]. rewrite app_length. cbn [length].
        split; [lia|]. split; [lia|]. split; [exact C|]. intro Q. apply Hm in Q as [Q _]. specialize (D Q). lia.
      + injection H as <-. split; [lia|]. split; [lia|]. split; [exact C|]. intro Q. apply Hm in Q as [Q _]. specialize (D Q). lia.
      + unfold add_protocol_magic, assumed_cost_metadata_protocol_magic, with_fee in H. rewrite Hnet, Hk in H. unfold big_mul in H.
        destruct (big _) as [v|] eqn:V; [|discriminate]. apply big_some in V as [-> _]. injection H as <-. cbn [es_inputs es_outputs es_metadata es_size].
        split; [lia|]. split; [lia|]. split; [reflexivity|]. intro Q. apply Hm in Q as [_ []].
  Qed.

  (** *** C46 *)
  (** The required fee is the network's constant and its coefficient times the bytes of the transaction. *)
  Theorem C46_fee_formula n p c s0 l s : new n p = Some (c, s0) -> calls c s0 l = Some s ->
    exists coefficient constant, linear_fee n = Some (coefficient, constant) /\
      e_min_fee (est c) s =
        Some (sc * Z.of_N (constant + coefficient * tx_bytes (script_len p) (p_quorum p) (inputs_of l) (outputs_of l) (magic_bytes l))).
  Proof.
    intros Hn H. destruct (new_some _ _ _ _ Hn) as (k0 & k & K & _ & P1 & P2 & P3 & _). exists k, k0. split; [exact K|].
    destruct (state_after _ _ _ _ _ _ Hn K _ _ H) as (A & B & C & _). cbn [thermostat_estimator e_min_fee]. f_equal. unfold est_min_fee, lovelace, tx_bytes.
    rewrite P1, P2, P3, C, <- A, <- B. lia.
  Qed.

  (** The fee announced for an input or an output is what the required fee grows by when it is added. *)
  Theorem C46_announced n p c s0 l s : new n p = Some (c, s0) -> calls c s0 l = Some s ->
    (forall u f, e_fee_in (est c) s u = Some f -> exists before after s',
       calls c s0 (l ++ [CallInput u]) = Some s' /\
       e_min_fee (est c) s = Some before /\ e_min_fee (est c) s' = Some after /\ after = before + f) /\
    (forall o f, e_fee_out (est c) s o = Some f -> exists before after s',
       calls c s0 (l ++ [CallOutput o]) = Some s' /\
       e_min_fee (est c) s = Some before /\ e_min_fee (est c) s' = Some after /\ after = before + f) /\
    (forall u, is_Some (e_fee_in (est c) s u)) /\ (forall o, is_Some (e_fee_out (est c) s o)) /\
    (forall o, e_min_fee (est c) (fst (e_min_value (est c) s o)) = e_min_fee (est c) s).
  Proof.
    intros Hn H. split; [|split; [|split; [|split]]].
    - intros u f F. rewrite calls_snoc, H. cbn in F. injection F as <-. exists (est_min_fee sc c s). eexists. eexists.
      split; [reflexivity|]. split; [reflexivity|]. split; [reflexivity|].
      unfold est_min_fee. cbn [thermostat_estimator e_add_in fst est_add_input es_inputs es_outputs es_metadata]. rewrite app_length. cbn [length]. lia.
    - intros u f F. rewrite calls_snoc, H. cbn in F. injection F as <-. exists (est_min_fee sc c s). eexists. eexists.
      split; [reflexivity|]. split; [reflexivity|]. split; [reflexivity|].
      unfold est_min_fee. cbn [thermostat_estimator e_add_out fst est_add_output es_inputs es_outputs es_metadata]. rewrite app_length. cbn [length]. lia.
    - intro u. cbn. eauto.
    - intro u. cbn. eauto.
    - reflexivity.
  Qed.

  (** The size, as long as no protocol magic is given; and the fee in terms of it: it is charged on all but 50 bytes. *)
  Theorem C46_size n p c s0 l s : new n p = Some (c, s0) -> no_magic l -> calls c s0 l = Some s ->
    e_size (est c) s = Some (50 + tx_bytes (script_len p) (p_quorum p) (inputs_of l) (outputs_of l) 0)%N /\
    e_max (est c) s = Some (max_tx_size n) /\
    exists coefficient constant size, linear_fee n = Some (coefficient, constant) /\ e_size (est c) s = Some size /\
      e_min_fee (est c) s = Some (sc * Z.of_N (constant + coefficient * (size - 50))).
  Proof.
    intros Hn Hm H. destruct (new_some _ _ _ _ Hn) as (k0 & k & K & _ & P1 & P2 & P3 & P4 & _).
    destruct (state_after _ _ _ _ _ _ Hn K _ _ H) as (A & B & C & D). specialize (D Hm).
    assert (M : magic_bytes l = 0%N).
    { clear -Hm. induction l as [|x l IH] using rev_ind; [reflexivity|]. apply Forall_app in Hm as [M1 M2]. rewrite magic_snoc.
      inversion M2; subst. destruct x; [auto|auto|auto|contradiction]. }
    assert (S1 : e_size (est c) s = Some (50 + tx_bytes (script_len p) (p_quorum p) (inputs_of l) (outputs_of l) 0)%N).
    { cbn [thermostat_estimator e_size]. f_equal. unfold tx_bytes. rewrite D. lia. }
    split; [exact S1|]. split; [cbn; congruence|]. exists k, k0. eexists. split; [exact K|]. split; [exact S1|].
    destruct (C46_fee_formula _ _ _ _ _ _ Hn H) as (k' & k0' & K' & ->). rewrite K in K'. injection K' as <- <-. rewrite M. do 4 f_equal. lia.
  Qed.

  (** Nothing depends on the order of the calls. *)
  Theorem C46_any_order n p c s0 l1 l2 s1 s2 : new n p = Some (c, s0) -> no_magic l1 -> l1 ≡ₚ l2 ->
    calls c s0 l1 = Some s1 -> calls c s0 l2 = Some s2 ->
    e_min_fee (est c) s1 = e_min_fee (est c) s2 /\ e_size (est c) s1 = e_size (est c) s2 /\
    (forall u, e_fee_in (est c) s1 u = e_fee_in (est c) s2 u) /\ (forall o, e_fee_out (est c) s1 o = e_fee_out (est c) s2 o) /\
    (forall o, snd (e_min_value (est c) s1 o) = snd (e_min_value (est c) s2 o)).
  Proof.
    intros Hn Hm HP H1 H2.
    assert (F : forall f : ecall -> bool, length (List.filter f l1) = length (List.filter f l2)).
    { intro f. clear -HP. induction HP as [|x l1 l2 HP IH|x y l|l1 l2 l3 HP1 IH1 HP2 IH2]; cbn [List.filter];
        [reflexivity|destruct (f x); cbn; congruence|destruct (f x), (f y); reflexivity|congruence]. }
    assert (Hm2 : no_magic l2) by (unfold no_magic in *; rewrite <- HP; exact Hm).
    destruct (C46_size _ _ _ _ _ _ Hn Hm H1) as (A & _ & k & k0 & z & K & S & Fe).
    destruct (C46_size _ _ _ _ _ _ Hn Hm2 H2) as (A' & _ & k' & k0' & z' & K' & S' & Fe').
    assert (EI : inputs_of l1 = inputs_of l2) by (unfold inputs_of; rewrite F; reflexivity).
    assert (EO : outputs_of l1 = outputs_of l2) by (unfold outputs_of; rewrite F; reflexivity).
    assert (ES : e_size (est c) s1 = e_size (est c) s2) by (rewrite A, A', EI, EO; reflexivity).
    split; [|split; [exact ES|split; [reflexivity|split; reflexivity]]].
    rewrite Fe, Fe'. rewrite K in K'. injection K' as <- <-. rewrite S, S' in ES. injection ES as <-. reflexivity.
  Qed.

  (** Making an estimator fails exactly when a coefficient or constant is not a 64 bit number or an assumed cost is too large
      for one; calls other than for an enormous protocol magic do not fail. *)
  Theorem C46_new_panics n p : new n p = None <->
    match linear_fee n with
    | None => True
    | Some (k, k0) => (2 ^ 64 <= k * 67 + k0 \/ 2 ^ 64 <= k * 151 \/ 2 ^ 64 <= k * script_len p)%N
    end.
  Proof.
    unfold estimator_new, assumed_empty_transaction, assumed_cost_native_script, assumed_cost_one_witness, assumed_cost_one_input,
      assumed_cost_one_output, with_fee. destruct (linear_fee n) as [[k k0]|]; [|tauto].
    unfold big_mul, big_add. change SIZE_EMPTY with 67%N. change SIZE_WITNESS with 108%N. change SIZE_INPUT with 38%N. change SIZE_OUTPUT with 151%N.
    destruct (big (k * 67)) as [x1|] eqn:E1; [apply big_some in E1 as [-> B1]|apply big_none in E1; split; [lia|reflexivity]].
    destruct (big (k * 67 + k0)) as [x2|] eqn:E2; [apply big_some in E2 as [-> B2]|apply big_none in E2; split; [lia|reflexivity]].
    destruct (big (k * script_len p)) as [x3|] eqn:E3; [apply big_some in E3 as [-> B3]|apply big_none in E3; split; [lia|reflexivity]].
    destruct (big (k * 108)) as [x4|] eqn:E4; [apply big_some in E4 as [-> B4]|apply big_none in E4; split; [lia|reflexivity]].
    destruct (big (k * 38)) as [x5|] eqn:E5; [apply big_some in E5 as [-> B5]|apply big_none in E5; split; [lia|reflexivity]].
    destruct (big (k * 151)) as [x6|] eqn:E6; [apply big_some in E6 as [-> B6]|apply big_none in E6; split; [lia|reflexivity]].
    split; [discriminate|lia].
  Qed.
  Theorem C46_calls_panic n p c s0 l k k0 : new n p = Some (c, s0) -> linear_fee n = Some (k, k0) ->
    calls c s0 l = None <-> exists t, CallMagic t ∈ l /\ (2 ^ 64 <= k * (N.of_nat (length t) + 5))%N.
  Proof.
    intros Hn Hk. destruct (new_some _ _ _ _ Hn) as (k0' & k' & K & Hnet & _). rewrite Hk in K. injection K as <- <-. clear Hn.
    revert s0. induction l as [|x l IH]; intro s; cbn [est_calls].
    - split; [discriminate|]. intros (t & Q & _). inversion Q.
    - assert (M : forall t, add_protocol_magic c s t = None <-> (2 ^ 64 <= k * (N.of_nat (length t) + 5))%N).
      { intro t. unfold add_protocol_magic, assumed_cost_metadata_protocol_magic, with_fee. rewrite Hnet, Hk. unfold big_mul.
        destruct (big _) as [v|] eqn:V; [apply big_some in V; split; [discriminate|lia]|apply big_none in V; tauto]. }
      destruct (est_call sc min_ada c s x) as [s1|] eqn:C.
      + rewrite IH. split; intros (t & Q & B); exists t; (split; [|exact B]); [right; exact Q|].
        apply elem_of_cons in Q as [<-|Q]; [|exact Q]. cbn in C. apply M in B. congruence.
      + split; [|reflexivity]. intros _. destruct x as [u|o|o|t]; cbn in C; try discriminate. exists t. split; [left|]. apply M, C.
  Qed.

  (** The estimator has the fixed prices that C45 asks for. *)
  Theorem C46_fixed_prices n p c s0 : 0 < sc -> new n p = Some (c, s0) -> exists coefficient constant,
    linear_fee n = Some (coefficient, constant) /\
    linear (est c) (sc * Z.of_N (coefficient * 38)) (sc * Z.of_N (coefficient * 151)) /\ sized (est c) 38 151 (max_tx_size n) /\
    (forall e u f, e_fee_in (est c) e u = Some f -> 0 <= f) /\ (forall e o f, e_fee_out (est c) e o = Some f -> 0 <= f) /\
    (forall e o e' v, e_min_value (est c) e o = (e', Some v) -> 0 <= v).
  Proof.
    intros Hsc Hn. destruct (new_some _ _ _ _ Hn) as (k0 & k & K & _ & P1 & P2 & P3 & P4 & P5 & P6 & _). exists k, k0. split; [exact K|].
    split; [|split; [|split; [|split]]].
    - intro e. exists (est_min_fee sc c e). split; [reflexivity|]. split; [|split; [|reflexivity]].
      + intro u. split; [cbn; congruence|]. eexists. split; [reflexivity|]. cbn [thermostat_estimator e_min_fee]. f_equal.
        unfold est_min_fee. cbn [est_add_input es_inputs es_outputs es_metadata]. rewrite app_length. cbn [length]. lia.
      + intro o. split; [cbn; congruence|]. eexists. split; [reflexivity|]. cbn [thermostat_estimator e_min_fee]. f_equal.
        unfold est_min_fee. cbn [est_add_output es_inputs es_outputs es_metadata]. rewrite app_length. cbn [length]. lia.
    - intro e. exists (es_size e). split; [reflexivity|]. split; [cbn; congruence|]. split; [|split; [|reflexivity]].
      + intro u. cbn. congruence.
      + intro o. cbn. congruence.
    - intros e u f F. cbn in F. injection F as <-. rewrite P2. lia.
    - intros e u f F. cbn in F. injection F as <-. rewrite P3. lia.
    - intros e o e' v F. cbn in F. destruct (min_ada o) as [w|]; [|discriminate]. injection F as _ <-. unfold lovelace. lia.
  Qed.

  Lemma est_sane n p c s0 cfg h su : 0 < sc -> new n p = Some (c, s0) ->
    0 <= c_min cfg <= c_max cfg -> Forall nonneg_in (unspent h) -> nonneg_setup su -> sane (est c) cfg h su.
  Proof.
    intros Hsc Hn Hc Hnn Hsu. destruct (C46_fixed_prices _ _ _ _ Hsc Hn) as (k' & k0' & _ & _ & _ & N1 & N2 & N3).
    split; [|split; [exact N3|split; [exact Hc|split; [exact Hnn|exact Hsu]]]]. intro x. split; [|split].
    - intros f Q. cbn [thermostat_estimator e_min_fee] in Q. injection Q as <-.
      destruct (new_some _ _ _ _ Hn) as (? & ? & _ & _ & P1 & P2 & P3 & _). unfold est_min_fee, lovelace. rewrite P1, P2, P3. lia.
    - intros u f. apply N1.
    - intros o f. apply N2.
  Qed.

  (** The thermostat with this estimator, paying without tokens out of outputs worth at least what an input costs: it leaves the
      network the price of the transaction it returns, exactly so if there is any change. *)
  Theorem C46_thermostat_fee n p c s0 k k0 enum above chk cfg ord ordb ordc ordv h l e su ut e' r :
    0 < sc -> new n p = Some (c, s0) -> linear_fee n = Some (k, k0) -> calls c s0 l = Some e ->
    fair_t ord -> fair_t ordb -> fair_t ordc -> fair_t ordv -> (forall n, fair (enum n)) -> Forall wf_op h ->
    c_main cfg = MAIN -> 0 <= c_min cfg <= c_max cfg -> Forall nonneg_in (unspent h) -> nonneg_setup su ->
    su_in_assets su = ∅ -> su_out_assets su = ∅ -> Forall (fun u => sc * Z.of_N (k * 38) <= u_value u) (unspent h) ->
    th_select (est c) enum sc above chk cfg ord ordb ordc ordv (final h) e su = (ut, SDone (e', r)) ->
    let bytes := tx_bytes (script_len p) (p_quorum p) (inputs_of l + N.of_nat (length (se_chosen r)))
                          (outputs_of l + N.of_nat (length (se_changes r))) (magic_bytes l) in
    sc * Z.of_N (k0 + k * bytes) <= se_fee r /\ (se_changes r <> [] -> se_fee r = sc * Z.of_N (k0 + k * bytes)).
  Proof.
    intros Hsc Hn Hk Hl Ho Hob Hoc Hov Hf Hw Hm Hc Hnn Hsu E1 E2 Wo T.
    destruct (C46_fixed_prices _ _ _ _ Hsc Hn) as (k' & k0' & K & Li & _). rewrite Hk in K. injection K as <- <-.
    destruct (C46_fee_formula _ _ _ _ _ _ Hn Hl) as (k' & k0' & K & F). rewrite Hk in K. injection K as <- <-.
    assert (Sa := est_sane _ _ _ _ cfg h su Hsc Hn Hc Hnn Hsu).
    assert (X := C45_fee_of_result (est c) enum sc above chk cfg ord ordb ordc ordv h e su ut e' r _ _ _ Hsc Ho Hob Hoc Hov Hf Hw Hm Sa E1 E2 Li Wo F T).
    cbn zeta. match goal with |- ?x <= _ /\ _ => match type of X with ?y <= _ /\ _ => replace x with y; [exact X|] end end.
    unfold tx_bytes. lia.
  Qed.

  (** Which outputs it takes, and that it stops in time: the size it leaves is within the limit if it took more than it needed. *)
  Theorem C46_thermostat_choice n p c s0 k k0 enum above chk cfg ord ordb ordc ordv h l e su ut e' r :
    0 < sc -> new n p = Some (c, s0) -> linear_fee n = Some (k, k0) -> calls c s0 l = Some e -> no_magic l ->
    fair_t ord -> fair_t ordb -> fair_t ordc -> fair_t ordv -> (forall n, fair (enum n)) -> Forall wf_op h ->
    c_main cfg = MAIN -> 0 <= c_min cfg <= c_max cfg -> Forall nonneg_in (unspent h) -> nonneg_setup su ->
    su_in_assets su = ∅ -> su_out_assets su = ∅ -> (9 <= k)%N -> (max_tx_size n < 2 ^ 64)%N ->
    th_select (est c) enum sc above chk cfg ord ordb ordc ordv (final h) e su = (ut, SDone (e', r)) ->
    let left := unspent (spend h (se_chosen r)) in
    (forall u, u ∈ se_chosen r -> u_assets u = []) /\
    StronglySorted (fun u w => u_value w <= u_value u) (se_chosen r) /\
    (forall u w, u ∈ se_chosen r -> w ∈ left -> u_assets w = [] -> u_value w <= u_value u) /\
    ((exists chosen u, se_chosen r = chosen ++ [u] /\
        su_in su + value_in chosen < su_out su + sc * Z.of_N (k0 + k * tx_bytes (script_len p) (p_quorum p) (inputs_of l + N.of_nat (length chosen)) (outputs_of l) 0)) \/
     (c_num cfg <= N.of_nat (length left))%N /\
     (50 + tx_bytes (script_len p) (p_quorum p) (inputs_of l + N.of_nat (length (se_chosen r))) (outputs_of l + N.of_nat (length (se_changes r))) 0
      <= max_tx_size n)%N).
  Proof.
    intros Hsc Hn Hk Hl Hnm Ho Hob Hoc Hov Hf Hw Hm Hc Hnn Hsu E1 E2 H9 Hmx T.
    destruct (C46_fixed_prices _ _ _ _ Hsc Hn) as (k' & k0' & K & Li & Si & _). rewrite Hk in K. injection K as <- <-.
    destruct (C46_size _ _ _ _ _ _ Hn Hnm Hl) as (Z1 & _ & k' & k0' & z & K & Z2 & F). rewrite Hk in K. injection K as <- <-.
    rewrite Z1 in Z2. injection Z2 as <-.
    assert (Sa := est_sane _ _ _ _ cfg h su Hsc Hn Hc Hnn Hsu).
    assert (Hq : (38 + 2 * 151 <= Z.to_N (sc * Z.of_N (k * 38) / sc))%N).
    { rewrite Z.mul_comm, Z.div_mul by lia. lia. }
    destruct (C45_choice (est c) enum sc above chk cfg ord ordb ordc ordv h e su ut e' r _ _ _ 38 151 _ Hsc Ho Hob Hoc Hov Hf Hw Hm Sa E1 E2 Li Si Hmx Hq F T)
      as (A & B & C & D). cbn zeta in *. split; [exact A|]. split; [exact B|]. split; [exact C|].
    destruct D as [(ch & u & D1 & D2)|(D1 & y & D2 & D3)].
    - left. exists ch, u. split; [exact D1|]. unfold tx_bytes in *. nia.
    - right. split; [exact D1|].
      assert (X : counted (est c) (fun x => option_map Z.of_N (e_size (est c) x)) 38 151).
      { intros x f Hx. cbn in Hx. injection Hx as <-. destruct (new_some _ _ _ _ Hn) as (? & ? & _ & _ & _ & _ & _ & _ & P5 & P6 & _). split; [|split; [|split; [|reflexivity]]].
        - intros w x' W. injection W as <-. cbn. f_equal. lia.
        - intros w x' W. discriminate.
        - intros w x' W. injection W as <-. cbn. f_equal. lia. }
      assert (I0 := f_equal (option_map Z.of_N) Z1).
      assert (I := C45_estimator_informed (est c) enum sc above chk cfg ord ordb ordc ordv (final h) e su ut e' r _ _ _ _ Hoc Hov X I0 T).
      cbn beta in I. rewrite D2 in I. cbn in I. injection I as I. unfold tx_bytes in *. lia.
  Qed.
End Est.

(** Mainnet and testnet charge 155381 and 44 a byte and allow 16384 bytes; an estimator for them can always be made, unless the
    script has more than 400 million gigabytes.  Other networks charge what their configuration says. *)
Theorem C46_networks :
  (forall n, n = Mainnet \/ n = Testnet -> linear_fee n = Some (44, 155381)%N /\ max_tx_size n = 16384%N /\
     forall sc script_len p, (script_len p < 2 ^ 58)%N -> is_Some (estimator_new sc script_len n p)) /\
  (forall coefficient constant size, (coefficient < 2 ^ 64)%N -> (constant < 2 ^ 64)%N ->
     linear_fee (Custom (show_nat (Z.of_N coefficient)) (show_nat (Z.of_N constant)) size) = Some (coefficient, constant) /\
     max_tx_size (Custom (show_nat (Z.of_N coefficient)) (show_nat (Z.of_N constant)) size) = size).
Proof.
  split.
  - intros n Hn. assert (L : linear_fee n = Some (44, 155381)%N) by (destruct Hn as [->| ->]; reflexivity).
    split; [exact L|]. split; [destruct Hn as [->| ->]; reflexivity|]. intros sc script_len p Hp.
    destruct (estimator_new sc script_len n p) eqn:E; [eauto|]. apply C46_new_panics in E. rewrite L in E. lia.
  - intros c k size Hc Hk. split; [|reflexivity]. cbn [linear_fee]. rewrite !parse_u64_shown.
    apply N.ltb_lt in Hc, Hk. rewrite Hc, Hk. reflexivity.
Qed.

(** The dummy estimator charges nothing, asks no minimum value, refuses nothing, and any transaction fits. *)
Theorem C46_dummy_free u o : e_min_fee dummy_estimator tt = Some 0 /\ e_fee_in dummy_estimator tt u = Some 0 /\ e_fee_out dummy_estimator tt o = Some 0 /\
  snd (e_add_in dummy_estimator tt u) = true /\ snd (e_add_out dummy_estimator tt o) = true /\ snd (e_min_value dummy_estimator tt o) = Some 0 /\
  exists mx, e_max dummy_estimator tt = Some mx /\ (Z.of_N mx = 2 ^ 64 - 1) /\ e_size dummy_estimator tt = Some 0%N.
Proof. repeat split. eexists. repeat split. Qed.
(** With the dummy estimator the thermostat never succeeds. *)
Theorem C46_dummy_never enum sc above chk cfg ord ordb ordc ordv avail su ut e' r : 0 < sc ->
  th_select dummy_estimator enum sc above chk cfg ord ordb ordc ordv avail tt su <> (ut, SDone (e', r)).
Proof. intro H. apply C45_never_with_free_inputs; [exact H|]. intros e u f F. cbn in F. injection F as <-. exact H. Qed.

(** ** What does not hold *)
(** Giving a protocol magic replaces the size by that of the magic: an estimator can be asked to pay for more bytes than the
    size it reports, whatever it held before. *)
Theorem C46_size_after_magic_refuted sc script_len min_ada n p c s0 l s magic k k0 :
  estimator_new sc script_len n p = Some (c, s0) -> linear_fee n = Some (k, k0) -> est_calls sc min_ada c s0 l = Some s ->
  (k * (N.of_nat (length magic) + 5) < 2 ^ 64)%N ->
  exists s', est_calls sc min_ada c s0 (l ++ [CallMagic magic]) = Some s' /\
    e_size (thermostat_estimator sc min_ada c) s' = Some (N.of_nat (length magic) + 5)%N /\
    e_min_fee (thermostat_estimator sc min_ada c) s' =
      Some (sc * Z.of_N (k0 + k * tx_bytes (script_len p) (p_quorum p) (inputs_of l) (outputs_of l) (N.of_nat (length magic) + 5))).
Proof.
  intros Hn Hk Hl Hb. destruct (est_calls sc min_ada c s0 (l ++ [CallMagic magic])) as [s'|] eqn:C.
  - exists s'. split; [reflexivity|]. split.
    + rewrite calls_snoc, Hl in C. cbn in C. unfold add_protocol_magic in C. destruct (assumed_cost_metadata_protocol_magic _ _); [|discriminate].
      injection C as <-. reflexivity.
    + destruct (C46_fee_formula _ _ _ _ _ _ _ _ _ Hn C) as (k' & k0' & K & ->). rewrite Hk in K. injection K as <- <-.
      rewrite inputs_snoc, outputs_snoc, magic_snoc, !N.add_0_r. reflexivity.
  - apply (C46_calls_panic _ _ _ _ _ _ _ _ _ _ Hn Hk) in C as (t & Q & B). apply elem_of_app in Q as [Q|Q].
    + exfalso. assert (X : est_calls sc min_ada c s0 l = None) by (apply (C46_calls_panic _ _ _ _ _ _ _ _ _ _ Hn Hk); eauto). congruence.
    + apply elem_of_list_singleton in Q. injection Q as ->. lia.
Qed.

(** ** Concrete cases *)
Definition demo_len (p : plan) : N := (12 + 32 * N.of_nat (length (p_keys p)))%N.
Definition demo_plan := Plan 2 ["k1"; "k2"; "k3"].
Definition demo_ada (o : uout) : option N := if bool_decide (o_addr o = "") then None else Some 969750%N.
Definition demo_in := Utxo ("t", 1%N) "me" 1000000 [Asset "p" "a" "A" 5] "".
Definition demo_out := Uout "you" 2000000 [] None.
Definition demo_call := [CallInput demo_in; CallMinValue demo_out; CallOutput demo_out; CallInput demo_in].

Example C46_case : match estimator_new 1 demo_len Mainnet demo_plan with
  | Some (c, s0) => match est_calls 1 demo_ada c s0 demo_call with
    | Some s => e_min_fee (thermostat_estimator 1 demo_ada c) s = Some (155381 + 44 * (67 + 108 + 216 + 76 + 151)) /\
                e_size (thermostat_estimator 1 demo_ada c) s = Some 668%N
    | None => False end
  | None => False end.
Proof. vm_compute. split; reflexivity. Qed.
Example C46_magic_case : match estimator_new 1 demo_len Mainnet demo_plan with
  | Some (c, s0) => match est_calls 1 demo_ada c s0 (demo_call ++ [CallMagic ["a"%char; "b"%char]]) with
    | Some s => e_min_fee (thermostat_estimator 1 demo_ada c) s = Some (155381 + 44 * (67 + 108 + 216 + 76 + 151 + 7)) /\
                e_size (thermostat_estimator 1 demo_ada c) s = Some 7%N
    | None => False end
  | None => False end.
Proof. vm_compute. split; reflexivity. Qed.
Example C46_custom_case : linear_fee (Custom ["4"; "4"] ["1"; "x"] 1000)%char = None /\ linear_fee (Custom ["+"; "4"] ["7"] 1000)%char = Some (4, 7)%N.
Proof. split; reflexivity. Qed.

(** a payment with this estimator that meets the hypotheses of C46_thermostat_fee and C46_thermostat_choice *)
Definition pay_h := [Insert (tu 0 3000000 0); Insert (tu 1 4000000 0); Insert (tu 2 5000000 0); Insert (tu 3 5000000 0)].
Definition pay_su := from_fixed [] [Uout "you" 1000000 [] None] (Some "me").
Example C46_thermostat_case : match estimator_new 1 demo_len Mainnet demo_plan with
  | Some (c, s0) =>
      match est_calls 1 demo_ada c s0 [CallOutput (Uout "you" 1000000 [] None)] with
      | Some e =>
          match th_select (thermostat_estimator 1 demo_ada c) (fun _ => natural) 1 more false (Tconfig 2 2 10 20 MAIN) tnatural tnatural tnatural tnatural
                  (final pay_h) e pay_su with
          | (_, SDone (_, r)) => length (se_chosen r) = 2%nat /\ length (se_changes r) = 2%nat /\
                                 se_fee r = 155381 + 44 * (67 + 108 + 216 + 38 * 2 + 151 * 3)
          | _ => False
          end
      | None => False end
  | None => False end /\ Forall wf_op pay_h /\ Forall nonneg_in (unspent pay_h) /\ nonneg_setup pay_su /\
  Forall (fun u => 1 * Z.of_N (44 * 38) <= u_value u) (unspent pay_h) /\ su_in_assets pay_su = ∅ /\ su_out_assets pay_su = ∅.
Proof.
  split; [vm_compute; repeat split; reflexivity|].
  split; [unfold pay_h; repeat (apply Forall_cons; split; [apply wf_tu|]); apply Forall_nil; exact I|].
  change (unspent pay_h) with [tu 0 3000000 0; tu 1 4000000 0; tu 2 5000000 0; tu 3 5000000 0].
  split; [repeat (apply Forall_cons; split; [apply nonneg_tu; lia|]); apply Forall_nil; exact I|].
  split; [apply nonneg_totals; [constructor|repeat (constructor; cbn; try lia)]|].
  split; [repeat (apply Forall_cons; split; [cbn; lia|]); apply Forall_nil; exact I|]. split; reflexivity.
Qed.

Print Assumptions C46_fee_formula.
Print Assumptions C46_announced.
Print Assumptions C46_size.
Print Assumptions C46_any_order.
Print Assumptions C46_new_panics.
Print Assumptions C46_calls_panic.
Print Assumptions C46_fixed_prices.
Print Assumptions C46_thermostat_fee.
Print Assumptions C46_thermostat_choice.
Print Assumptions C46_networks.
Print Assumptions C46_dummy_free.
Print Assumptions C46_dummy_never.
Print Assumptions C46_size_after_magic_refuted.
