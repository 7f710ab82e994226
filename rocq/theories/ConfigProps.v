(** Property C56: a configuration document is read exactly: accepted documents and the values they give are determined. *)
From Coq Require Import ZArith NArith QArith Ascii String Lia.
From stdpp Require Import prelude numbers strings list.
From Verif Require Import ValueModel ValueSpec EstimModel TimeModel UtilModel JsonModel MultisigModel JsonSpec JsonProofs ConfigModel ConfigSpec ConfigProofs.
Open Scope Z_scope.

(** ** Eras *)
Theorem C56_era : forall j first start time slot epoch,
  era_of_json j = Some (Era first start time slot epoch) <->
  document ["first_slot"; "start_epoch"; "known_time"; "slot_length"; "epoch_length_seconds"]%string false
    [JInt (Z.of_N first); JInt (Z.of_N start); JInt (Z.of_N time); JInt (Z.of_N slot); JInt (Z.of_N epoch)] j /\
  u64 first /\ u64 start /\ u64 time /\ u64 slot /\ u64 epoch.
Proof.
  intros. rewrite era_doc. cbn [first_slot start_epoch known_time slot_length epoch_length_seconds]. split.
  - intros (a & b & c & d & f & D & A & B & C & F & G). apply read_u64_spec in A, B, C, F, G. destruct A as [-> ?], B as [-> ?], C as [-> ?], F as [-> ?], G as [-> ?].
    split; [exact D|tauto].
  - intros (D & A & B & C & F & G). eexists _, _, _, _, _. split; [exact D|]. rewrite !read_u64_spec. tauto.
Qed.

(** ** The configuration of the thermostat *)
Theorem C56_thermostat : forall j num assets lo hi main,
  thermostat_of_json j = Some (TDocument num assets lo hi main) <->
  exists jlo jhi,
    document ["num_accumulators"; "num_accumulators_assets"; "native_utxo_thermostat_min"; "native_utxo_thermostat_max"; "main_token"]%string true
      [JInt (Z.of_N num); JInt (Z.of_N assets); jlo; jhi; JStr main] j /\
    u64 num /\ u64 assets /\ is_amount jlo lo /\ is_amount jhi hi.
Proof.
  intros. rewrite thermostat_doc. cbn [td_num td_num_assets td_min td_max td_main]. split.
  - intros (a & b & c & d & f & D & A & B & C & F & G). apply read_u64_spec in A, B. apply read_string_spec in G. apply read_value_spec in C, F.
    destruct A as [-> ?], B as [-> ?]. subst. exists c, d. tauto.
  - intros (c & d & D & A & B & C & F). eexists _, _, _, _, _. split; [exact D|]. rewrite !read_u64_spec, !read_value_spec, read_string_spec. tauto.
Qed.

(** ** Networks *)
Theorem C56_network : forall j n,
  net_of_json j = Some n <->
  match n with
  | NTestnet => j = JStr "testnet" \/ j = JObj [("testnet", JNull)]%string
  | NMainnet => j = JStr "mainnet" \/ j = JObj [("mainnet", JNull)]%string
  | NCustom magic id coefficient constant word pool key max_value max_tx =>
      exists fields, j = JObj [("custom", fields)]%string /\
        document ["protocol_magic"; "network_id"; "linear_fee_coefficient"; "linear_fee_constant"; "coins_per_utxo_word"; "pool_deposit"; "key_deposit";
                  "max_value_size"; "max_tx_size"]%string true
          [JInt (Z.of_N magic); JInt (Z.of_N id); JStr coefficient; JStr constant; JStr word; JStr pool; JStr key; JInt (Z.of_N max_value); JInt (Z.of_N max_tx)]
          fields /\
        (magic < 2 ^ 32)%N /\ (id < 2 ^ 8)%N /\ (max_value < 2 ^ 32)%N /\ (max_tx < 2 ^ 32)%N
  end.
Proof.
  intros j n. split.
  - intros H. unfold net_of_json in H. destruct j as [| | | |s| |kvs]; try discriminate H.
    + destruct (String.eqb_spec s "testnet") as [->|]; [injection H as <-; left; reflexivity|].
      destruct (String.eqb_spec s "mainnet") as [->|]; [injection H as <-; left; reflexivity|discriminate].
    + destruct kvs as [|[k v] [|]]; try discriminate H. cbn [tagged] in H.
      destruct (String.eqb_spec k "testnet") as [->|]; [destruct v; try discriminate H; injection H as <-; right; reflexivity|].
      destruct (String.eqb_spec k "mainnet") as [->|]; [destruct v; try discriminate H; injection H as <-; right; reflexivity|].
      destruct (String.eqb_spec k "custom") as [->|]; [|discriminate H].
      apply custom_doc in H. destruct H as (m & i & x & y & w & p & c & u & t & -> & D & B). exists v. split; [reflexivity|]. split; [exact D|exact B].
  - destruct n as [| |m i x y w p c u t]; [intros [->| ->]; reflexivity|intros [->| ->]; reflexivity|].
    intros (f & -> & D & B). cbn. apply custom_doc. eexists _, _, _, _, _, _, _, _, _. split; [reflexivity|]. split; [exact D|exact B].
Qed.

(** what the rest of the library is given for a network: the two known ones have fixed parameters, a custom one exactly those of the
    document *)
Theorem C56_known_parameters : forall main test,
  network_info main test NMainnet = main /\ network_info main test NTestnet = test /\
  (forall n, n = NMainnet \/ n = NTestnet -> transaction_builder n = Some (BuilderArgs (44%N, 155381%N) 34482 (Some 4310%N) 500000000 2000000 5000 16384)).
Proof. intros. split; [reflexivity|]. split; [reflexivity|]. intros n [-> | ->]; reflexivity. Qed.
Theorem C56_custom_parameters : forall magic id coefficient constant word pool key max_value max_tx main test args,
  let n := NCustom magic id coefficient constant word pool key max_value max_tx in
  network_info main test n = (id, magic) /\
  max_tx_size (fee_network n) = max_tx /\
  (transaction_builder n = Some args <->
   exists a b w p k, text_number coefficient (Z.of_N a) /\ text_number constant (Z.of_N b) /\ text_number word (Z.of_N w) /\ text_number pool (Z.of_N p) /\
     text_number key (Z.of_N k) /\ Forall u64 [a; b; w; p; k] /\ args = BuilderArgs (a, b) w None p k max_value max_tx).
Proof.
  intros. split; [reflexivity|]. split; [reflexivity|]. unfold n, transaction_builder. cbn [fee_network linear_fee].
  change (parse_u64 (text_of coefficient)) with (u64_of_str coefficient). change (parse_u64 (text_of constant)) with (u64_of_str constant). split.
  - intros H. destruct (u64_of_str coefficient) as [a|] eqn:A; [|discriminate]. destruct (u64_of_str constant) as [b|] eqn:B; [|discriminate].
    apply bind_Some in H. destruct H as (w & W & H). apply bind_Some in H. destruct H as (p & P & H). apply bind_Some in H. destruct H as (k & K & H). injection H as <-.
    apply u64_of_str_spec in A, B, W, P, K. exists a, b, w, p, k. repeat (split; [tauto|]). split; [|reflexivity]. repeat constructor; tauto.
  - intros (a & b & w & p & k & A & B & W & P & K & F & ->). rewrite !Forall_cons in F. destruct F as (U1 & U2 & U3 & U4 & U5 & _).
    rewrite (proj2 (u64_of_str_spec _ _) (conj A U1)), (proj2 (u64_of_str_spec _ _) (conj B U2)), (proj2 (u64_of_str_spec _ _) (conj W U3)),
      (proj2 (u64_of_str_spec _ _) (conj P U4)), (proj2 (u64_of_str_spec _ _) (conj K U5)). reflexivity.
Qed.
(** a consequence: nothing is silently replaced, every figure of a custom network that is used was in the document *)
Theorem C56_custom_from_document : forall j n args,
  net_of_json j = Some n -> transaction_builder n = Some args -> n <> NMainnet -> n <> NTestnet ->
  exists fields vals, j = JObj [("custom", fields)]%string /\ document custom_names true vals fields /\
    (forall name text figure, In (name, figure) [("linear_fee_coefficient", fst (ba_fee args)); ("linear_fee_constant", snd (ba_fee args)); ("coins_per_utxo_word", ba_coins_per_word args);
                                                 ("pool_deposit", ba_pool_deposit args); ("key_deposit", ba_key_deposit args)]%string ->
       In (name, JStr text) (zip custom_names vals) -> text_number text (Z.of_N figure)) /\
    In ("max_value_size"%string, JInt (Z.of_N (ba_max_value args))) (zip custom_names vals) /\
    In ("max_tx_size"%string, JInt (Z.of_N (ba_max_tx args))) (zip custom_names vals).
Proof.
  intros j n args H T M S. apply C56_network in H. destruct n as [| |m i x y w p c u t]; [congruence|congruence|].
  destruct H as (f & -> & D & _). apply (C56_custom_parameters m i x y w p c u t (0, 0)%N (0, 0)%N) in T.
  destruct T as (a & b & w' & p' & k & A & B & W & P & K & _ & ->). exists f. eexists. split; [reflexivity|]. split; [exact D|].
  split; [|split; cbn; tauto]. intros name text figure F V. cbn in F, V. decompose [or] F; try contradiction; match goal with Q : (_, _) = (name, figure) |- _ => injection Q as <- <- end;
  decompose [or] V; try contradiction; match goal with Q : (_, _) = (_, _) |- _ => injection Q; intros; subst; try discriminate end; assumption.
Qed.

(** ** The rule of the multiverse *)
Theorem C56_rule : forall j depth gap,
  rule_of_json j = Some (LongestChain depth gap) <->
  document ["rule"; "depth"; "age_gap"]%string false [JStr "LongestChain"; JInt (Z.of_N depth); JInt (Z.of_N gap)] j /\ u64 depth /\ u64 gap.
Proof. intros. apply (rule_doc j (LongestChain depth gap)). Qed.
Theorem C56_rule_roundtrip : forall r, u64 (ru_depth r) -> u64 (ru_age_gap r) -> rule_of_json (rule_to_json r) = Some r.
Proof.
  intros [d g] U V. cbn in U, V. apply C56_rule. split; [|tauto]. left. unfold rule_to_json. eexists. split; [reflexivity|]. split; [|discriminate].
  repeat constructor.
  - exists [], [("depth", write_u64 d); ("age_gap", write_u64 g)]%string. cbn. rewrite !not_elem_of_cons. repeat split; try discriminate; intros H; inversion H.
  - exists [("rule", JStr "LongestChain")]%string, [("age_gap", write_u64 g)]%string. cbn. rewrite !not_elem_of_cons. repeat split; try discriminate; intros H; inversion H.
  - exists [("rule", JStr "LongestChain"); ("depth", write_u64 d)]%string, []. cbn. rewrite !not_elem_of_cons. repeat split; try discriminate; intros H; inversion H.
Qed.

(** ** The order in which a document gives its fields never matters *)
Theorem C56_field_order : forall j j', reordered j j' ->
  era_of_json j = era_of_json j' /\ thermostat_of_json j = thermostat_of_json j' /\ net_of_json j = net_of_json j' /\ rule_of_json j = rule_of_json j'.
Proof.
  intros j j' R. split; [exact (respects_era _ _ R)|]. split; [exact (respects_thermostat _ _ R)|]. split; [exact (respects_net _ _ R)|exact (respects_rule _ _ R)].
Qed.

(** ** Reading succeeds for documents that the library cannot use *)
Definition a_custom (coefficient : string) : json :=
  JObj [("custom", JObj [("protocol_magic", JInt 42); ("network_id", JInt 0); ("linear_fee_coefficient", JStr coefficient); ("linear_fee_constant", JStr "155381");
         ("coins_per_utxo_word", JStr "34482"); ("pool_deposit", JStr "500000000"); ("key_deposit", JStr "2000000"); ("max_value_size", JInt 5000); ("max_tx_size", JInt 16384)])]%string.
(** a custom network with a price that is not a number is accepted, and panics at its first use *)
Theorem C56_usable_refuted : exists j n, net_of_json j = Some n /\ linear_fee (fee_network n) = None /\ transaction_builder n = None.
Proof. exists (a_custom "44.5"). eexists. split; [reflexivity|]. split; reflexivity. Qed.
(** bounds of the thermostat in the wrong order, and negative ones, are accepted *)
Theorem C56_bounds_refuted : exists j t, thermostat_of_json j = Some t /\ (amount (td_max t) < amount (td_min t))%Q /\ (amount (td_max t) < 0)%Q.
Proof.
  exists (JArr [JInt 20; JInt 20; JInt 50; JStr "-1"; JStr ""]). eexists. split; [reflexivity|]. split; reflexivity.
Qed.
(** an era with epochs of no length is accepted, and its functions panic on every slot from its first one on *)
Theorem C56_empty_epochs_refuted : exists j e, era_of_json j = Some e /\ forall chk slot, (first_slot e <= slot)%N ->
  absolute_slot_to_epoch chk e slot = Panics /\ absolute_slot_to_relative e slot = Panics.
Proof.
  exists (JArr [JInt 100; JInt 2; JInt 1000; JInt 1; JInt 0]). eexists. split; [reflexivity|]. intros chk slot L. cbn in L.
  unfold absolute_slot_to_epoch, absolute_slot_to_relative, checked_sub. cbn [first_slot]. destruct (N.leb_spec (Z.to_N 100) slot) as [|Q]; [split; reflexivity|]. cbn in Q. lia.
Qed.

(** ** The hypotheses are met *)
Example C56_document_holds :
  document ["first_slot"; "start_epoch"; "known_time"; "slot_length"; "epoch_length_seconds"]%string false [JInt 4492800; JInt 208; JInt 1596059091; JInt 1; JInt 432000]
    (JObj [("start_epoch", JInt 208); ("comment", JNull); ("first_slot", JInt 4492800); ("slot_length", JInt 1); ("known_time", JInt 1596059091); ("epoch_length_seconds", JInt 432000)]%string).
Proof. apply struct_document. reflexivity. Qed.
Example C56_era_mainnet :
  era_of_json (JObj [("start_epoch", JInt 208); ("comment", JNull); ("first_slot", JInt 4492800); ("slot_length", JInt 1); ("known_time", JInt 1596059091);
    ("epoch_length_seconds", JInt 432000)]%string) = Some SHELLEY_MAINNET.
Proof. reflexivity. Qed.
Example C56_custom_works : exists n, net_of_json (a_custom "44") = Some n /\ transaction_builder n = Some (BuilderArgs (44%N, 155381%N) 34482 None 500000000 2000000 5000 16384).
Proof. eexists. split; reflexivity. Qed.
Example C56_rule_strictness :
  rule_of_json (JObj [("rule", JStr "LongestChain"); ("depth", JInt 6)]%string) = None /\
  rule_of_json (JObj [("age_gap", JInt 8); ("depth", JInt 6); ("rule", JStr "LongestChain"); ("note", JBool true)]%string) = Some (LongestChain 6 8) /\
  rule_of_json (JArr [JStr "LongestChain"; JInt 6; JInt 8]) = Some (LongestChain 6 8).
Proof. split; [|split]; reflexivity. Qed.

Definition all_ConfigProps := (@C56_era, @C56_thermostat, @C56_network, @C56_known_parameters, @C56_custom_parameters, @C56_custom_from_document, @C56_rule,
  @C56_rule_roundtrip, @C56_field_order, @C56_usable_refuted, @C56_bounds_refuted, @C56_empty_epochs_refuted).
Print Assumptions all_ConfigProps.
