(** C51: the JSON and text forms of the data types lose nothing, do not depend on the order of fields, and accept exactly the
    documents that they should. *)
From Coq Require Import ZArith NArith QArith Ascii String Sorting.Sorted Lia.
From stdpp Require Import prelude numbers strings list.
From Verif Require Import ValueModel ValueSpec CardanoModel JsonModel JsonSpec JsonProofs.
Open Scope Z_scope.

(** ** Counters: block numbers, slots, timestamps, output indexes *)
Theorem C51_counter_json n : u64 n -> read_number (write_u64 n) = Some n.
Proof. apply write_read_number. Qed.
Theorem C51_counter_text n : u64 n -> u64_of_str (display_u64 n) = Some n.
Proof. apply u64_of_display. Qed.
Theorem C51_counter_text_accepts s n : u64_of_str s = Some n <-> text_number s (Z.of_N n) /\ u64 n.
Proof. apply u64_of_str_spec. Qed.
Theorem C51_counter_accepts j n :
  read_number j = Some n <-> u64 n /\ (j = JInt (Z.of_N n) \/ exists s, j = JStr s /\ text_number s (Z.of_N n)).
Proof.
  destruct j as [|b|z|f|s|l|l]; try (split; [discriminate|]; intros [_ [[=]|(s' & [=] & _)]]).
  - change (read_number (JInt z)) with (read_u64 (JInt z)). rewrite read_u64_spec. split; [intros [H U]; auto|].
    intros [U [H|(s & [=] & _)]]; auto.
  - cbn [read_number]. rewrite u64_of_str_spec. split; [intros [H U]; eauto|]. intros [U [[=]|(s' & [= <-] & T)]]; auto.
Qed.
(** an output index is read from a number and from nothing else: unlike the other counters, not from text *)
Theorem C51_index_accepts j n : read_index j = Some n <-> u64 n /\ j = JInt (Z.of_N n).
Proof. unfold read_index. rewrite read_u64_spec. tauto. Qed.
Theorem C51_index_text_refuted : forall n, u64 n -> read_number (JStr (display_u64 n)) = Some n /\ read_index (JStr (display_u64 n)) = None.
Proof. intros n U. split; [apply u64_of_display, U|reflexivity]. Qed.

(** ** Amounts *)
Theorem C51_value_json v : exists w, read_value (write_value v) = Some w /\ same_amount v w.
Proof. apply write_read_value. Qed.
(** of the JSON numbers exactly the whole ones below 2^64 are amounts; fractions have to be text *)
Theorem C51_value_numbers :
  (forall z, 0 <= z < 2 ^ 64 -> exists w, read_value (JInt z) = Some w /\ (amount w == inject_Z z)%Q) /\
  (forall z, z < 0 \/ 2 ^ 64 <= z -> read_value (JInt z) = None) /\ (forall f, read_value (JFloat f) = None).
Proof.
  split; [|split; [|reflexivity]].
  - intros z H. exists (dec_of_Z z). split; [|apply ValueProofs.amount_dec0]. cbn [read_value].
    assert ((0 <=? z) && (z <? 2 ^ 64) = true) as ->; [|reflexivity]. apply andb_true_iff. rewrite Z.leb_le, Z.ltb_lt. exact H.
  - intros z H. cbn [read_value]. assert ((0 <=? z) && (z <? 2 ^ 64) = false) as ->; [|reflexivity].
    apply andb_false_iff. rewrite Z.leb_gt, Z.ltb_ge. exact H.
Qed.

(** ** Round trips: what is written is read back as an equal value *)
Theorem C51_pointer_json p : a_pointer p -> pointer_of_json (pointer_to_json p) = Some p.
Proof. apply pointer_rt. Qed.
Theorem C51_asset_json a : exists b, asset_of_json (asset_to_json a) = Some b /\ same_asset a b.
Proof. apply asset_rt. Qed.
Theorem C51_details_json d : a_details d -> exists e, details_of_json (details_to_json d) = Some e /\ same_details d e.
Proof. apply details_rt. Qed.
Theorem C51_builder_json b : exists c, builder_of_json (builder_to_json b) = Some c /\ same_builder b c.
Proof. apply builder_rt. Qed.
Theorem C51_transaction_json t : a_transaction t -> exists u, transaction_of_json (transaction_to_json t) = Some u /\ same_transaction t u.
Proof. apply transaction_rt. Qed.
Theorem C51_block_json e : an_event e -> bevent_of_json (bevent_to_json e) = Some e.
Proof. apply bevent_rt. Qed.
Theorem C51_event_json {tip} e : an_event e -> exists j, event_to_json (tip := tip) (inl e) = Some j /\ event_of_json (tip := tip) j = Some (inl e).
Proof.
  intro H. eexists. split; [reflexivity|]. cbn [event_of_json tagged]. change (String.eqb "Block" "Block") with true. cbn iota.
  rewrite (bevent_rt e H). reflexivity.
Qed.
Theorem C51_point_json p : a_point p -> point_of_json (point_to_json p) = Some p.
Proof. apply point_rt. Qed.
Theorem C51_config_json c : config_of_json (config_to_json c) = Some c.
Proof. apply config_rt. Qed.
Theorem C51_metadata_json j : a_value j -> read_json j = j.
Proof. apply read_json_value. Qed.

(** ** Different values have different forms *)
Lemma amounts_trans a b c : same_amount a c -> same_amount b c -> same_amount a b.
Proof. unfold same_amount. intros -> ->. reflexivity. Qed.
Lemma assets_trans a b c : same_asset a c -> same_asset b c -> same_asset a b.
Proof. intros (?&?&?&?) (?&?&?&?). repeat split; try congruence. eapply amounts_trans; eassumption. Qed.
Lemma all_trans {A} (R : A -> A -> Prop) l m n : (forall a b c, R a c -> R b c -> R a b) -> Forall2 R l n -> Forall2 R m n -> Forall2 R l m.
Proof.
  intros T F. revert m. induction F as [|a c l n H F IH]; intros m G; inversion G; subst; constructor; [eapply T; eassumption|apply IH; assumption].
Qed.
Lemma details_trans a b c : same_details a c -> same_details b c -> same_details a b.
Proof.
  intros (?&?&?&?&?&?) (?&?&?&?&?&?). repeat split; try congruence; [eapply amounts_trans; eassumption|].
  eapply all_trans; [exact assets_trans|eassumption|eassumption].
Qed.
Theorem C51_distinct :
  (forall a b, asset_to_json a = asset_to_json b -> same_asset a b) /\
  (forall a b, a_details a -> a_details b -> details_to_json a = details_to_json b -> same_details a b) /\
  (forall a b, builder_to_json a = builder_to_json b -> same_builder a b) /\
  (forall a b, a_transaction a -> a_transaction b -> transaction_to_json a = transaction_to_json b -> same_transaction a b).
Proof.
  split; [|split; [|split]].
  - intros a b E. destruct (asset_rt a) as (x & Ea & Sa), (asset_rt b) as (y & Eb & Sb).
    rewrite E, Eb in Ea. injection Ea as ->. eapply assets_trans; eassumption.
  - intros a b Ha Hb E. destruct (details_rt a Ha) as (x & Ea & Sa), (details_rt b Hb) as (y & Eb & Sb).
    rewrite E, Eb in Ea. injection Ea as ->. eapply details_trans; eassumption.
  - intros a b E. destruct (builder_rt a) as (x & Ea & Sa), (builder_rt b) as (y & Eb & Sb).
    rewrite E, Eb in Ea. injection Ea as ->. destruct Sa as (?&?&?&?), Sb as (?&?&?&?).
    repeat split; try congruence; [eapply amounts_trans; eassumption|]. eapply all_trans; [exact assets_trans|eassumption|eassumption].
  - intros a b Ha Hb E. destruct (transaction_rt a Ha) as (x & Ea & Sa), (transaction_rt b Hb) as (y & Eb & Sb).
    rewrite E, Eb in Ea. injection Ea as ->. destruct Sa as (?&?&?&?), Sb as (?&?&?&?).
    repeat split; try congruence. eapply all_trans; [exact details_trans|eassumption|eassumption].
Qed.
(** two pointers that print the same are the same, whatever the transaction ids contain *)
Theorem C51_pointer_text_injective p q : display_pointer p = display_pointer q -> p = q.
Proof. apply display_pointer_inj. Qed.

(** ** The order of the fields does not matter, at any depth *)
Theorem C51_field_order j j' : reordered j j' ->
  pointer_of_json j = pointer_of_json j' /\ asset_of_json j = asset_of_json j' /\ details_of_json j = details_of_json j' /\
  builder_of_json j = builder_of_json j' /\ transaction_of_json j = transaction_of_json j' /\ bevent_of_json j = bevent_of_json j' /\
  (forall tip, event_of_json (tip := tip) j = event_of_json j') /\ point_of_json j = point_of_json j' /\ config_of_json j = config_of_json j' /\
  read_json j = read_json j'.
Proof.
  intro R. repeat split; [apply respects_pointer|apply respects_asset|apply respects_details|apply respects_builder|apply respects_transaction|
    apply respects_bevent|intro; apply respects_event|apply respects_point|apply respects_config|apply read_json_reordered]; exact R.
Qed.

(** ** Unknown, repeated and missing fields *)
Theorem C51_unknown_refused kvs k v : (k, v) ∈ kvs ->
  (k ∉ ["transactionId"; "outputIndex"]%string -> pointer_of_json (JObj kvs) = None) /\
  (k ∉ ["policyId"; "assetName"; "fingerprint"; "quantity"]%string -> asset_of_json (JObj kvs) = None) /\
  (k ∉ ["transactionId"; "inputs"; "outputs"; "metadata"]%string -> transaction_of_json (JObj kvs) = None) /\
  (k ∉ ["storage_path"; "use_key_indexing"; "readonly"]%string -> config_of_json (JObj kvs) = None).
Proof.
  intro H. unfold pointer_of_json, asset_of_json, transaction_of_json, config_of_json.
  repeat split; intro N; rewrite (fields_strict _ _ _ _ H N); reflexivity.
Qed.
Theorem C51_unknown_ignored a k v b :
  (k ∉ ["pointer"; "address"; "value"; "assets"; "metadata"; "extra"]%string -> details_of_json (JObj (a ++ (k, v) :: b)) = details_of_json (JObj (a ++ b))) /\
  (k ∉ ["address"; "value"; "assets"; "extra"]%string -> builder_of_json (JObj (a ++ (k, v) :: b)) = builder_of_json (JObj (a ++ b))) /\
  (k ∉ ["id"; "parent_id"; "block_number"; "raw_block"; "slot_number"; "is_boundary_block"; "epoch"]%string ->
     bevent_of_json (JObj (a ++ (k, v) :: b)) = bevent_of_json (JObj (a ++ b))).
Proof.
  unfold details_of_json, builder_of_json, bevent_of_json.
  repeat split; intro N; rewrite (fields_lenient _ _ _ _ _ N); reflexivity.
Qed.
Theorem C51_repeated_refused a b c k v w : let j := JObj (a ++ (k, v) :: b ++ (k, w) :: c) in
  (k ∈ ["transactionId"; "outputIndex"]%string -> pointer_of_json j = None) /\
  (k ∈ ["policyId"; "assetName"; "fingerprint"; "quantity"]%string -> asset_of_json j = None) /\
  (k ∈ ["pointer"; "address"; "value"; "assets"; "metadata"; "extra"]%string -> details_of_json j = None) /\
  (k ∈ ["address"; "value"; "assets"; "extra"]%string -> builder_of_json j = None) /\
  (k ∈ ["transactionId"; "inputs"; "outputs"; "metadata"]%string -> transaction_of_json j = None) /\
  (k ∈ ["id"; "parent_id"; "block_number"; "raw_block"; "slot_number"; "is_boundary_block"; "epoch"]%string -> bevent_of_json j = None) /\
  (k ∈ ["storage_path"; "use_key_indexing"; "readonly"]%string -> config_of_json j = None).
Proof.
  intro j. unfold j, pointer_of_json, asset_of_json, details_of_json, builder_of_json, transaction_of_json, bevent_of_json, config_of_json.
  repeat split; intro N; rewrite (fields_twice _ _ _ _ _ _ _ _ N); reflexivity.
Qed.

Ltac split_fields := match goal with |- context [struct_fields ?ns ?d (JObj ?kvs)] =>
  let E := fresh "E" in destruct (struct_fields ns d (JObj kvs)) as [l|] eqn:E; [|reflexivity || discriminate];
  repeat match goal with H : _ ∉ map fst kvs |- _ => pose proof (fun i Hi => fields_missing _ _ _ l i _ E Hi H); clear H end;
  clear E; repeat (destruct l as [|? l]; cbn iota; try reflexivity; try discriminate) end.
Ltac absent := match goal with H : forall i, _ -> _ |- _ =>
  first [specialize (H 0%nat eq_refl) | specialize (H 1%nat eq_refl) | specialize (H 2%nat eq_refl) | specialize (H 3%nat eq_refl)
       | specialize (H 4%nat eq_refl) | specialize (H 5%nat eq_refl) | specialize (H 6%nat eq_refl)]; cbn in H; injection H as -> end.
Ltac no_result := cbn [required]; repeat match goal with |- _ => reflexivity | |- (?x ≫= _) = None => destruct x; cbn [mbind option_bind]; [|reflexivity] end.
Ltac miss := split_fields; absent; no_result.
Ltac each H := repeat (apply elem_of_cons in H as [-> |H]; [|]); [..|apply elem_of_nil in H; destruct H].

Theorem C51_missing_refused kvs k : k ∉ map fst kvs ->
  (k ∈ ["transactionId"; "outputIndex"]%string -> pointer_of_json (JObj kvs) = None) /\
  (k ∈ ["policyId"; "assetName"; "fingerprint"; "quantity"]%string -> asset_of_json (JObj kvs) = None) /\
  (k ∈ ["pointer"; "address"; "value"; "metadata"]%string -> details_of_json (JObj kvs) = None) /\
  (k ∈ ["address"; "value"; "assets"]%string -> builder_of_json (JObj kvs) = None) /\
  (k ∈ ["transactionId"; "inputs"; "outputs"]%string -> transaction_of_json (JObj kvs) = None) /\
  (k ∈ ["id"; "parent_id"; "block_number"; "raw_block"; "slot_number"; "is_boundary_block"; "epoch"]%string -> bevent_of_json (JObj kvs) = None).
Proof.
  intro H. unfold pointer_of_json, asset_of_json, details_of_json, builder_of_json, transaction_of_json, bevent_of_json, event_names.
  repeat split; intro K; each K; miss.
Qed.

Theorem C51_defaults kvs :
  (forall d, details_of_json (JObj kvs) = Some d -> ("assets" ∉ map fst kvs -> dt_assets d = []) /\ ("extra" ∉ map fst kvs -> dt_extra d = None)) /\
  (forall b, builder_of_json (JObj kvs) = Some b -> "extra" ∉ map fst kvs -> bd_extra b = None) /\
  (forall t, transaction_of_json (JObj kvs) = Some t -> "metadata" ∉ map fst kvs -> tr_metadata t = JNull) /\
  config_of_json (JObj []) = Some (LogConfig None false false).
Proof.
  unfold details_of_json, builder_of_json, transaction_of_json.
  split; [|split; [|split; [|reflexivity]]].
  - intros d E. split; intro K; revert E; split_fields; absent; cbn [defaulted]; intro E;
      repeat match type of E with (?x ≫= _) = Some _ => destruct x; cbn [mbind option_bind] in E; [|discriminate] end; injection E as <-; reflexivity.
  - intros d E K; revert E; split_fields; absent; cbn [defaulted]; intro E;
      repeat match type of E with (?x ≫= _) = Some _ => destruct x; cbn [mbind option_bind] in E; [|discriminate] end; injection E as <-; reflexivity.
  - intros d E K; revert E; split_fields; absent; cbn [defaulted]; intro E;
      repeat match type of E with (?x ≫= _) = Some _ => destruct x; cbn [mbind option_bind] in E; [|discriminate] end; injection E as <-; reflexivity.
Qed.

(** ** A struct can be given as the list of its fields, in the order of their declaration; too long a list is refused *)
Theorem C51_positional :
  (forall a b, pointer_of_json (JArr [a; b]) = pointer_of_json (JObj [("transactionId", a); ("outputIndex", b)]%string)) /\
  (forall a b c d, asset_of_json (JArr [a; b; c; d]) = asset_of_json (JObj [("policyId", a); ("assetName", b); ("fingerprint", c); ("quantity", d)]%string)) /\
  (forall a b c d e f, details_of_json (JArr [a; b; c; d; e; f]) =
     details_of_json (JObj [("pointer", a); ("address", b); ("value", c); ("assets", d); ("metadata", e); ("extra", f)]%string)) /\
  (forall a b c d e, details_of_json (JArr [a; b; c; d; e]) = details_of_json (JObj [("pointer", a); ("address", b); ("value", c); ("assets", d); ("metadata", e)]%string)) /\
  (forall a b c d, builder_of_json (JArr [a; b; c; d]) = builder_of_json (JObj [("address", a); ("value", b); ("assets", c); ("extra", d)]%string)) /\
  (forall a b c d, transaction_of_json (JArr [a; b; c; d]) = transaction_of_json (JObj [("transactionId", a); ("inputs", b); ("outputs", c); ("metadata", d)]%string)) /\
  (forall a b c d e f g, bevent_of_json (JArr [a; b; c; d; e; f; g]) =
     bevent_of_json (JObj [("id", a); ("parent_id", b); ("block_number", c); ("raw_block", d); ("slot_number", e); ("is_boundary_block", f); ("epoch", g)]%string)) /\
  (forall l, (2 < length l)%nat -> pointer_of_json (JArr l) = None) /\ (forall l, (4 < length l)%nat -> asset_of_json (JArr l) = None) /\
  (forall l, (6 < length l)%nat -> details_of_json (JArr l) = None) /\ (forall l, (4 < length l)%nat -> builder_of_json (JArr l) = None) /\
  (forall l, (4 < length l)%nat -> transaction_of_json (JArr l) = None) /\ (forall l, (7 < length l)%nat -> bevent_of_json (JArr l) = None).
Proof.
  repeat match goal with |- _ /\ _ => split end; try reflexivity; intros l H;
    unfold pointer_of_json, asset_of_json, details_of_json, builder_of_json, transaction_of_json, bevent_of_json, event_names; cbn [struct_fields length];
    apply Nat.leb_gt in H; rewrite H; reflexivity.
Qed.

(** ** Tips are not data: they are never written and never read *)
Theorem C51_tip_not_written {tip} (t : tip) : event_to_json (inr t) = None.
Proof. reflexivity. Qed.
Theorem C51_tip_not_read {tip} j (t : tip) : event_of_json j <> Some (inr t).
Proof.
  unfold event_of_json. destruct (tagged j) as [[k v]|]; [|discriminate]. destruct (String.eqb k "Block"); [|discriminate].
  destruct (bevent_of_json v); discriminate.
Qed.

(** ** Metadata: any document is read as a value; of a repeated key the last entry counts *)
Theorem C51_metadata_value j : a_value (read_json j).
Proof. apply read_json_a_value. Qed.
Theorem C51_metadata_last a k v b : k ∉ map fst b ->
  exists kvs, read_json (JObj (a ++ (k, v) :: b)) = JObj kvs /\ (k, read_json v) ∈ kvs.
Proof.
  intro H. rewrite read_json_obj. eexists. split; [reflexivity|]. rewrite on_values_app.
  change (on_values read_json ((k, v) :: b)) with ((k, read_json v) :: on_values read_json b).
  assert (k ∉ map fst (on_values read_json b)) as H' by (rewrite on_values_keys; exact H).
  pose proof (collect_last (on_values read_json a) k (read_json v) (on_values read_json b) [] H') as F.
  revert F. generalize (collect (on_values read_json a ++ (k, read_json v) :: on_values read_json b) []) as l. intro l.
  induction l as [|[k' v'] l IH]; [discriminate|]. rewrite find_field_cons. destruct (String.eqb_spec k' k) as [-> |N]; [intros [= ->]; left|].
  intro F. right. apply IH, F.
Qed.

(** ** Cases that meet the hypotheses *)
Definition a_tx : transaction :=
  Transaction "t1" [Pointer "t0" 3; Pointer "t0" 18446744073709551615]
    [Details (Pointer "t1" 0) "addr" (Dec 1500 3) [Asset "p" "n" "f" (Dec 7 0)] (JObj [("a", JArr [JInt 1; JNull]); ("b", JObj [])]%string) (Some "x"%string)]
    (JObj [("k", JFloat "0.5")]%string).
Example C51_transaction_case : a_transaction a_tx.
Proof. repeat (constructor || (unfold a_details, a_pointer, u64; cbn)); try lia. Qed.
Example C51_transaction_read : transaction_of_json (transaction_to_json a_tx) = Some a_tx.
Proof. vm_compute. reflexivity. Qed.
(** the fields of the output and of its metadata in another order *)
Example C51_order_case :
  reordered (JObj [("metadata", JObj [("a", JInt 1); ("b", JInt 2)]); ("id", JStr "x")]%string)
            (JObj [("id", JStr "x"); ("metadata", JObj [("b", JInt 2); ("a", JInt 1)])]%string).
Proof.
  apply (ro_obj _ [("metadata", JObj [("b", JInt 2); ("a", JInt 1)]); ("id", JStr "x")]%string).
  - repeat (constructor; [set_solver|]). constructor.
  - constructor; [split; [reflexivity|]|constructor; [split; [reflexivity|constructor]|constructor]]. cbn [snd].
    apply (ro_obj _ [("a", JInt 1); ("b", JInt 2)]%string).
    + repeat (constructor; [set_solver|]). constructor.
    + repeat constructor.
    + apply Permutation_swap.
  - apply Permutation_swap.
Qed.
Definition an_ev : bevent := BEvent "i" "p" 7 "ab" 9 true 2.
Example C51_event_case : an_event an_ev /\ bevent_of_json (bevent_to_json an_ev) = Some an_ev.
Proof. split; [repeat split; unfold u64; cbn; lia|]. vm_compute. reflexivity. Qed.
Example C51_number_case : read_number (JStr "+0042") = Some 42%N /\ read_number (JStr "-1") = None /\ read_number (JInt (-1)) = None /\ read_number (JStr "") = None.
Proof. repeat split. Qed.
Example C51_metadata_case : read_json (JObj [("b", JInt 1); ("a", JInt 2); ("b", JInt 3)]%string) = JObj [("a", JInt 2); ("b", JInt 3)]%string.
Proof. reflexivity. Qed.

Definition all_C51 := (@C51_counter_json, @C51_counter_text, @C51_counter_text_accepts, @C51_counter_accepts, @C51_index_accepts, @C51_index_text_refuted,
  @C51_value_json, @C51_value_numbers, @C51_pointer_json, @C51_asset_json, @C51_details_json, @C51_builder_json, @C51_transaction_json, @C51_block_json,
  @C51_event_json, @C51_point_json, @C51_config_json, @C51_metadata_json, @C51_distinct, @C51_pointer_text_injective, @C51_field_order,
  @C51_unknown_refused, @C51_unknown_ignored, @C51_repeated_refused, @C51_missing_refused, @C51_defaults, @C51_positional, @C51_tip_not_written, @C51_tip_not_read,
  @C51_metadata_value, @C51_metadata_last).
Print Assumptions all_C51.
