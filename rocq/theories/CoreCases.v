(** Concrete cases meeting the hypotheses of the theorems of CoreProps.v and DivProps.v, named after them. *)
From Coq Require Import ZArith NArith QArith Qabs Qround Ascii String List Bool Lia Permutation.
From Verif Require Import ValueModel ValueSpec ValueProofs BalanceModel BalanceSpec BalanceProofs CounterModel CounterProofs CoreProps DivModel DivProofs DivProps.
Import ListNotations.
Open Scope Q_scope.
Local Ltac run := vm_compute; reflexivity.

Example C01_native_roundtrip_case : normalize Wei (Dec 1500000000000000001 0) = Some (Dec 1500000000000000001 18) /\
  from_normalized Wei (Dec 1500000000000000001 18) = Some (Dec 1500000000000000001 0).
Proof. split; run. Qed.
Example C01_native_roundtrip_back_case : from_normalized Lovelace (Dec 15 1) = Some (Dec 15 (-5)) /\ amount (Dec 15 (-5)) == 1500000 /\
  normalize Lovelace (Dec 15 (-5)) = Some (Dec 15 1).
Proof. split; [run|split; run]. Qed.
Example C01_native_units_case : normalize Ada (Dec 7 0) = Some (Dec 7 0) /\ normalize Regulated (Dec 7 0) = None.
Proof. split; run. Qed.
Example C02_order_and_sums_case : exists nx ny, normalize Lovelace (Dec 15 (-5)) = Some nx /\ normalize Lovelace (Dec 2 0) = Some ny /\
  dec_cmp nx ny = Gt /\ amount (v_sub nx ny) == 1499998 # 1000000.
Proof. do 2 eexists. repeat split; run. Qed.
Example C02_common_scale_case : (scale (Dec 15 1) <= 6)%Z /\ (scale (Dec (-2) (-1)) <= 6)%Z /\
  units 6 (v_add (Dec 15 1) (Dec (-2) (-1))) = (-18500000)%Z.
Proof. repeat split; try run; discriminate. Qed.
Example C03_accepts_case : value_from_str_with parse_dec Ada (list_ascii_of_string "10.205") = inl (Dec 10205 3) /\
  (scale (Dec 10205 3) <= places Ada)%Z.
Proof. split; [run|discriminate]. Qed.
Example C03_rejects_case : value_from_str_with parse_dec Ada (list_ascii_of_string "-5") = inr Negative /\
  value_from_str_with parse_dec Lovelace (list_ascii_of_string "0.5") = inr InvalidDecimalPoint /\
  value_from_str_with parse_dec Ada (list_ascii_of_string "five") = inr InvalidDecimal.
Proof. repeat split; run. Qed.
Example C03_print_parse_case : 0 <= amount (Dec 1200 3) /\ (scale (Dec 1200 3) <= places Ada)%Z /\
  string_of_list_ascii (show (Dec 1200 3)) = "1.200"%string.
Proof. split; [discriminate|]. split; [discriminate|run]. Qed.
Example C04_truncate_floor_case : 0 <= amount (Dec 2999999 6) /\ amount (truncate (Dec 2999999 6)) == 2.
Proof. split; [discriminate|run]. Qed.
Example C04_truncate_negative_case : amount (Dec (-15) 1) < 0 /\ truncate (Dec (-15) 1) = Dec 0 0.
Proof. split; run. Qed.
Definition ops : list (bal_op dec) := [Credit (Dec 15 1); Debit (Dec 2 0); Credit (Dec 3 1); Debit (Dec 0 4)].
Definition ops' : list (bal_op dec) := [Debit (Dec 0 4); Credit (Dec 3 1); Credit (Dec 15 1); Debit (Dec 2 0)].
Example C05_balance_total_case : nonneg_ops ops /\ total ops == - (2 # 10) /\ dbal_run Balanced ops = Debt (Dec 2000 4).
Proof. split; [repeat constructor; discriminate|split; run]. Qed.
Example C05_status_case : nonneg_ops ops /\ in_debt (dbal_run Balanced ops) = true /\ total ops < 0.
Proof. split; [repeat constructor; discriminate|split; run]. Qed.
Example C05_equal_case : nonneg_ops ops /\ nonneg_ops [Debit (Dec 2 1)] /\ total ops == total [Debit (Dec 2 1)].
Proof. split; [|split; [|run]]; repeat constructor; discriminate. Qed.
Example C05_balance_order_free_case : Permutation ops ops' /\ nonneg_ops ops.
Proof.
  split; [|repeat constructor; discriminate]. unfold ops, ops'.
  transitivity [Debit (Dec 0 4); Credit (Dec 15 1); Debit (Dec 2 0); Credit (Dec 3 1)]; [symmetry; apply (Permutation_cons_append [_; _; _])|].
  constructor. symmetry. apply (Permutation_cons_append [_; _]).
Qed.
Example C06_balance_sum_normal_case : normal (Debt (Dec 7 0)) /\ normal (Excess (Dec 75 1)) /\ signed (Debt (Dec 7 0)) + signed (Excess (Dec 75 1)) == 1 # 2.
Proof. repeat split. Qed.
Example C07_range_and_monotone_case : is_u64 (2 ^ 64 - 1) /\ saturating_add (2 ^ 64 - 1) 5 = (2 ^ 64 - 1)%N /\ checked_add (2 ^ 64 - 1) 5 = None /\
  checked_add (2 ^ 64 - 6) 5 = Some (2 ^ 64 - 1)%N.
Proof. split; [|repeat split; run]. unfold is_u64. try split; try discriminate; reflexivity. Qed.

Example C60_nearest_case : exists r, dec_div (Dec 2 0) 3 = Some r /\ ~ amount r == quotient (Dec 2 0) 3 /\ (10 ^ 99 <= Z.abs (digits r))%Z.
Proof. eexists. split; [run|]. split; vm_compute; discriminate. Qed.
Example C60_exact_case : exists r, dec_div (Dec 7 0) 8 = Some r /\ quotient (Dec 7 0) 8 == amount (Dec 875 3) /\ (Z.abs 875 < 10 ^ 100)%Z /\ amount r == amount (Dec 875 3).
Proof. eexists. split; [run|]. split; [run|]. split; run. Qed.
Example C60_threshold_case : exists r, dec_div (Dec 1000000 6) 7 = Some r /\ (Z.abs 1000000 < 10 ^ 99)%Z /\ (scale (Dec 142858 6) <= 6)%Z /\
  dec_ltb r (Dec 142858 6) = true.
Proof. eexists. split; [run|]. split; [run|]. split; [discriminate|run]. Qed.
Example C61_hash_case : amount (Dec 1500 3) == amount (Dec 15 1) /\ Dec 1500 3 <> Dec 15 1.
Proof. split; [run|discriminate]. Qed.
Example C01_tag_round_trip_case : exists t t', to_coin (Lovelace, Dec 1500000 0) = Some t /\ to_base t = Some t' /\ fst t = Ada /\ amount (snd t') == 1500000.
Proof. do 2 eexists. split; [run|]. split; [run|]. split; run. Qed.
