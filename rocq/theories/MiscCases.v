(** Concrete cases meeting the hypotheses of the theorems of TimeProps.v, MultisigProps.v, ILogOpenProps.v and
    FraosRoProps.v, named after them. *)
From Coq Require Import ZArith NArith Ascii String Lia.
From stdpp Require Import prelude numbers strings list.
From Verif Require Import TimeModel TimeProps ClockModel ClockProps UtilModel EstimModel JsonModel JsonSpec MultisigModel CborSpec CborProofs MultisigProps.
Open Scope N_scope.

(** ** C37 *)
Example C37_epoch_monotone_case : 0 < epoch_length_seconds SHELLEY_MAINNET /\ is_u64 (start_epoch SHELLEY_MAINNET + 99100852) /\ 4492800 <= 99100852 /\
  absolute_slot_to_epoch true SHELLEY_MAINNET 4492800 = Val (Some 208) /\ absolute_slot_to_epoch true SHELLEY_MAINNET 99100852 = Val (Some 427).
Proof. repeat split; vm_compute; congruence. Qed.
Example C37_before_era_refused_case : 4492799 < first_slot SHELLEY_MAINNET /\ absolute_slot_to_epoch true SHELLEY_MAINNET 4492799 = Val None.
Proof. split; reflexivity. Qed.
Example C37_timestamp_strictly_monotone_case : 0 < slot_length SHELLEY_PREPROD /\ first_slot SHELLEY_PREPROD <= 33350429 /\ 33350429 < 33350430 /\
  is_u64 (known_time SHELLEY_PREPROD + (33350430 - first_slot SHELLEY_PREPROD) * slot_length SHELLEY_PREPROD) /\
  compute_timestamp true SHELLEY_PREPROD 33350429 = Val 1689033629 /\ compute_timestamp true SHELLEY_PREPROD 33350430 = Val 1689033630.
Proof. repeat split; vm_compute; congruence. Qed.
(** an era whose slots take twenty seconds *)
Example C37_timestamp_injective_case : let e := Era 0 0 1506203091 20 432000 in
  0 < slot_length e /\ first_slot e <= 100 /\ is_u64 (known_time e + (100 - first_slot e) * slot_length e) /\ compute_timestamp true e 100 = Val 1506205091.
Proof. repeat split; vm_compute; congruence. Qed.
Example C37_epoch_of_time_case : slot_length SHELLEY_PREVIEW = 1 /\ 0 < epoch_length_seconds SHELLEY_PREVIEW /\ first_slot SHELLEY_PREVIEW <= 24278356 /\
  is_u64 (known_time SHELLEY_PREVIEW + 24278356) /\ is_u64 (start_epoch SHELLEY_PREVIEW + 24278356) /\
  compute_timestamp true SHELLEY_PREVIEW 24278356 = Val 1690934356 /\ is_Some (match absolute_slot_to_epoch true SHELLEY_PREVIEW 24278356 with Val (Some ep) => Some ep | _ => None end).
Proof. repeat split; try (vm_compute; congruence). vm_compute. eauto. Qed.
Example C37_byron_slot_ordered_case : 21599 < 21600 /\ 0 < 21600 /\ is_u64 (207 * 21600 + 21599) /\ is_u64 (208 * 21600 + 0) /\
  epoch_slot_to_absolute_byron true 207 21599 = Val 4492799 /\ epoch_slot_to_absolute_byron true 208 0 = Val 4492800.
Proof. repeat split; vm_compute; congruence. Qed.
Example C37_epoch_overflow_case : slot_is (Era 0 (two64 - 1) 0 1 10) 25 (two64 + 1) 5 /\ absolute_slot_to_epoch true (Era 0 (two64 - 1) 0 1 10) 25 = Panics.
Proof. repeat split; vm_compute; congruence. Qed.
Example C37_byron_overflow_case : epoch_slot_to_absolute_byron true (2 ^ 63) 0 = Panics /\ epoch_slot_to_absolute_byron false (2 ^ 63) 7 = Val 7.
Proof. split; vm_compute; reflexivity. Qed.
Example C63_slot_time_case : first_slot SHELLEY_MAINNET <= 97507251 /\ known_time SHELLEY_MAINNET + (97507251 - first_slot SHELLEY_MAINNET) * slot_length SHELLEY_MAINNET < 2 ^ 63.
Proof. split; vm_compute; congruence. Qed.

(** ** C52 *)
Definition key (c : ascii) : string := string_of_list_ascii (repeat c 28).
Definition three_of_four := Plan 3 [key "a"; key "b"; key "c"; key "d"].
Example C52_different_keys_case : NoDup (p_keys three_of_four) /\ wf_plan three_of_four /\
  forallb (satisfied (signers [key "d"; key "b"; key "a"; key "x"])) (to_script three_of_four) = true /\
  forallb (satisfied (signers [key "d"; key "b"; key "d"])) (to_script three_of_four) = false.
Proof.
  split; [apply (bool_decide_unpack _); by vm_compute|]. split; [split; [cbn; lia|repeat constructor]|]. split; vm_compute; reflexivity.
Qed.
Example C52_monotone_case : forall k, k ∈ [key "a"; key "b"; key "c"] -> k ∈ [key "c"; key "x"; key "b"; key "a"].
Proof. intros k H. set_solver. Qed.
Example C52_key_order_case : p_keys three_of_four ≡ₚ [key "d"; key "b"; key "c"; key "a"].
Proof. apply (bool_decide_unpack _). by vm_compute. Qed.
(** the hash of the whole script, of which two different scripts never collide *)
Example C52_address_determines_plan_case : wf_plan three_of_four /\ wf_plan two_of_three /\ N.of_nat (length (p_keys three_of_four)) < 2 ^ 64 /\
  (forall s s', s ∈ to_script three_of_four -> s' ∈ to_script two_of_three -> (fun b => b) (script_bytes s) = (fun b => b) (script_bytes s') -> script_bytes s = script_bytes s') /\
  map script_bytes (to_script three_of_four) <> map script_bytes (to_script two_of_three).
Proof.
  split; [split; [cbn; lia|repeat constructor]|]. split; [split; [cbn; lia|repeat constructor]|]. split; [reflexivity|].
  split; [auto|]. intro H. vm_compute in H. discriminate.
Qed.
Example C52_no_quorum_case : p_quorum (Plan 0 [key "a"]) = 0 /\ N.of_nat (length (p_keys (Plan 5 [key "a"]))) < p_quorum (Plan 5 [key "a"]).
Proof. split; reflexivity. Qed.
(** a document with the keys in upper and lower case, and one with its members the other way round *)
Definition hex_key (s : string) : string := String.concat "" (repeat s 28).
Example C52_reads_case : exists p, plan_of_json (plan_document 1 [hex_key "6A"; hex_key "6b"]) = Some p /\ p_keys p = [key "j"; key "k"] /\ p_quorum p = 1.
Proof. eexists. split; [vm_compute; reflexivity|]. split; reflexivity. Qed.
Example C52_refused_case : plan_of_json (plan_document 1 [hex_key "6G"]) = None /\ plan_of_json (plan_document (-1) []) = None /\
  plan_of_json (plan_document (2 ^ 32) []) = None /\ plan_of_json (plan_document 1 ["6a"%string]) = None.
Proof. repeat split; vm_compute; reflexivity. Qed.
Example C52_reads_in_any_order_case : exists p, plan_of_json (JObj [("keys", JArr [JStr (hex_key "6a")]); ("quorum", JInt 1)]%string) = Some p.
Proof. eexists. vm_compute. reflexivity. Qed.
