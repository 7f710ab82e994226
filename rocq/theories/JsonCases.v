(** Concrete cases meeting the hypotheses of the theorems of JsonProps.v, named after them. *)
From Coq Require Import ZArith NArith QArith String Ascii Lia Bool.
From stdpp Require Import prelude numbers strings list.
From Verif Require Import ValueModel ValueSpec JsonModel JsonSpec JsonProofs JsonProps.
Local Open Scope Z_scope.
Local Open Scope string_scope.
Local Ltac run := vm_compute; reflexivity.
Local Ltac notin := let H := fresh in intro H; repeat (apply elem_of_cons in H as [H|H]; [discriminate|]); inversion H.

Example C51_counter_json_case : u64 18446744073709551615 /\ read_number (write_u64 18446744073709551615) = Some 18446744073709551615%N.
Proof. split; run. Qed.
Example C51_counter_text_case : u64 1200 /\ u64_of_str (display_u64 1200) = Some 1200%N /\ u64_of_str "18446744073709551616" = None.
Proof. split; [run|split; run]. Qed.
Example C51_counter_accepts_case : read_number (JStr "+7") = Some 7%N /\ read_number (JInt 7) = Some 7%N /\ read_number (JFloat "7.0") = None.
Proof. split; [run|split; run]. Qed.
Example C51_index_accepts_case : read_index (JInt 7) = Some 7%N /\ read_index (JStr "7") = None.
Proof. split; run. Qed.
Example C51_value_numbers_case : (exists w, read_value (JInt 18446744073709551615) = Some w /\ (amount w == inject_Z 18446744073709551615)%Q) /\
  read_value (JInt 18446744073709551616) = None /\ read_value (JInt (-1)) = None.
Proof. split; [eexists; split; run|split; run]. Qed.
Definition a_det : details := Details (Pointer "t1" 0) "addr" (Dec 1500 3) [Asset "p" "n" "f" (Dec 7 0)] (JObj [("a", JArr [JInt 1; JNull])]) None.
Example C51_pointer_json_case : a_pointer (Pointer "t1" 18446744073709551615) /\
  pointer_of_json (pointer_to_json (Pointer "t1" 18446744073709551615)) = Some (Pointer "t1" 18446744073709551615).
Proof. split; run. Qed.
Example C51_details_json_case : a_details a_det /\ details_of_json (details_to_json a_det) = Some a_det.
Proof. split; [|run]. repeat (constructor || (unfold a_details, a_pointer, u64; cbn)); try lia. Qed.
Example C51_transaction_json_case : a_transaction a_tx /\ transaction_of_json (transaction_to_json a_tx) = Some a_tx.
Proof. split; [apply C51_transaction_case|apply C51_transaction_read]. Qed.
Example C51_block_json_case : an_event an_ev /\ bevent_of_json (bevent_to_json an_ev) = Some an_ev.
Proof. apply C51_event_case. Qed.
Example C51_metadata_json_case : a_value (JObj [("a", JArr [JInt (-5); JFloat "0.5"]); ("b", JNull)]) /\
  ~ a_value (JObj [("b", JNull); ("a", JNull)]).
Proof.
  split.
  - rewrite <- (eq_refl : read_json (JObj [("b", JInt 1); ("a", JArr [JInt (-5); JFloat "0.5"]); ("b", JNull)]) = JObj [("a", JArr [JInt (-5); JFloat "0.5"]); ("b", JNull)]).
    apply C51_metadata_value.
  - intro H. assert (G := C51_metadata_json _ H). discriminate G.
Qed.
Example C51_distinct_case : a_details a_det /\ details_to_json a_det <> details_to_json (Details (Pointer "t1" 1) "addr" (Dec 1500 3) [] JNull None).
Proof. split; [apply C51_details_json_case|]. vm_compute. discriminate. Qed.
Example C51_pointer_text_injective_case : display_pointer (Pointer "t@1" 1) <> display_pointer (Pointer "t" 1).
Proof. vm_compute. discriminate. Qed.
Example C51_field_order_case : exists p, reordered (JObj [("outputIndex", JInt 3); ("transactionId", JStr "t")]) (JObj [("transactionId", JStr "t"); ("outputIndex", JInt 3)]) /\
  pointer_of_json (JObj [("outputIndex", JInt 3); ("transactionId", JStr "t")]) = Some p /\ p = Pointer "t" 3.
Proof.
  eexists. split; [|split; run]. apply (ro_obj _ [("outputIndex", JInt 3); ("transactionId", JStr "t")]).
  - repeat (constructor; [set_solver|]). constructor.
  - repeat constructor.
  - apply Permutation_swap.
Qed.
Example C51_unknown_refused_case : exists kvs, ("index", JInt 3) ∈ kvs /\ "index" ∉ ["transactionId"; "outputIndex"] /\
  pointer_of_json (JObj kvs) = None /\ pointer_of_json (JObj (drop 1 kvs)) = Some (Pointer "t" 3).
Proof. exists [("index", JInt 3); ("outputIndex", JInt 3); ("transactionId", JStr "t")]. split; [left|]. split; [notin|split; run]. Qed.
Example C51_unknown_ignored_case : exists b, "note" ∉ ["address"; "value"; "assets"; "extra"] /\
  builder_of_json (JObj ([("address", JStr "a"); ("value", JStr "1")] ++ ("note", JInt 3) :: [("assets", JArr [])])) = Some b.
Proof. eexists. split; [notin|run]. Qed.
Example C51_repeated_refused_case : "outputIndex" ∈ ["transactionId"; "outputIndex"] /\
  pointer_of_json (JObj ([] ++ ("outputIndex", JInt 3) :: [("transactionId", JStr "t")] ++ [("outputIndex", JInt 3)])) = None /\
  pointer_of_json (JObj ([] ++ ("outputIndex", JInt 3) :: [("transactionId", JStr "t")])) = Some (Pointer "t" 3).
Proof. split; [right; left|split; run]. Qed.
Example C51_missing_refused_case : "assets" ∉ map fst [("address", JStr "a"); ("value", JStr "1")] /\
  "assets" ∈ ["address"; "value"; "assets"] /\ builder_of_json (JObj [("address", JStr "a"); ("value", JStr "1")]) = None.
Proof. split; [notin|]. split; [right; right; left|run]. Qed.
Example C51_defaults_case : exists d, details_of_json (JObj [("pointer", pointer_to_json (Pointer "t" 3)); ("address", JStr "a"); ("value", JStr "1"); ("metadata", JNull)]) = Some d /\
  dt_assets d = [] /\ dt_extra d = None.
Proof. eexists. split; [run|split; run]. Qed.
Example C51_metadata_last_case : "b" ∉ map fst [("a", JInt 2)] /\ read_json (JObj ([("b", JInt 1)] ++ ("b", JInt 3) :: [("a", JInt 2)])) = JObj [("a", JInt 2); ("b", JInt 3)].
Proof. split; [notin|run]. Qed.
