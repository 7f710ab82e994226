(** C21, continued: an append to an in-memory log for which there is no memory. *)
From Coq Require Import Lia ZArith.
From stdpp Require Import numbers list.
From Verif Require Import FraosModel FraosSpec FraosProofs FraosLogProofs FraosHistProofs FraosProps.

(** If an append to an in-memory log reports an error, because memory could not be mapped, nothing of it is stored ... *)
Theorem C21_memory_failed k h fd fi recs d d' e : entry_aligned k -> history_fits k (map FAppend (h ++ [recs])) ->
  no_late_faults fd -> no_late_faults fi -> mem_open k h = Ok d -> db_append k fd fi d recs = (d', Err e) ->
  reads_as d (log_plain (map FAppend h)) /\ reads_as d' (log_plain (map FAppend h)).
Proof.
  intros Hk [F1 F2] Hfd Hfi Eo Ea. assert (Hm : map op_batch (map FAppend (h ++ [recs])) = h ++ [recs]) by (rewrite map_map; apply map_id). rewrite Hm in *.
  rewrite concat_app in *. cbn [concat] in *. rewrite app_nil_r in *. rewrite concat_app, app_length in F1. rewrite app_length in F2.
  unfold mem_open in Eo. destruct mem_empty as (d0 & E0 & H0). rewrite E0 in Eo.
  destruct (mem_run_ok k Hk h d0 [] [] H0) as (d1 & B & L & E1 & H & HL & S1 & S2); cbn [length] in *; [lia..|]. rewrite Eo in E1. injection E1 as <-.
  cbn [map app] in HL.
  assert (Hfit : fits (B ++ concat recs) (L ++ place (length B) recs)) by (split; rewrite app_length, ?place_length; lia).
  rewrite <- HL. split; [eapply reads_ok; eauto|].
  destruct (db_append_ok k fd fi d B L recs d' _ Hk H Hfd Hfi Hfit Ea) as
      [(_ & _ & G)|[(_ & _ & -> & _)|[(_ & _ & G & _)|(_ & _ & _ & [Hok|Hok] & _)]]]; try discriminate; eapply reads_ok; eauto.
Qed.
(** ... and the first append to a new log does report it when no memory can be mapped. *)
Theorem C21_memory_reported k fd fi recs d : mem_open k [] = Ok d -> recs <> [] -> has_empty recs = false -> f_map fd = true ->
  db_append k fd fi d recs = (d, Err IoError).
Proof.
  intros Eo Hne He Hm. assert (En : existsb (fun r => length r =? 0) recs = false) by (apply existsb_empty, has_empty_false, He).
  assert (Hl : (length (concat recs) =? 0) = false).
  { apply Nat.eqb_neq. destruct recs as [|[|b r] recs]; [done|discriminate|discriminate]. }
  unfold mem_open in Eo. vm_compute in Eo. injection Eo as <-.
  unfold db_append. destruct recs as [|r0 recs0] eqn:Er; [done|]. cbn iota. rewrite <- Er in *. unfold flat_append. rewrite Er at 1. cbn iota. rewrite En. cbv zeta.
  unfold appender_append, grow_and_apply. cbn [d_data ap_mmap]. rewrite Hl. unfold grow_prepare. cbn [g_active g_file g_index g_maps]. unfold create_mmap. rewrite Hm.
  cbn. reflexivity.
Qed.

Definition map_fails : faults := {| f_extend := false; f_map := true; f_protect := false; f_flush := false; f_remap := false |}.
Definition one_batch : list (list (list byte)) := [ [ [1%N; 2%N] ] ].
Definition large_batch : list (list byte) := [replicate 70 8%N].
Example C21_memory_case : entry_aligned small_cfg /\ history_fits small_cfg (map FAppend (one_batch ++ [large_batch])) /\ no_late_faults map_fails /\
  exists d d', mem_open small_cfg one_batch = Ok d /\ db_append small_cfg map_fails no_faults d large_batch = (d', Err IoError) /\
    db_get d' 0 = Ok (Some [1%N; 2%N]) /\ db_len d' = 1 /\
  exists d0, mem_open small_cfg [] = Ok d0 /\ db_append small_cfg map_fails no_faults d0 [ [1%N] ] = (d0, Err IoError).
Proof.
  split; [reflexivity|]. split; [split; vm_compute; reflexivity|]. split; [repeat split|]. eexists _, _. repeat (split; [vm_compute; reflexivity|]).
  eexists. split; vm_compute; reflexivity.
Qed.

Definition all_FraosMemProps := (C21_memory_failed, C21_memory_reported, C21_memory_case).
Print Assumptions all_FraosMemProps.
