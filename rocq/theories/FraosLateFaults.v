(** C21: system calls that fail after the file has been grown.  C21_flush_failure_refuted (FraosProps.v) is the flush; here
    are the write-protection of the mapping that is full and the remapping of the full ones. *)
From Coq Require Import Lia ZArith.
From stdpp Require Import numbers list.
From Verif Require Import FraosModel FraosSpec FraosProofs FraosLogProofs FraosCrashProofs FraosHistProofs FraosProps FraosLateSpec FraosLateProofs.

Definition protect_fails : faults := Faults false false true false false.
Definition cannot_map : faults := Faults false true false false false.
Definition remap_fails : faults := Faults false false false false true.
Definition big (b : N) : list N := replicate 70 b.

(** *** write-protecting the full mapping of the data file fails: the append reports an error, and reading a record that was
    stored and readable before aborts the caller; opening the files again gives the record back *)
Theorem C21_protect_failure_refuted : exists d d1 d2 d3 x y,
  files_open small_cfg [] = Ok d /\
  db_append small_cfg no_faults no_faults d [x] = (d1, Ok (Some 0)) /\ db_get d1 0 = Ok (Some x) /\
  db_append small_cfg protect_fails no_faults d1 [y] = (d2, Err IoError) /\ db_get d2 0 = Panic /\
  files_op small_cfg d2 FReopen = Ok d3 /\ db_get d3 0 = Ok (Some x).
Proof.
  eexists _, _, _, _, [1%N; 2%N], (big 3).
  repeat match goal with |- _ /\ _ => split end; vm_compute; reflexivity.
Qed.

(** *** remapping the full mappings of the data file fails: the append reports an error, but its bytes stay, and the next
    append gets the number under which they are read *)
Theorem C21_remap_failure_refuted : exists d d1 d2 x y n,
  files_open small_cfg [FAppend [big 1]; FAppend [big 2]; FAppend [big 3]] = Ok d /\
  db_append small_cfg remap_fails no_faults d [x] = (d1, Err IoError) /\
  db_append small_cfg no_faults no_faults d1 [y] = (d2, Ok (Some n)) /\
  db_get d2 (N.of_nat n) = Ok (Some x) /\ x <> y.
Proof.
  eexists _, _, _, (big 4), (big 5), 3.
  repeat match goal with |- _ /\ _ => split end; [vm_compute; reflexivity..|discriminate].
Qed.
(** *** whichever system calls fail, closing the log and opening it again gives what was stored before the append, or that and
    the whole batch; the whole batch if the append succeeded *)
Theorem C21_reopen_recovers k h fd fi recs d d' r R :
  entry_aligned k -> history_fits k (h ++ [FAppendFail fd fi recs]) -> history_faults_early h ->
  files_open k h = Ok d -> reads_as d R -> db_append k fd fi d recs = (d', r) ->
  r <> Panic /\ exists d2, files_op k d' FReopen = Ok d2 /\
    ((reads_as d2 R /\ forall n, r <> Ok (Some n)) \/ (has_empty recs = false /\ reads_as d2 (R ++ recs))).
Proof.
  intros Hk Hf He Eo HR Ea.
  destruct (files_open_ok k h [FAppendFail fd fi recs] Hk Hf He) as (d0 & B & L & E & H & Hs & HB & HL & _ & _).
  rewrite Eo in E. injection E as <-. unfold batches in HB at 1, HL at 1. cbn [map concat op_batch] in HB, HL. rewrite app_nil_r in HB, HL.
  destruct Hf as [F1 F2]. fold (batches (h ++ [FAppendFail fd fi recs])) in *.
  assert (Hfit : fits (B ++ concat recs) (L ++ place (length B) recs)).
  { split; rewrite app_length, ?place_length; unfold batches in *; lia. }
  assert (HRL : map snd L = R).
  { apply (reads_length d); [eapply reads_ok; eauto|exact HR|]. rewrite map_length.
    assert (G : (N.of_nat (16 * length L) < 2 ^ 64)%N) by apply (do_fits _ _ _ H). change (2 ^ 64)%N with (16 * 2 ^ 60)%N in G. lia. }
  destruct Hs as (df & xf & Hfiles & _ & _).
  destruct (reopen_any k fd fi d B L recs d' r df xf Hk H Hfiles Hfit Ea) as (Hp & L' & d2 & HL' & Hok & Er & B2 & H2 & _).
  split; [exact Hp|]. exists d2. split; [exact Er|]. assert (HR2 := reads_ok _ _ _ H2).
  assert (Hall : L' = L ++ place (length B) recs -> reads_as d2 (R ++ recs)).
  { intros ->. rewrite map_app, place_snd, HRL in HR2. exact HR2. }
  destruct (has_empty recs) eqn:Hem.
  - left. destruct HL' as [->|[G _]]; [|apply has_empty_false in G; congruence]. rewrite HRL in HR2. split; [exact HR2|].
    intros n ->. rewrite (C20_empty_record k fd fi d recs Hem) in Ea. discriminate.
  - destruct HL' as [->|[_ G]]; [|right; auto].
    destruct r as [[n|]|e|]; [right; split; [reflexivity|apply Hall, Hok; eauto]|..]; left; rewrite HRL in HR2; split; try exact HR2; discriminate.
Qed.
(** *** a history in which any system call of any append may fail, if after a failure past the growing of the file the log is
    closed and opened: its log is one the specification allows (FraosSpec.v), with each failed batch absent or complete *)
Theorem C21_reopen_history k h : entry_aligned k -> history_fits k h -> mended h ->
  exists d R, files_open k h = Ok d /\ log_after [] h R /\ reads_as d R.
Proof.
  intros Hk [F1 F2] Hm. fold (batches h) in F1, F2. destruct (open_empty k (length (concat (batches h))) (length (batches h))) as (d & E & H & Hs).
  unfold files_open. rewrite E. destruct (mended_run k _ _ Hk F1 F2 h Hm d [] [] H Hs) as (d' & B & L & E' & H' & St); [simpl; lia..|].
  exists d', (map snd L). split; [exact E'|]. split; [exact St|]. eapply reads_ok; eauto.
Qed.
Definition two_failures : list fop :=
  [FAppend [[1%N]; [2%N; 3%N]; [4%N]]; FAppendFail cannot_map no_faults [big 9]; FAppendFail no_faults protect_fails [[5%N]; [6%N; 7%N]]; FReopen;
   FAppendFail flush_fails no_faults [[8%N]]; FReopen; FAppend [[9%N]]].
Example C21_reopen_history_case : entry_aligned small_cfg /\ history_fits small_cfg two_failures /\ mended two_failures /\
  match files_open small_cfg two_failures with Ok d => map (db_get d) [0; 1; 2; 3; 4]%N | _ => [] end =
  [Ok (Some [1%N]); Ok (Some [2%N; 3%N]); Ok (Some [4%N]); Ok (Some [9%N]); Ok None].
Proof.
  split; [reflexivity|]. split; [split; vm_compute; reflexivity|]. split; [|vm_compute; reflexivity].
  apply md_early; [discriminate|]. apply md_early; [intros fd fi recs G; injection G as <- <- <-; repeat split|].
  apply md_reopened, md_reopened, md_early; [discriminate|constructor].
Qed.
(** a write-protection that fails in the index file, and a flush that fails there *)
Definition after_reopen (fd fi : faults) : option (res (option nat) * list (res (option (list N)))) :=
  match files_open small_cfg [FAppend [[1%N]; [2%N; 3%N]; [4%N]]; FAppendFail cannot_map no_faults [big 9]] with
  | Ok d => let (d', r) := db_append small_cfg fd fi d [[5%N]; [6%N; 7%N]] in
            match files_op small_cfg d' FReopen with Ok d2 => Some (r, map (db_get d2) [0; 2; 3; 4; 5]%N) | _ => None end
  | _ => None
  end.
Example C21_reopen_recovers_case : entry_aligned small_cfg /\
  history_fits small_cfg ([FAppend [[1%N]; [2%N; 3%N]; [4%N]]; FAppendFail cannot_map no_faults [big 9]] ++ [FAppendFail no_faults protect_fails [[5%N]; [6%N; 7%N]]]) /\
  history_faults_early [FAppend [[1%N]; [2%N; 3%N]; [4%N]]; FAppendFail cannot_map no_faults [big 9]] /\
  after_reopen no_faults protect_fails = Some (Err IoError, [Ok (Some [1%N]); Ok (Some [4%N]); Ok None; Ok None; Ok None]) /\
  after_reopen no_faults flush_fails = Some (Err IoError, [Ok (Some [1%N]); Ok (Some [4%N]); Ok (Some [5%N]); Ok (Some [6%N; 7%N]); Ok None]).
Proof. split; [reflexivity|]. split; [split; vm_compute; reflexivity|]. split; [|split; vm_compute; reflexivity].
  intros fd fi recs Hi. apply elem_of_cons in Hi as [Hi|Hi]; [discriminate|]. apply elem_of_list_singleton in Hi. injection Hi as -> -> ->. repeat split. Qed.
Definition all_FraosLateFaults := (@C21_protect_failure_refuted, @C21_remap_failure_refuted, @C21_reopen_recovers, @C21_reopen_history).
Print Assumptions all_FraosLateFaults.
