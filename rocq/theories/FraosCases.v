(** Concrete cases meeting the hypotheses of the theorems of FraosProps.v, one per theorem and named after it. *)
From Coq Require Import Lia ZArith.
From stdpp Require Import numbers list.
From Verif Require Import FraosModel FraosSpec FraosConcModel FraosProps.

Definition more : list (list N) := [[21; 22]; [23]]%N.
Definition ex_later : list fop :=
  [FAppendFail {| f_extend := true; f_map := false; f_protect := false; f_flush := false; f_remap := false |} no_faults [replicate 200 8%N];
   FAppend more; FCrash [[31]; [32]]%N (CrashIndexWords 2)].
Definition ex_kept : list fop := [FAppend [[1; 2; 3]; [4]]%N; FReopen; FAppend [[7]; []]%N; FCrash [[9]; [10; 11]; [12]]%N (CrashIndexWords 3); FAppend [[14]]%N].
Local Ltac run := vm_compute; reflexivity.
Local Ltac early := let H := fresh in intros ? ? ? H;
  cbv [ex_history ex_later ex_kept app] in H;
  repeat (apply elem_of_cons in H as [H|H]; [try discriminate; injection H as -> -> ->; repeat split|]); inversion H.
Local Ltac none := let H := fresh in intros ? ? ? H; cbv [ex_kept] in H; repeat (apply elem_of_cons in H as [H|H]; [discriminate|]); inversion H.

Lemma reads_as_listed d R R' n : reads_as d R -> iter_collect n d 0 = (map Ok R', true) -> reads_as d R'.
Proof.
  intros H E. destruct H as (H1 & H2 & H3 & H4 & H5). specialize (H5 0%N n ltac:(reflexivity)) as E'. rewrite E in E'. cbn [N.to_nat drop] in E'.
  injection E' as G1 G2. assert (R' = R) as ->; [|repeat split; assumption].
  symmetry in G2. apply Nat.ltb_lt in G2. rewrite take_ge in G1 by lia. clear - G1. revert R G1.
  induction R' as [|x l IH]; intros [|y R] G; cbn in G; try discriminate; [reflexivity|]. injection G as -> G. f_equal. auto.
Qed.

(** appends, a reopening, a refused batch, a failed append, a crash inside an append, with mappings of 64 bytes *)
Definition ex_log : list (list N) := [[1; 2; 3]; [4]; [5; 6]; [9]; replicate 100 13; [14]]%N.
Lemma ex_open : exists d, files_open small_cfg ex_history = Ok d /\ reads_as d ex_log /\ db_len d = 6.
Proof.
  destruct ex_fits as (F & G & A). destruct (C12_opens _ _ A F G) as (d & R & E & _ & HR). exists d. split; [exact E|].
  assert (E' : files_open small_cfg ex_history = Ok d) by exact E. vm_compute in E'. injection E' as <-.
  split; [|run]. eapply (reads_as_listed _ _ ex_log 20); [exact HR|run].
Qed.

Example C12_read_back_case : exists d d' n, entry_aligned small_cfg /\ history_fits small_cfg (ex_history ++ [FAppend more]) /\
  history_faults_early ex_history /\ files_open small_cfg ex_history = Ok d /\ db_append small_cfg no_faults no_faults d more = (d', Ok (Some n)) /\ n = 6.
Proof.
  eexists _, _, _. split; [reflexivity|]. split; [split; run|]. split; [apply ex_fits|]. split; [run|]. split; run.
Qed.
Example C12_append_succeeds_case : exists d, entry_aligned small_cfg /\ history_fits small_cfg (ex_history ++ [FAppend more]) /\
  history_faults_early ex_history /\ files_open small_cfg ex_history = Ok d /\ more <> [] /\ has_empty more = false.
Proof. eexists. split; [reflexivity|]. split; [split; run|]. split; [apply ex_fits|]. split; [run|]. split; [discriminate|reflexivity]. Qed.
Example C12_memory_case : entry_aligned small_cfg /\ history_fits small_cfg (map FAppend [more; [[]]; [replicate 100 7%N]]) /\
  log_plain (map FAppend [more; [[]]; [replicate 100 7%N]]) = [[21; 22]; [23]; replicate 100 7]%N.
Proof. split; [reflexivity|]. split; [split; run|reflexivity]. Qed.
Example C13_append_only_case : exists d1 d2, entry_aligned small_cfg /\ history_fits small_cfg (ex_history ++ ex_later) /\
  history_faults_early (ex_history ++ ex_later) /\ files_open small_cfg ex_history = Ok d1 /\ files_run small_cfg d1 ex_later = Ok d2 /\
  db_get d1 4 = Ok (Some (replicate 100 13%N)) /\ db_get d2 8 = Ok (Some [31]%N).
Proof.
  eexists _, _. split; [reflexivity|]. split; [split; run|]. split; [early|]. split; [run|]. split; [run|]. split; run.
Qed.
Example C14_iteration_case : exists d, entry_aligned small_cfg /\ history_fits small_cfg ex_history /\ history_faults_early ex_history /\
  files_open small_cfg ex_history = Ok d /\ (2 < 2 ^ 60)%N /\ db_len d - N.to_nat 2 < 5.
Proof.
  destruct ex_fits as (F & G & A). destruct ex_open as (d & E & _ & Hn). exists d. split; [exact A|]. split; [exact F|]. split; [exact G|]. split; [exact E|].
  split; [reflexivity|]. rewrite Hn. apply Nat.ltb_lt. reflexivity.
Qed.
Example C15_reopen_case : exists d d', files_open small_cfg ex_history = Ok d /\ files_op small_cfg d FReopen = Ok d' /\ reads_as d ex_log.
Proof. destruct ex_open as (d & E & HR & _). destruct ex_fits as (F & G & A). destruct (C15_reopen _ _ d A F G E) as (d' & R & E' & _). exists d, d'. split; [exact E|]. split; [exact E'|exact HR]. Qed.
Example C15_disk_size_case : exists d df xf, history_fits small_cfg ex_kept /\ (forall fd fi recs, FAppendFail fd fi recs ∉ ex_kept) /\
  files_open small_cfg ex_kept = Ok d /\ db_files (db_drop d) = (df, xf) /\ df = Some [1; 2; 3; 4; 9; 14]%N.
Proof. eexists _, _, _. split; [split; run|]. split; [none|]. split; [run|]. split; run. Qed.
(** three records, of whose index entries three words reach the file *)
Example C16_crash_exact_case : exists d R, entry_aligned small_cfg /\
  history_fits small_cfg (ex_history ++ [FCrash [[41]; [42; 43]; [44]]%N (CrashIndexWords 5)]) /\ history_faults_early ex_history /\
  files_open small_cfg ex_history = Ok d /\ reads_as d R /\ crash_kept [[41]; [42; 43]; [44]]%N (CrashIndexWords 5) = 2 /\ length R = 6.
Proof.
  destruct ex_open as (d & E & HR & _). exists d, ex_log. split; [reflexivity|]. split; [split; run|]. split; [apply ex_fits|].
  split; [exact E|]. split; [exact HR|]. split; reflexivity.
Qed.
Example C16_crash_case : exists d d', files_open small_cfg ex_history = Ok d /\
  files_op small_cfg d (FCrash [[41]; [42; 43]; [44]]%N (CrashIndexWords 5)) = Ok d' /\ reads_as d' (ex_log ++ [[41]; [42; 43]]%N).
Proof.
  destruct ex_open as (d & E & HR & _). destruct ex_fits as (F & G & A). exists d.
  destruct (C16_crash_exact small_cfg ex_history [[41]; [42; 43]; [44]]%N (CrashIndexWords 5) d ex_log A) as (d' & E' & HR'); [|exact G|exact E|exact HR|].
  { split; run. } exists d'. split; [exact E|]. split; [exact E'|exact HR'].
Qed.

(** a reader and a length query between the steps of an append, more of them after it *)
Definition ex_trace : list event :=
  [EvBegin [[2]%N; [3; 4]%N]; EvRead 1 (Ok None); EvTau; EvLen 1; EvTau; EvTau; EvLen 1; EvRead 1 (Ok (Some [2]%N)); EvDone 1 [[2]; [3; 4]]%N; EvLen 3;
   EvTau; EvRead 2 (Ok (Some [3; 4]%N)); EvTau; EvRead 1 (Ok (Some [2]%N))].
Lemma ex_trace_runs : exists d st, conc_start small_cfg [FAppend [[1]%N]] ex_trace d [[1]%N] /\ crun small_cfg (CState d WIdle []) ex_trace st.
Proof.
  assert (A : entry_aligned small_cfg) by reflexivity.
  assert (F : history_fits small_cfg [FAppend [[1]%N]]) by (split; run).
  destruct (C12_opens small_cfg [FAppend [[1]%N]] A F ltac:(early)) as (d & R & E & _ & HR).
  assert (E' := E). vm_compute in E'. injection E' as Ed. subst d.
  eexists _, _. split.
  - split; [exact A|]. split; [exact F|]. split; [none|]. split; [exact E|].
    split; [eapply (reads_as_listed _ _ [[1]%N] 5); [exact HR|run]|]. split; run.
  - eapply crun_cons; [eapply CBegin; [discriminate|reflexivity|run]|].
    eapply crun_cons_eq; [eapply (CReadNone _ _ _ _ 1); vm_compute; discriminate|run|].
    eapply crun_cons; [eapply CDataStore|].
    eapply crun_cons_eq; [eapply CLen|run|].
    eapply crun_cons; [eapply CIdxGrow; run|].
    eapply crun_cons. { eapply (CReadIdx _ _ _ _ 1). run. }
    eapply crun_cons_eq; [eapply CLen|run|].
    eapply crun_cons_eq; [eapply (CReadData _ _ _ [] [] 1)|run|].
    eapply crun_cons_eq; [apply (CIdxStore small_cfg)|run|].
    eapply crun_cons_eq; [eapply CLen|run|].
    eapply crun_cons. { eapply (CReadIdx _ _ _ _ 2). run. }
    eapply crun_cons_eq; [eapply (CReadData _ _ _ [] [] 2)|run|].
    eapply crun_cons. { eapply (CReadIdx _ _ _ _ 1). run. }
    eapply crun_cons_eq; [eapply (CReadData _ _ _ [] [] 1)|run|].
    apply crun_nil.
Qed.
Example C17_whole_records_case : (exists d st, conc_start small_cfg [FAppend [[1]%N]] ex_trace d [[1]%N] /\ crun small_cfg (CState d WIdle []) ex_trace st) /\
  EvRead 1 (Ok (Some [2]%N)) ∈ ex_trace /\ EvRead 1 (Ok None) ∈ ex_trace.
Proof. split; [exact ex_trace_runs|]. unfold ex_trace. split; repeat constructor. Qed.
(** the ways of reading [ex_trace] that the other theorems about concurrent use ask for *)
Example C17_monotone_case : exists t1 t2 t3, ex_trace = t1 ++ EvRead 1 (Ok (Some [2]%N)) :: t2 ++ EvRead 1 (Ok (Some [2]%N)) :: t3.
Proof. exists (take 7 ex_trace), (take 5 (drop 8 ex_trace)), []. reflexivity. Qed.
Example C17_acknowledged_case : exists t1 t2 t3, ex_trace = t1 ++ EvDone 1 [[2]; [3; 4]]%N :: t2 ++ EvRead 2 (Ok (Some [3; 4]%N)) :: t3 /\
  2%N = N.of_nat (1 + 1) /\ [[2]; [3; 4]]%N !! 1 = Some [3; 4]%N.
Proof. exists (take 8 ex_trace), (take 2 (drop 9 ex_trace)), (drop 12 ex_trace). repeat split. Qed.
Example C17_len_case : exists t1 t2 t3, ex_trace = t1 ++ EvLen 3 :: t2 ++ EvRead 2 (Ok (Some [3; 4]%N)) :: t3 /\ (2 < N.of_nat 3)%N.
Proof. exists (take 9 ex_trace), (take 1 (drop 10 ex_trace)), (drop 12 ex_trace). repeat split. Qed.
Example C17_len_monotone_case : exists t1 t2 t3, ex_trace = t1 ++ EvLen 1 :: t2 ++ EvLen 3 :: t3.
Proof. exists (take 6 ex_trace), (take 2 (drop 7 ex_trace)), (drop 10 ex_trace). reflexivity. Qed.
Example C17_steps_are_append_case : exists d d' n, files_open small_cfg ex_history = Ok d /\ more <> [] /\ db_append small_cfg no_faults no_faults d more = (d', Ok (Some n)).
Proof. eexists _, _, _. split; [run|]. split; [discriminate|run]. Qed.

Example C18_past_the_end_case : exists d, files_open small_cfg ex_history = Ok d /\ (1000 < 2 ^ 60)%N /\ db_len d <= N.to_nat 1000 /\ db_get d 1000 = Ok None.
Proof.
  destruct ex_open as (d & E & _ & Hn). destruct ex_fits as (F & G & A). exists d. split; [exact E|]. split; [reflexivity|].
  assert (Hl : db_len d <= N.to_nat 1000) by (rewrite Hn; apply Nat.leb_le; reflexivity).
  split; [exact Hl|]. apply (C18_past_the_end small_cfg ex_history d 1000%N A F G E); [reflexivity|exact Hl].
Qed.
Example C18_wraps_case : exists d r, files_open small_cfg ex_history = Ok d /\ db_get d 2 = Ok (Some r) /\ db_get d (2 + 2 ^ 60) = Ok (Some r).
Proof. eexists _, _. split; [run|]. split; run. Qed.
(** an index of seven entries of which the fourth and the last three are unused *)
Definition ex_lens : list N := [3; 1; 2; 0; 0; 0; 0]%N.
Example C19_search_exact_case : 0 < 7 /\ 3 <= 7 /\ (forall i, i < 7 -> (fun i => match ex_lens !! i with Some x => Ok x | None => Panic end) i = Ok (ex_lens !!! i)) /\
  (forall i, i < 3 -> ex_lens !!! i <> 0%N) /\ (forall i, 3 <= i < 7 -> ex_lens !!! i = 0%N).
Proof.
  split; [lia|]. split; [lia|]. repeat split; intros i Hi.
  - do 7 (destruct i as [|i]; [reflexivity|]). lia.
  - do 3 (destruct i as [|i]; [vm_compute; discriminate|]). lia.
  - do 7 (destruct i as [|i]; [try reflexivity; lia|]). lia.
Qed.
(** the same with gaps: the search stops at a position after a used and before an unused entry *)
Example C19_search_case : 0 < 7 /\ (forall i, i < 7 -> (fun i => match [3; 0; 2; 1; 0; 0; 0]%N !! i with Some x => Ok x | None => Panic end) i = Ok ([3; 0; 2; 1; 0; 0; 0]%N !!! i)) /\
  find_actual_end 8 (fun i => match [3; 0; 2; 1; 0; 0; 0]%N !! i with Some x => Ok x | None => Panic end) 7 = Some (Ok 1, 3).
Proof. split; [lia|]. split; [|run]. intros i Hi. do 7 (destruct i as [|i]; [reflexivity|]). lia. Qed.
Example C19_any_index_opens_case : let f := (replicate 8 0 ++ [5] ++ replicate 7 0 ++ replicate 16 0 ++ replicate 15 9 ++ [1])%N in
  length f = 16 * 3 /\ (N.of_nat (length f) < 2 ^ 64)%N.
Proof. split; reflexivity. Qed.
Example C20_empty_record_case : has_empty [[1]; []; [2]]%N = true /\ has_empty [[]] = true.
Proof. split; reflexivity. Qed.

(** the failing append needs another mapping, which the system refuses *)
Definition refused : faults := {| f_extend := false; f_map := true; f_protect := false; f_flush := false; f_remap := false |}.
Example C21_failed_append_case : exists d d' e R, entry_aligned small_cfg /\ history_fits small_cfg (ex_history ++ [FAppendFail refused no_faults [replicate 90 8%N]]) /\
  history_faults_early (ex_history ++ [FAppendFail refused no_faults [replicate 90 8%N]]) /\
  files_open small_cfg ex_history = Ok d /\ reads_as d R /\ db_append small_cfg refused no_faults d [replicate 90 8%N] = (d', Err e).
Proof.
  destruct ex_open as (d & E & HR & _). exists d.
  assert (Ha : exists d' e, db_append small_cfg refused no_faults d [replicate 90 8%N] = (d', Err e)).
  { clear HR. vm_compute in E. injection E as <-. eexists _, _. run. }
  destruct Ha as (d' & e & Ha). exists d', e, ex_log. split; [reflexivity|]. split; [split; run|]. split; [clear; early|].
  split; [exact E|]. split; [exact HR|exact Ha].
Qed.
(** the index cannot grow although the data could *)
Example C21_failed_index_case : exists d d' e, files_open small_cfg ex_history = Ok d /\ db_append small_cfg no_faults refused d (replicate 8 [8%N]) = (d', Err e).
Proof. eexists _, _, _. split; run. Qed.
Example C21_later_append_case : exists d d1 d2 e n, history_fits small_cfg (ex_history ++ [FAppendFail refused no_faults [replicate 90 8%N]; FAppend more]) /\
  history_faults_early (ex_history ++ [FAppendFail refused no_faults [replicate 90 8%N]]) /\ files_open small_cfg ex_history = Ok d /\
  db_append small_cfg refused no_faults d [replicate 90 8%N] = (d1, Err e) /\ db_append small_cfg no_faults no_faults d1 more = (d2, Ok (Some n)) /\ n = 6.
Proof. eexists _, _, _, _, _. split; [split; run|]. split; [early|]. split; [run|]. split; [run|]. split; run. Qed.
Example C22_drop_keeps_reads_case : exists d, files_open small_cfg ex_history = Ok d /\ reads_as (db_drop d) ex_log.
Proof.
  destruct ex_open as (d & E & HR & Hn). destruct ex_fits as (F & G & A). exists d. split; [exact E|].
  destruct (C22_drop_keeps_reads _ _ d A F G E) as (R & _ & HR').
  assert (E' := E). vm_compute in E'. injection E' as Ed. subst d. eapply (reads_as_listed _ _ ex_log 20); [exact HR'|run].
Qed.
(** mappings of 64 bytes, at most two, and of 4096 bytes, at most eight *)
Example C23_mappings_invisible_case : let h := [FAppend more; FReopen; FAppend [[1]; []]%N; FAppend [replicate 100 7%N]] in
  let k2 := {| min_mmap := 4096; max_mmaps := 8 |} in
  entry_aligned small_cfg /\ entry_aligned k2 /\ history_fits small_cfg h /\ history_fits k2 h /\ (forall o, o ∈ h -> plain_op o = true) /\
  (exists d1, files_open small_cfg h = Ok d1) /\ (exists d2, files_open k2 h = Ok d2) /\ log_plain h = [[21; 22]; [23]; replicate 100 7]%N.
Proof.
  cbv zeta. split; [reflexivity|]. split; [run|]. split; [split; run|]. split; [split; run|].
  split. { intros o H. repeat (apply elem_of_cons in H as [->|H]; [reflexivity|]). inversion H. }
  split; [eexists; run|]. split; [eexists; run|reflexivity].
Qed.
Example C23_files_or_memory_case : exists d1 d2, files_open small_cfg (map FAppend [more; [[9]%N]]) = Ok d1 /\ mem_open real_cfg [more; [[9]%N]] = Ok d2 /\
  history_fits small_cfg (map FAppend [more; [[9]%N]]) /\ history_fits real_cfg (map FAppend [more; [[9]%N]]).
Proof.
  destruct (C12_memory real_cfg [more; [[9]%N]] real_cfg_aligned) as (d2 & E & _); [split; run|].
  eexists _, d2. split; [run|]. split; [exact E|]. split; split; run.
Qed.
