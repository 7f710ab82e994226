(** C50: read-only handles of the log. *)
From Coq Require Import Lia ZArith.
From stdpp Require Import numbers list.
From Verif Require Import FraosModel FraosSpec FraosProofs FraosLogProofs FraosCrashProofs FraosHistProofs FraosProps FraosRoModel FraosRoSpec FraosRoProofs.

(** A reader in another process opens the log while the writer of the history h is somewhere in it, the index at one moment and
    the data at that moment or later.  It opens, it has exactly the records that the index had at the first moment, and it still
    has exactly these, with these contents, at every later moment, whatever the writer did: appended, failed, was killed,
    closed the log and opened it again. *)
Theorem C50_snapshot k h m1 m2 m3 d R df1 xf1 df2 xf2 df3 xf3 mk :
  entry_aligned k -> history_fits k h -> history_faults_early h ->
  occurs h m1 -> occurs h m2 -> occurs h m3 -> not_later h m1 m2 -> not_later h m2 m3 ->
  files_open k (take (m_done m1) h) = Ok d -> reads_as d R ->
  files_at k h m1 = Some (df1, xf1) -> files_at k h m2 = Some (df2, xf2) -> files_at k h m3 = Some (df3, xf3) ->
  exists r, open_path false mk (PDir (Some df2) (Some xf1)) = (PDir (Some df2) (Some xf1), Ok r) /\
    reads_as r (R ++ kept_at h m1) /\ reads_as (db_under r df3 xf3) (R ++ kept_at h m1).
Proof.
  intros Hk Hf He O1 O2 O3 L12 L23 Eo HR F1 F2 F3.
  destruct (at_op_open k h (m_done m1) Hk Hf He) as (d' & B1 & L1 & A1).
  assert (d' = d) as -> by (destruct A1 as [A _]; congruence).
  destruct (moment_later k h m1 m2 d B1 L1 Hk Hf He A1 O1 O2 L12) as (d2 & B2 & L2 & A2 & P12).
  destruct (moment_later k h m2 m3 d2 B2 L2 Hk Hf He A2 O2 O3 L23) as (d3 & B3 & L3 & A3 & P23).
  destruct (files_at_ok k h m1 d B1 L1 Hk Hf A1) as (a1 & b1 & G1 & Ok1 & [_ X1]). rewrite F1 in G1. injection G1 as <- <-.
  destruct (files_at_ok k h m2 d2 B2 L2 Hk Hf A2) as (a2 & b2 & G2 & Ok2 & [X2 _]). rewrite F2 in G2. injection G2 as <- <-.
  destruct (files_at_ok k h m3 d3 B3 L3 Hk Hf A3) as (a3 & b3 & G3 & Ok3 & X3). rewrite F3 in G3. injection G3 as <- <-.
  destruct (reader_ok df1 xf1 df2 _ _ _ xf2 df3 xf3 Ok1 Ok2 Ok3 (conj X2 X1) P12 P23 X3) as (r & E & Ra & Rb).
  assert (HRL : map snd (at_moment h m1 B1 L1) = R ++ kept_at h m1).
  { unfold at_moment. rewrite map_app, place_snd. f_equal. destruct A1 as (_ & H & _).
    apply (reads_length d); [eapply reads_ok; eauto|exact HR|]. rewrite map_length.
    assert (G : (N.of_nat (16 * length L1) < 2 ^ 64)%N) by apply (do_fits _ _ _ H). change (2 ^ 64)%N with (16 * 2 ^ 60)%N in G. lia. }
  rewrite HRL in *. exists r. split; [|auto]. simpl. rewrite open_dir_existing, E. reflexivity.
Qed.
(** the files of every such moment exist *)
Theorem C50_moments k h m : entry_aligned k -> history_fits k h -> history_faults_early h -> occurs h m ->
  exists d R df xf, files_open k (take (m_done m) h) = Ok d /\ reads_as d R /\ files_at k h m = Some (df, xf).
Proof.
  intros Hk Hf He _. destruct (at_op_open k h (m_done m) Hk Hf He) as (d & B & L & A).
  destruct (files_at_ok k h m d B L Hk Hf A) as (df & xf & E & _). destruct A as (Eo & H & _).
  exists d, (map snd L), df, xf. split; [exact Eo|]. split; [eapply reads_ok; eauto|exact E].
Qed.

(** Where the files exist, the two ways of opening give the same, and leave the files as they are. *)
Theorem C50_same_as_writable w mk df xf : open_path w mk (PDir (Some df) (Some xf)) = (PDir (Some df) (Some xf), db_new (Some df) (Some xf)).
Proof. apply open_dir_existing. Qed.

(** Nothing can be written through a handle that was opened for reading only, and it changes neither the files nor itself, over
    whatever files it is at the time; nor are the files changed when it is dropped. *)
Theorem C50_refuses k mk p p' r df xf recs : open_path false mk p = (p', Ok r) ->
  let r' := db_under r df xf in
  ro_append k r' recs = (r', if length recs =? 0 then Ok None else Err (if has_empty recs then EmptyRecord else IoError)) /\
  ro_drop_files r' = (Some df, Some xf).
Proof.
  intros E r'. split; [|reflexivity].
  assert (Hfr : g_active (ap_mmap (d_data r)) = None).
  { destruct p as [| |D X]; simpl in E; [destruct mk; discriminate|discriminate|].
    unfold open_dir, open_file in E. destruct X as [x|]; [|discriminate]. destruct (open_index (Some x)) as [[idx e]| |]; try discriminate.
    destruct D as [f|]; [|discriminate]. destruct (appender_new (Some f) (Some e)) as [data| |] eqn:Ed; try discriminate. injection E as _ <-.
    simpl. apply (fr_active _ (appender_new_fresh _ _ _ Ed)). }
  unfold ro_append. destruct recs as [|r0 recs]; [reflexivity|]. destruct (has_empty (r0 :: recs)) eqn:Ee.
  - rewrite (C20_empty_record _ _ _ _ _ Ee). reflexivity.
  - assert (Eb : existsb (fun x => length x =? 0) (r0 :: recs) = false) by (apply existsb_empty, has_empty_false; exact Ee).
    assert (Hc : length (concat (r0 :: recs)) =? 0 = false).
    { apply Nat.eqb_neq. simpl. simpl in Ee. destruct r0; [discriminate|simpl; lia]. }
    unfold db_append, flat_append. rewrite Eb. unfold appender_append. rewrite Hc. unfold grow_and_apply. rewrite Hc. unfold grow_prepare. simpl.
    rewrite Hfr. unfold r', db_under, ap_under, gmm_under. rewrite Hfr. reflexivity.
Qed.
Theorem C50_refuses_put k mk p p' r df xf rec : open_path false mk p = (p', Ok r) ->
  let r' := db_under r df xf in
  ro_put_seqno k r' rec = (r', Err (match rec with [] => EmptyRecord | _ => IoError end)).
Proof.
  intros E r'. unfold ro_put_seqno, db_put_seqno. destruct (C50_refuses k mk p p' r df xf [rec] E) as [H _].
  unfold ro_append in H. fold r' in H. rewrite H. simpl. destruct rec; reflexivity.
Qed.

(** A log that is not there is not opened, and no files are made ... *)
Theorem C50_missing mk p : match p with PDir (Some _) (Some _) => False | _ => True end ->
  (exists e, snd (open_path false mk p) = Err e) \/ snd (open_path false mk p) = Panic.
Proof.
  intro H. destruct p as [| |D X]; simpl; [destruct mk; left; eexists; reflexivity|left; eexists; reflexivity|].
  unfold open_dir, open_file. destruct X as [x|]; [|left; eexists; reflexivity].
  destruct (open_index (Some x)) as [[idx e]|e|]; [|left; eexists; reflexivity|right; reflexivity]. destruct D as [f|]; [tauto|left; eexists; reflexivity].
Qed.
Theorem C50_makes_no_files mk p : p <> PMissing -> fst (open_path false mk p) = p.
Proof.
  destruct p as [| |D X]; intro H; [congruence|reflexivity|]. simpl. unfold open_dir, open_file. destruct X as [x|]; [|reflexivity].
  destruct (open_index (Some x)) as [[idx e]|e|]; [|reflexivity|reflexivity]. destruct D as [f|]; reflexivity.
Qed.
(** ... but the directory is: opening a missing log for reading only fails and leaves an empty directory *)
Theorem C50_makes_directory_refuted : open_path false true PMissing = (PDir None None, Err IoError).
Proof. reflexivity. Qed.
(** Where no directory can be made, or something that is no directory is in its place, neither way of opening gives a log, and
    nothing is changed. *)
Theorem C50_no_place w mk p : (p = PMissing /\ mk = false) \/ p = PFile -> open_path w mk p = (p, Err IoError).
Proof. intros [[-> ->]| ->]; reflexivity. Qed.
(** For writing, a log that is not there is made, and is empty. *)
Theorem C50_writable_makes_log : exists d, open_path true true PMissing = (PDir (Some []) (Some []), Ok d) /\ reads_as d [] /\ files_open real_cfg [] = Ok d.
Proof.
  destruct (open_empty real_cfg 0 0) as (d & E & H & _). exists d.
  split; [change (open_path true true PMissing) with (open_dir true (Some []) (Some [])); rewrite open_dir_existing, E; reflexivity|].
  split; [apply (reads_ok d [] [] H)|]. unfold files_open. rewrite E. reflexivity.
Qed.

(** ** Opening is not one step: the end of the index is searched for while the writer may be adding entries. *)
(** When the search ends with a number, that many entries were used at some moment during the search. *)
Theorem C50_search_while_growing len_at len used fuel n reads : growing len_at len used -> 0 < len ->
  find_actual_end_at fuel len_at len = Some (Ok n, reads) -> exists t, t < reads /\ n = used t.
Proof. intros. eapply find_end_growing; eauto. Qed.
(** the search of C19 is the case in which nothing changes *)
Theorem C50_search_still fuel len_at len : find_actual_end_at fuel (fun _ => len_at) len = find_actual_end fuel len_at len.
Proof. apply find_end_const. Qed.
(** But it need not end: a writer who adds two entries during it makes it run for ever ... *)
Definition busy_writer (used : nat -> nat) (t i : nat) : res N := Ok (if i <? used t then 1%N else 0%N).
Lemma busy_growing used len : (forall t, used t <= used (S t)) -> (forall t, used t <= len) -> growing (busy_writer used) len used.
Proof.
  intros H1 H2. split; [exact H1|]. split; [exact H2|]. intros t i _. unfold busy_writer. destruct (i <? used t) eqn:E.
  - apply Nat.ltb_lt in E. exists 1%N. split; [reflexivity|]. split; [auto|discriminate].
  - apply Nat.ltb_ge in E. exists 0%N. split; [reflexivity|]. split; [congruence|lia].
Qed.
Theorem C50_search_ends_refuted : exists len_at len used, growing len_at len used /\ used 0 = 1 /\ (forall t, used t <= 3) /\ len = 8 /\
  forall fuel, find_actual_end_at fuel len_at len = None.
Proof.
  set (used := fun t => if t <? 2 then 1 else if t <? 8 then 2 else 3).
  assert (Hm : forall t, used t <= used (S t)).
  { intro t. unfold used. destruct (t <? 2) eqn:E1, (S t <? 2) eqn:E2, (t <? 8) eqn:E3, (S t <? 8) eqn:E4;
      rewrite ?Nat.ltb_lt, ?Nat.ltb_ge in *; lia. }
  assert (Hu : forall t, used t <= 3) by (intro t; unfold used; destruct (t <? 2), (t <? 8); lia).
  exists (busy_writer used), 8, used. split; [apply busy_growing; [exact Hm|intro t; specialize (Hu t); lia]|].
  split; [reflexivity|]. split; [exact Hu|]. split; [reflexivity|].
  assert (Hloop : forall fuel r, 8 <= r -> find_loop_at fuel (busy_writer used) 8 1 2 r = None).
  { induction fuel as [|fuel IH]; intros r Hr; [reflexivity|]. cbn [find_loop_at].
    assert (Hur : forall t, 8 <= t -> used t = 3).
    { intros t Ht. unfold used. destruct (t <? 2) eqn:E1; [apply Nat.ltb_lt in E1; lia|]. destruct (t <? 8) eqn:E2; [apply Nat.ltb_lt in E2; lia|reflexivity]. }
    unfold busy_writer at 1 2. rewrite !Hur by lia. simpl. apply IH. lia. }
  assert (E : forall fuel, find_actual_end_at (S (S (S fuel))) (busy_writer used) 8 = find_loop_at fuel (busy_writer used) 8 1 2 8) by reflexivity.
  intros [|[|[|fuel]]]; try reflexivity. rewrite E. apply Hloop. lia.
Qed.
(** ... and one who fills the last entry makes it report a damaged index. *)
Theorem C50_search_reports_damage_refuted : exists len_at len used, growing len_at len used /\ 0 < used 0 /\
  exists reads, find_actual_end_at 8 len_at len = Some (Err IndexFileDamaged, reads).
Proof.
  exists (busy_writer (fun t => if t <? 2 then 1 else 2)), 2, (fun t => if t <? 2 then 1 else 2). split; [|split; [simpl; lia|eexists; reflexivity]].
  apply busy_growing; intro t.
  - destruct (t <? 2) eqn:E1, (S t <? 2) eqn:E2; rewrite ?Nat.ltb_lt, ?Nat.ltb_ge in *; lia.
  - destruct (t <? 2); lia.
Qed.

Lemma i_find_one a b : a < b -> i_find [Chunk 0 [b]] a = Ok (Some (0, a, b - a)).
Proof.
  intro H. unfold i_find, bsearch. simpl. unfold c_end, c_size. simpl.
  destruct (a <? b) eqn:E; [|apply Nat.ltb_ge in E; lia]. rewrite Nat.compare_refl. simpl.
  unfold c_find, c_end, c_size. simpl. destruct (b =? 0) eqn:E0; [apply Nat.eqb_eq in E0; lia|].
  destruct (b <=? a) eqn:E1; [apply Nat.leb_le in E1; lia|]. simpl. rewrite Nat.sub_0_r.
  destruct (a =? 0) eqn:E2; [apply Nat.eqb_eq in E2; subst a; rewrite Nat.sub_0_r; reflexivity|].
  unfold bsearch. simpl. assert (Hc : Nat.compare b a = Gt) by (apply Nat.compare_gt_iff; lia). rewrite Hc. reflexivity.
Qed.

(** While it searches, the reader has the whole index file mapped, with the room for later entries.  A writer who closes the
    log then cuts the file, and the reader that looks at an entry behind the end is killed. *)
Theorem C50_open_during_close_refuted xf xf' n ap : length xf = 16 * n -> 0 < n -> (N.of_nat (16 * n) < 2 ^ 64)%N ->
  appender_new (Some xf) None = Ok ap -> length xf' < length xf -> idx_last (ap_under ap xf') = Panic.
Proof.
  intros Hl Hn Hfit E Hs. unfold appender_new in E. rewrite gmm_new_none_ok in E.
  destruct (gmm_new (Some xf) (Some (length xf))) as [g| |] eqn:Eg; try discriminate. injection E as <-.
  unfold gmm_new in Eg. rewrite Nat.ltb_irrefl in Eg. simpl in Eg. destruct (length xf =? 0) eqn:E0; [apply Nat.eqb_eq in E0; lia|].
  assert (Ec : c_append (Chunk 0 []) (length xf) = Ok (Chunk 0 [length xf])).
  { unfold c_append. rewrite E0. destruct (length xf <=? c_size (Chunk 0 [])) eqn:G; [|reflexivity]. apply Nat.leb_le in G. unfold c_size in G. simpl in G. lia. }
  rewrite Ec in Eg. assert (Ei : i_append [] (Chunk 0 [length xf]) = Ok [Chunk 0 [length xf]]) by (unfold i_append, c_size; simpl; rewrite E0; reflexivity).
  rewrite Ei in Eg. injection Eg as <-. unfold idx_last.
  assert (Hsz : gmm_len (Gmm (Some xf) [Chunk 0 [length xf]] [VFile 0 (length xf)] None) = 16 * n) by (unfold gmm_len, i_len, c_end, c_size; simpl; lia).
  assert (Hil : idx_len (ap_under (Appender (Gmm (Some xf) [Chunk 0 [length xf]] [VFile 0 (length xf)] None) (gmm_len (Gmm (Some xf) [Chunk 0 [length xf]] [VFile 0 (length xf)] None))) xf') = n).
  { unfold idx_len, ap_under. simpl ap_size. rewrite Hsz. rewrite Nat.div_div by lia. change (8 * 2) with 16. rewrite Nat.mul_comm. apply Nat.div_mul. lia. }
  rewrite Hil. destruct (n =? 0) eqn:E1; [apply Nat.eqb_eq in E1; lia|]. unfold idx_get.
  assert (Ha : N.to_nat ((N.of_nat (n - 1) * 8 * 2) mod 2 ^ 64) = 16 * (n - 1)) by (rewrite N.mod_small by lia; lia).
  rewrite Ha. unfold get_ref. simpl g_index. simpl g_maps. simpl g_file. rewrite Hl in *.
  assert (Hi : i_len [Chunk 0 [16 * n]] = 16 * n) by reflexivity. rewrite Hi.
  destruct (16 * (n - 1) <? 16 * n) eqn:E2; [|apply Nat.ltb_ge in E2; lia].
  assert (Hfd : i_find [Chunk 0 [16 * n]] (16 * (n - 1)) = Ok (Some (0, 16 * (n - 1), 16))).
  { rewrite i_find_one by lia. do 3 f_equal. lia. }
  rewrite Hfd. cbn [lookup list_lookup]. rewrite view_slice_ok by (simpl view_len; lia). cbn [view_sub view_read].
  destruct (0 + 16 * (n - 1) + 16 <=? length xf') eqn:E3; [apply Nat.leb_le in E3; lia|]. reflexivity.
Qed.

(** ** the theorems speak of something *)
Definition small_cfg : cfg := Cfg 32 2.
Definition a_history : list fop := [FAppend [[1%N]; [2%N; 3%N]]; FAppend [[4%N]; [5%N; 6%N]; [7%N]]; FReopen; FCrash [[8%N]; [9%N]] (CrashIndexWords 3)].
Definition in_append : moment := Moment 1 (CrashIndexWords 2).
Definition in_close : moment := Moment 2 CrashInDrop.
Definition in_crash : moment := Moment 3 (CrashIndexWords 2).
Example C50_case : entry_aligned small_cfg /\ history_fits small_cfg a_history /\ history_faults_early a_history /\
  occurs a_history in_append /\ occurs a_history in_close /\ occurs a_history in_crash /\
  not_later a_history in_append in_close /\ not_later a_history in_close in_crash /\
  kept_at a_history in_append = [[4%N]] /\
  exists df1 xf1 df2 xf2 df3 xf3, files_at small_cfg a_history in_append = Some (df1, xf1) /\ files_at small_cfg a_history in_close = Some (df2, xf2) /\
    files_at small_cfg a_history in_crash = Some (df3, xf3) /\ length xf1 = 80 /\ length xf2 = 80 /\ length xf3 = 112 /\
    exists r, open_path false true (PDir (Some df2) (Some xf1)) = (PDir (Some df2) (Some xf1), Ok r) /\
      fst (iter_collect 9 (db_under r df3 xf3) 0) = map Ok [[1%N]; [2%N; 3%N]; [4%N]].
Proof.
  split; [reflexivity|]. split; [split; vm_compute; reflexivity|].
  split. { intros fd fi recs H. unfold a_history in H. repeat (apply elem_of_cons in H as [H|H]; [discriminate|]). inversion H. }
  repeat (split; [first [split; [simpl; lia|]; simpl; try split; try discriminate; try exact I; vm_compute; lia|left; simpl; lia|reflexivity]|]).
  eexists _, _, _, _, _, _. repeat (split; [vm_compute; reflexivity|]). eexists. split; vm_compute; reflexivity.
Qed.
Example C50_refuses_case : exists p' r, open_path false true (PDir (Some [5%N]) (Some (entry_bytes (0, 1)))) = (p', Ok r) /\ db_get r 0 = Ok (Some [5%N]) /\
  ro_append small_cfg r [[1%N]] = (r, Err IoError).
Proof. eexists _, _. split; [vm_compute; reflexivity|]. split; vm_compute; reflexivity. Qed.
Example C50_search_case : growing (busy_writer (fun t => Nat.min 4 (t + 1))) 16 (fun t => Nat.min 4 (t + 1)) /\
  find_actual_end_at 20 (busy_writer (fun t => Nat.min 4 (t + 1))) 16 = Some (Ok 4, 11).
Proof. split; [apply busy_growing; intro t; lia|reflexivity]. Qed.
(** a writer with two records, and what it leaves when it closes the log *)
Example C50_open_during_close_case : exists d xf df xf', files_open small_cfg [FAppend [[1%N]]] = Ok d /\ snd (db_files d) = Some xf /\
  length xf = 16 * 2 /\ db_files (db_drop d) = (Some df, Some xf') /\ length xf' < length xf.
Proof. eexists _, _, _, _. split; [vm_compute; reflexivity|]. split; [vm_compute; reflexivity|]. split; [vm_compute; reflexivity|]. split; [vm_compute; reflexivity|]. vm_compute. lia. Qed.

Definition all_C50 := (@C50_snapshot, @C50_moments, @C50_same_as_writable, @C50_refuses, @C50_refuses_put, @C50_missing, @C50_makes_no_files, @C50_no_place,
  @C50_makes_directory_refuted, @C50_writable_makes_log, @C50_search_while_growing, @C50_search_still, @C50_search_ends_refuted,
  @C50_search_reports_damage_refuted, @C50_open_during_close_refuted).
Print Assumptions all_C50.
