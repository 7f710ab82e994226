(** Properties C12-C23: the append-only log. *)
From Coq Require Import Lia ZArith.
From stdpp Require Import numbers list.
From Verif Require Import FraosModel FraosSpec FraosProofs FraosLogProofs FraosCrashProofs FraosHistProofs FraosConcModel FraosConcProofs.

Lemma real_cfg_aligned : entry_aligned real_cfg.
Proof. vm_compute. reflexivity. Qed.

(** every history the theorems speak of can be run: opening never fails, whatever happened before *)
Theorem C12_opens k h : entry_aligned k -> history_fits k h -> history_faults_early h ->
  exists d R, files_open k h = Ok d /\ log_after [] h R /\ reads_as d R.
Proof.
  intros Hk Hf He. destruct (files_open_ok k h [] Hk ltac:(rewrite app_nil_r; exact Hf) He) as (d & B & L & E & H & _ & _ & _ & Hl & _).
  exists d, (map snd L). split; [exact E|]. split; [exact Hl|]. eapply reads_ok; eauto.
Qed.

(** what an append returns and what can be read under the numbers it gives, after any history *)
Theorem C12_read_back k h recs d d' n :
  entry_aligned k -> history_fits k (h ++ [FAppend recs]) -> history_faults_early h ->
  files_open k h = Ok d -> db_append k no_faults no_faults d recs = (d', Ok (Some n)) ->
  n = db_len d /\ db_len d' = n + length recs /\
  (forall i r, recs !! i = Some r -> db_get d' (N.of_nat (n + i)) = Ok (Some r)) /\
  (forall s, (s < N.of_nat n)%N -> db_get d' s = db_get d s).
Proof.
  intros Hk Hf He Eo Ea. destruct (files_open_ok k h [FAppend recs] Hk Hf He) as (d0 & B & L & E & H & Hs & HB & HL & Hl & _).
  rewrite Eo in E. injection E as <-. unfold batches in HB, HL. cbn [map concat op_batch] in HB, HL. rewrite app_nil_r in HB, HL.
  destruct Hf as [F1 F2]. fold (batches (h ++ [FAppend recs])) in *.
  assert (Hfit : fits (B ++ concat recs) (L ++ place (length B) recs)).
  { split; rewrite app_length, ?place_length; unfold batches in *; lia. }
  destruct (db_append_ok k no_faults no_faults d B L recs d' _ Hk H ltac:(repeat split) ltac:(repeat split) Hfit Ea) as
      [(-> & -> & G)|[(_ & Hem & -> & G)|[(_ & Hne & G & Hok)|(_ & Hne & G & Hok & Hnf)]]]; try discriminate.
  injection G as ->. rewrite (db_len_ok _ _ _ H), (db_len_ok _ _ _ Hok), app_length, place_length.
  assert (Hsm : (N.of_nat (length L + length recs) < 2 ^ 60)%N).
  { destruct Hfit as [_ F3]. rewrite app_length, place_length in F3. change (2 ^ 64)%N with (16 * 2 ^ 60)%N in F3. lia. }
  split; [reflexivity|]. split; [reflexivity|]. split.
  - intros i r Hi. assert (Hlt := lookup_lt_Some _ _ _ Hi). rewrite (db_get_ok _ _ _ _ Hok) by lia. rewrite Nat2N.id.
    rewrite lookup_app_r by lia. replace (length L + i - length L) with i by lia. f_equal.
    rewrite <- list_lookup_fmap. change (snd <$> place (length B) recs) with (map snd (place (length B) recs)). rewrite place_snd. exact Hi.
  - intros s Hs'. rewrite (db_get_ok _ _ _ _ Hok), (db_get_ok _ _ _ _ H) by lia. rewrite lookup_app_l by lia. reflexivity.
Qed.

(** an append of a non-empty batch without empty records succeeds when no system call fails *)
Theorem C12_append_succeeds k h recs d :
  entry_aligned k -> history_fits k (h ++ [FAppend recs]) -> history_faults_early h ->
  files_open k h = Ok d -> recs <> [] -> has_empty recs = false ->
  exists d', db_append k no_faults no_faults d recs = (d', Ok (Some (db_len d))).
Proof.
  intros Hk Hf He Eo Hne Hem. destruct (files_open_ok k h [FAppend recs] Hk Hf He) as (d0 & B & L & E & H & Hs & HB & HL & Hl & _).
  rewrite Eo in E. injection E as <-. unfold batches in HB, HL. cbn [map concat op_batch] in HB, HL. rewrite app_nil_r in HB, HL.
  destruct Hf as [F1 F2]. fold (batches (h ++ [FAppend recs])) in *.
  assert (Hfit : fits (B ++ concat recs) (L ++ place (length B) recs)).
  { split; rewrite app_length, ?place_length; unfold batches in *; lia. }
  destruct (db_append k no_faults no_faults d recs) as [d' r] eqn:Ea. exists d'. rewrite (db_len_ok _ _ _ H).
  destruct (db_append_ok k no_faults no_faults d B L recs d' _ Hk H ltac:(repeat split) ltac:(repeat split) Hfit Ea) as
      [(-> & -> & G)|[(_ & G & -> & _)|[(_ & _ & -> & Hok)|(_ & _ & G & Hok & Hnf)]]]; try congruence; try tauto.
  apply has_empty_false in Hem. tauto.
Qed.

(** the same for a log kept in memory *)
Theorem C12_memory k h : entry_aligned k -> history_fits k (map FAppend h) ->
  exists d, mem_open k h = Ok d /\ reads_as d (log_plain (map FAppend h)).
Proof.
  intros Hk Hf. destruct (mem_open_ok k h Hk Hf) as (d & B & L & E & H & <-). exists d. split; [exact E|]. eapply reads_ok; eauto.
Qed.

Lemma history_fits_app k h1 h2 : history_fits k (h1 ++ h2) -> history_fits k h1.
Proof. unfold history_fits. cbv zeta. rewrite map_app, !concat_app, !app_length. lia. Qed.

(** C13: whatever is readable stays readable and unchanged through appends, failing appends, reopening and
    crashes; the number of records never falls *)
Theorem C13_append_only k h1 h2 d1 d2 :
  entry_aligned k -> history_fits k (h1 ++ h2) -> history_faults_early (h1 ++ h2) ->
  files_open k h1 = Ok d1 -> files_run k d1 h2 = Ok d2 ->
  (forall s r, (s < 2 ^ 60)%N -> db_get d1 s = Ok (Some r) -> db_get d2 s = Ok (Some r)) /\ db_len d1 <= db_len d2.
Proof.
  intros Hk Hf He E1 E2.
  assert (He1 : history_faults_early h1) by (intros a b c Hi; apply (He a b c), elem_of_app; auto).
  assert (He2 : history_faults_early h2) by (intros a b c Hi; apply (He a b c), elem_of_app; auto).
  destruct (files_open_ok k h1 h2 Hk Hf He1) as (d0 & B & L & E & H & Hs & HB & HL & Hl & _).
  rewrite E1 in E. injection E as <-. destruct Hf as [F1 F2].
  destruct (files_run_ok k _ _ Hk F1 F2 h2 d1 B L H Hs He2 HB HL) as (d' & B' & L' & E' & H' & _ & _ & _ & St & _).
  rewrite E2 in E'. injection E' as <-. apply log_after_prefix in St. destruct (reads_ok _ _ _ H) as (R1 & _ & R2 & _).
  destruct (reads_ok _ _ _ H') as (R1' & _ & R2' & _). split.
  - intros s r Hs' G. rewrite R2 in G by exact Hs'. rewrite R2' by exact Hs'. injection G as G. f_equal. eapply prefix_lookup; eauto.
  - rewrite R1, R1'. apply prefix_length. exact St.
Qed.

(** C14: iteration *)
Theorem C14_iteration k h d s n : entry_aligned k -> history_fits k h -> history_faults_early h -> files_open k h = Ok d ->
  (s < 2 ^ 60)%N ->
  exists R, log_after [] h R /\
    iter_collect n d s = (map Ok (take n (drop (N.to_nat s) R)), length R - N.to_nat s <? n) /\
    db_last d = Ok (last R) /\ db_len d = length R.
Proof.
  intros Hk Hf He E Hs. destruct (C12_opens k h Hk Hf He) as (d' & R & E' & Hl & R1 & _ & _ & R4 & R5). rewrite E in E'. injection E' as <-.
  exists R. split; [exact Hl|]. rewrite R5 by exact Hs. rewrite drop_length. auto.
Qed.
(** each item is what reading under that number gives, and the iteration ends exactly at the end of the log *)
Theorem C14_iteration_items k h d s n : entry_aligned k -> history_fits k h -> history_faults_early h -> files_open k h = Ok d ->
  (s < 2 ^ 60)%N -> db_len d - N.to_nat s < n ->
  exists items, iter_collect n d s = (map Ok items, true) /\ length items = db_len d - N.to_nat s /\
    forall i r, items !! i = Some r -> db_get d (s + N.of_nat i) = Ok (Some r).
Proof.
  intros Hk Hf He E Hs Hn. destruct (files_open_ok k h [] Hk ltac:(rewrite app_nil_r; exact Hf) He) as (d' & B & L & E' & H & _).
  rewrite E in E'. injection E' as <-. destruct (reads_ok _ _ _ H) as (R1 & _ & R3 & _ & R5). rewrite R1 in *.
  exists (drop (N.to_nat s) (map snd L)). rewrite R5 by exact Hs. rewrite drop_length in *. rewrite take_ge by (rewrite drop_length; lia).
  split; [f_equal; apply Nat.ltb_lt; lia|]. split; [reflexivity|]. intros i r Hi. rewrite lookup_drop in Hi.
  assert (Hlt := lookup_lt_Some _ _ _ Hi). rewrite map_length in Hlt.
  assert (HL : (N.of_nat (16 * length L) < 2 ^ 64)%N) by apply (do_fits _ _ _ H). change (2 ^ 64)%N with (16 * 2 ^ 60)%N in HL.
  rewrite R3 by lia. f_equal. rewrite <- Hi. f_equal. lia.
Qed.

(** C15: closing and opening again *)
Theorem C15_reopen k h d : entry_aligned k -> history_fits k h -> history_faults_early h -> files_open k h = Ok d ->
  exists d' R, files_op k d FReopen = Ok d' /\ reads_as d R /\ reads_as d' R.
Proof.
  intros Hk Hf He E. destruct (files_open_ok k h [] Hk ltac:(rewrite app_nil_r; exact Hf) He) as (d0 & B & L & E' & H & Hs & HB & HL & _).
  rewrite E in E'. injection E' as <-. rewrite app_nil_r in *. destruct Hf as [F1 F2].
  destruct (files_op_ok k d B L FReopen _ _ Hk H Hs F1 F2) as (d' & B' & L' & Eo & H' & _ & _ & _ & St & _); try (simpl; unfold batches in *; simpl in *; lia); [discriminate|].
  exists d', (map snd L). split; [exact Eo|]. split; [eapply reads_ok; eauto|]. assert (map snd L = map snd L') as -> by (inversion St; congruence). eapply reads_ok; eauto.
Qed.
(** the next append after reopening continues the numbering; on disk there is nothing but the records and
    sixteen bytes for each *)
Theorem C15_disk_size k h d df xf : entry_aligned k -> history_fits k h -> (forall fd fi recs, FAppendFail fd fi recs ∉ h) ->
  files_open k h = Ok d -> db_files (db_drop d) = (df, xf) ->
  exists R f x, reads_as d R /\ df = Some f /\ xf = Some x /\ f = concat R /\ length x = 16 * length R.
Proof.
  intros Hk Hf Hn E Ed. destruct (files_open_ok k h [] Hk ltac:(rewrite app_nil_r; exact Hf)) as (d0 & B & L & E' & H & Hs & HB & HL & _ & Hc).
  { intros fd fi recs Hi. exfalso. eapply Hn; eauto. }
  rewrite E in E'. injection E' as <-. destruct (Hc Hn) as [_ Hc2]. destruct Hs as (f0 & x0 & Hf0 & _).
  rewrite (drop_files _ _ _ _ _ H Hf0) in Ed. injection Ed as <- <-. exists (map snd L), B, (ibytes L).
  split; [eapply reads_ok; eauto|]. rewrite ibytes_length, map_length. auto.
Qed.

(** C16: a crash at any point of an append, or between append and close.  The log is again exactly as before
    plus those records of the batch whose index entry was completely written. *)
Theorem C16_crash_exact k h recs p d R : entry_aligned k -> history_fits k (h ++ [FCrash recs p]) -> history_faults_early h ->
  files_open k h = Ok d -> reads_as d R ->
  exists d', files_op k d (FCrash recs p) = Ok d' /\ reads_as d' (R ++ take (crash_kept recs p) recs).
Proof.
  intros Hk Hf He E HR. destruct (files_open_ok k h [FCrash recs p] Hk Hf He) as (d0 & B & L & E' & H & Hs & HB & HL & _ & _).
  rewrite E in E'. injection E' as <-. destruct Hf as [F1 F2]. unfold batches in HB at 1, HL at 1. cbn [map concat op_batch] in HB, HL. rewrite app_nil_r in HB, HL.
  destruct (files_op_ok k d B L (FCrash recs p) _ _ Hk H Hs F1 F2) as (d' & B' & L' & Eo & H' & _ & _ & _ & St & _); [exact HB|exact HL|discriminate|].
  assert (HRL : map snd L = R).
  { apply (reads_length d); [eapply reads_ok; eauto|exact HR|]. rewrite map_length.
    assert (G : (N.of_nat (16 * length L) < 2 ^ 64)%N) by apply (do_fits _ _ _ H). change (2 ^ 64)%N with (16 * 2 ^ 60)%N in G. lia. }
  rewrite HRL in St. assert (Hm : map snd L' = R ++ take (crash_kept recs p) recs) by (inversion St; subst; eauto).
  exists d'. split; [exact Eo|]. rewrite <- Hm. eapply reads_ok; eauto.
Qed.
Theorem C16_crash k h recs p d R : entry_aligned k -> history_fits k (h ++ [FCrash recs p]) -> history_faults_early h ->
  files_open k h = Ok d -> reads_as d R ->
  exists d' kept, files_op k d (FCrash recs p) = Ok d' /\ kept `prefix_of` recs /\ reads_as d' (R ++ kept).
Proof.
  intros Hk Hf He E HR. destruct (C16_crash_exact k h recs p d R Hk Hf He E HR) as (d' & E' & G).
  exists d', (take (crash_kept recs p) recs). split; [exact E'|]. split; [|exact G]. exists (drop (crash_kept recs p) recs). symmetry. apply take_drop.
Qed.

(** C18: numbers past the end *)
Theorem C18_past_the_end k h d s : entry_aligned k -> history_fits k h -> history_faults_early h -> files_open k h = Ok d ->
  (s < 2 ^ 60)%N -> db_len d <= N.to_nat s -> db_get d s = Ok None.
Proof.
  intros Hk Hf He E Hs Hn. destruct (C12_opens k h Hk Hf He) as (d' & R & E' & Hl & R1 & _ & R3 & _). rewrite E in E'. injection E' as <-.
  rewrite R3 by exact Hs. f_equal. apply lookup_ge_None. lia.
Qed.
(** the byte address of an entry is computed modulo 2^64, so reading number 2^60 + i is reading number i *)
Theorem C18_wraps_refuted k h d i r : entry_aligned k -> history_fits k h -> history_faults_early h -> files_open k h = Ok d ->
  db_get d i = Ok (Some r) -> db_get d (i + 2 ^ 60) = Ok (Some r).
Proof.
  intros _ _ _ _ H. unfold db_get, idx_get in *.
  replace ((i + 2 ^ 60) * 8 * 2)%N with (i * 8 * 2 + 1 * 2 ^ 64)%N by lia. rewrite N.mod_add by lia. exact H.
Qed.

(** C19: the search for the end of the index.  It ends, gives a position after a used entry and before an
    unused one, reads a logarithmic number of entries and never reports damage, for any contents at all. *)
Theorem C19_search len_at (v : nat -> N) len :
  0 < len -> (forall i, i < len -> len_at i = Ok (v i)) ->
  exists n reads, find_actual_end (S len) len_at len = Some (Ok n, reads) /\ n <= len /\
    (0 < n -> v (n - 1) <> 0%N) /\ (n < len -> v n = 0%N) /\ reads <= 2 * Nat.log2_up len + 3.
Proof. apply find_end_spec. Qed.
(** when the used entries are a leading part of the file, it finds exactly their number *)
Theorem C19_search_exact len_at (v : nat -> N) len used :
  0 < len -> used <= len -> (forall i, i < len -> len_at i = Ok (v i)) ->
  (forall i, i < used -> v i <> 0%N) -> (forall i, used <= i < len -> v i = 0%N) ->
  exists reads, find_actual_end (S len) len_at len = Some (Ok used, reads) /\ reads <= 2 * Nat.log2_up len + 3.
Proof.
  intros Hl Hu Hat H1 H2. destruct (C19_search len_at v len Hl Hat) as (n & reads & E & G1 & G2 & G3 & G4).
  assert (n = used) as ->; [|eauto]. destruct (Nat.lt_trichotomy n used) as [G|[G|G]]; [|exact G|].
  - exfalso. apply (H1 n G). apply G3. lia.
  - exfalso. apply G2; [lia|]. apply H2. lia.
Qed.
(** hence opening an index file of whole entries succeeds whatever they contain, and the entries kept end
    with a used one *)
Theorem C19_any_index_opens f n : length f = 16 * n -> (N.of_nat (length f) < 2 ^ 64)%N ->
  exists ap m, idx_new (Some f) = Ok ap /\ idx_len ap = m /\ m <= n /\
    (0 < m -> from_le (take 8 (drop (16 * (m - 1) + 8) f)) <> 0%N) /\
    (m < n -> from_le (take 8 (drop (16 * m + 8) f)) = 0%N).
Proof.
  intros Hlen Hfit. unfold idx_new, appender_new. rewrite gmm_new_none_ok.
  destruct (gmm_new_ok f (length f)) as (g & -> & Hg & Hgf & Hgb); [lia|]. rewrite firstn_all in Hg.
  set (ap := Appender g (gmm_len g)).
  assert (Hap : ap_ok ap f) by (split; [exact Hg|apply (gmm_len_ok _ _ Hg)]).
  assert (Hala : aligned (ap_mmap ap)) by (intros x Hx; apply Hgb in Hx as ->; rewrite Hlen; apply mod16_mul).
  assert (Hdiv : forall a, 16 * a / 8 / 2 = a).
  { intro a. rewrite Nat.div_div by lia. change (8 * 2) with 16. rewrite Nat.mul_comm. apply Nat.div_mul. lia. }
  assert (Hil : idx_len ap = n) by (unfold idx_len; rewrite (ap_sz _ _ Hap), Hlen; apply Hdiv).
  assert (Hat : forall i, i < n -> idx_length_at ap i = Ok (from_le (sub f (16 * i + 8) 8))).
  { intros i Hi. unfold idx_length_at. destruct (idx_get_raw ap f i Hg Hala) as [-> _]; [lia|lia|reflexivity]. }
  unfold idx_last. rewrite Hil. destruct (n =? 0) eqn:E0.
  { apply Nat.eqb_eq in E0. exists ap, 0. split; [reflexivity|]. rewrite Hil. repeat split; lia. }
  apply Nat.eqb_neq in E0. destruct (idx_get_raw ap f (n - 1) Hg Hala) as [-> _]; [lia|lia|].
  destruct (N.eqb (from_le (sub f (16 * (n - 1) + 8) 8)) 0) eqn:El.
  - unfold idx_find_end. rewrite Hil.
    destruct (find_end_spec (idx_length_at ap) (fun i => from_le (sub f (16 * i + 8) 8)) n ltac:(lia) Hat) as (m & r & -> & Hm & H1 & H2 & _).
    replace (2 * 8 * m) with (16 * m) by lia.
    destruct (gmm_new_ok f (16 * m)) as (g2 & -> & Hg2 & Hgf2 & Hgb2); [lia|]. exists (Appender g2 (gmm_len g2)), m. split; [reflexivity|].
    split; [unfold idx_len; simpl ap_size; rewrite (gmm_len_ok _ _ Hg2), take_length, Nat.min_l by lia; apply Hdiv|]. auto.
  - apply N.eqb_neq in El. exists ap, n. split; [reflexivity|]. split; [exact Hil|]. split; [lia|]. split; [intros _; exact El|lia].
Qed.

(** C20: what cannot be stored *)
Theorem C20_empty_batch k fd fi d : db_append k fd fi d [] = (d, Ok None).
Proof. reflexivity. Qed.
Theorem C20_empty_record k fd fi d recs : has_empty recs = true -> db_append k fd fi d recs = (d, Err EmptyRecord).
Proof.
  intro H. assert (E : existsb (fun r => length r =? 0) recs = true).
  { destruct (existsb (fun r => length r =? 0) recs) eqn:G; [reflexivity|]. apply existsb_empty, has_empty_false in G. congruence. }
  unfold db_append, flat_append. destruct recs as [|r recs]; [discriminate|]. rewrite E. destruct d. reflexivity.
Qed.
Theorem C20_put_empty k fd fi d : db_put_seqno k fd fi d [] = (d, Err EmptyRecord).
Proof. unfold db_put_seqno. rewrite (C20_empty_record k fd fi d [[]] eq_refl). reflexivity. Qed.

(** C21: an append during which the file cannot be grown or mapped.  If it reports an error nothing of it is
    stored, later appends get the numbers and contents they would have had without it (C12, C13, C16 hold for
    histories with such failures). *)
Theorem C21_failed_append k h fd fi recs d d' e R :
  entry_aligned k -> history_fits k (h ++ [FAppendFail fd fi recs]) -> history_faults_early (h ++ [FAppendFail fd fi recs]) ->
  files_open k h = Ok d -> reads_as d R -> db_append k fd fi d recs = (d', Err e) -> reads_as d' R.
Proof.
  intros Hk Hf He Eo HR Ea.
  assert (He1 : history_faults_early h) by (intros a b c Hi; apply (He a b c), elem_of_app; auto).
  destruct (He fd fi recs) as [Hfd Hfi]; [apply elem_of_app; right; left|].
  destruct (files_open_ok k h [FAppendFail fd fi recs] Hk Hf He1) as (d0 & B & L & E & H & Hs & HB & HL & Hl & _).
  rewrite Eo in E. injection E as <-. unfold batches in HB at 1, HL at 1. cbn [map concat op_batch] in HB, HL. rewrite app_nil_r in HB, HL.
  destruct Hf as [F1 F2]. fold (batches (h ++ [FAppendFail fd fi recs])) in *.
  assert (Hfit : fits (B ++ concat recs) (L ++ place (length B) recs)).
  { split; rewrite app_length, ?place_length; unfold batches in *; lia. }
  assert (HRL : map snd L = R).
  { apply (reads_length d); [eapply reads_ok; eauto|exact HR|]. rewrite map_length.
    assert (G : (N.of_nat (16 * length L) < 2 ^ 64)%N) by apply (do_fits _ _ _ H). change (2 ^ 64)%N with (16 * 2 ^ 60)%N in G. lia. }
  destruct (db_append_ok k fd fi d B L recs d' _ Hk H Hfd Hfi Hfit Ea) as
      [(-> & -> & G)|[(_ & _ & -> & _)|[(_ & _ & G & _)|(_ & _ & _ & [Hok|Hok] & _)]]]; try discriminate; try exact HR;
    rewrite <- HRL; eapply reads_ok; eauto.
Qed.
(** and an append that succeeds afterwards behaves as C12 says: instance of C12_read_back for such histories *)
Theorem C21_later_append k h fd fi recs recs2 d d1 d2 e n :
  entry_aligned k -> history_fits k (h ++ [FAppendFail fd fi recs; FAppend recs2]) -> history_faults_early (h ++ [FAppendFail fd fi recs]) ->
  files_open k h = Ok d -> db_append k fd fi d recs = (d1, Err e) -> db_append k no_faults no_faults d1 recs2 = (d2, Ok (Some n)) ->
  n = db_len d /\ (forall i r, recs2 !! i = Some r -> db_get d2 (N.of_nat (n + i)) = Ok (Some r)) /\
  (forall s, (s < N.of_nat n)%N -> db_get d2 s = db_get d s).
Proof.
  intros Hk Hf He Eo E1 E2.
  replace (h ++ [FAppendFail fd fi recs; FAppend recs2]) with ((h ++ [FAppendFail fd fi recs]) ++ [FAppend recs2]) in Hf by (rewrite <- app_assoc; reflexivity).
  assert (Hf1 := history_fits_app _ _ _ Hf). assert (Hf0 := history_fits_app _ _ _ Hf1).
  assert (He1 : history_faults_early h) by (intros a b c Hi; apply (He a b c), elem_of_app; auto).
  assert (Eo1 : files_open k (h ++ [FAppendFail fd fi recs]) = Ok d1).
  { unfold files_open in *. destruct (db_new (Some []) (Some [])) as [d00| |]; try discriminate. rewrite files_run_app, Eo. cbn [files_run files_op]. rewrite E1. reflexivity. }
  destruct (C12_opens k h Hk Hf0 He1) as (d' & R & E' & _ & HR). rewrite Eo in E'. injection E' as <-.
  assert (HR1 := C21_failed_append k h fd fi recs d d1 e R Hk Hf1 He Eo HR E1).
  destruct (C12_read_back k _ recs2 d1 d2 n Hk Hf He Eo1 E2) as (G1 & _ & G3 & G4).
  assert (Hlen : db_len d1 = db_len d) by (destruct HR as [-> _]; destruct HR1 as [-> _]; reflexivity).
  split; [congruence|]. split; [exact G3|]. intros s Hs. rewrite G4 by exact Hs.
  destruct (files_open_ok k h [] Hk ltac:(rewrite app_nil_r; exact Hf0) He1) as (d0 & B & L & E & H & _). rewrite Eo in E. injection E as <-.
  assert (HL : (N.of_nat (16 * length L) < 2 ^ 64)%N) by apply (do_fits _ _ _ H). change (2 ^ 64)%N with (16 * 2 ^ 60)%N in HL.
  assert (Hdl := db_len_ok _ _ _ H).
  destruct HR as (_ & _ & G5 & _). destruct HR1 as (_ & _ & G6 & _). rewrite G5, G6 by lia. reflexivity.
Qed.
(** when writing the data pages back fails, the bytes stay mapped but are not counted: the next append is
    recorded at the wrong place and reads back as other bytes *)
Definition flush_fails : faults := {| f_extend := false; f_map := false; f_protect := false; f_flush := true; f_remap := false |}.
Definition small_cfg : cfg := {| min_mmap := 64; max_mmaps := 2 |}.
Theorem C21_flush_failure_refuted : exists d d1 d2 x y,
  files_open small_cfg [] = Ok d /\
  db_append small_cfg flush_fails no_faults d [x] = (d1, Err IoError) /\
  db_append small_cfg no_faults no_faults d1 [y] = (d2, Ok (Some 0)) /\
  db_get d2 0 = Ok (Some x) /\ x <> y.
Proof.
  eexists _, _, _, [1%N; 2%N], [3%N; 4%N]. split; [vm_compute; reflexivity|]. split; [vm_compute; reflexivity|].
  split; [vm_compute; reflexivity|]. split; [vm_compute; reflexivity|discriminate].
Qed.

(** C22: dropping one of several handles cuts the files to the stored bytes.  Reading through the others is
    not affected. *)
Theorem C22_drop_keeps_reads k h d : entry_aligned k -> history_fits k h -> history_faults_early h -> files_open k h = Ok d ->
  exists R, reads_as d R /\ reads_as (db_drop d) R.
Proof.
  intros Hk Hf He E. destruct (files_open_ok k h [] Hk ltac:(rewrite app_nil_r; exact Hf) He) as (d0 & B & L & E' & H & _).
  rewrite E in E'. injection E' as <-. exists (map snd L). assert (HR := reads_ok _ _ _ H). split; [exact HR|].
  assert (Hi : forall s, idx_get (d_idx (db_drop d)) s = idx_get (d_idx d) s).
  { intro s. unfold idx_get, db_drop. cbn [d_idx appender_shrink ap_mmap]. rewrite (get_ref_shrink _ _ _ (do_idx _ _ _ H)). reflexivity. }
  assert (Hd : forall o l, flat_get (d_data (db_drop d)) o l = flat_get (d_data d) o l).
  { intros o l. unfold flat_get, db_drop. cbn [d_data appender_shrink ap_mmap]. rewrite (get_ref_shrink _ _ _ (do_data _ _ _ H)). reflexivity. }
  assert (Hg : forall s, db_get (db_drop d) s = db_get d s).
  { intro s. unfold db_get. rewrite Hi. destruct (idx_get (d_idx d) s) as [[[o l]|]| |]; auto. }
  assert (Hn : forall s, iter_next (db_drop d) s = iter_next d s).
  { intro s. unfold iter_next. rewrite Hi. destruct (idx_get (d_idx d) s) as [[[o l]|]| |]; auto. rewrite Hd. reflexivity. }
  assert (Hc : forall n s, iter_collect n (db_drop d) s = iter_collect n d s).
  { induction n as [|n IH]; intro s; [reflexivity|]. cbn [iter_collect]. rewrite Hn. destruct (iter_next d s) as [[[r|]| |] s']; auto; rewrite IH; reflexivity. }
  destruct HR as (R1 & R2 & R3 & R4 & R5). split; [exact R1|]. split; [exact R2|]. split; [intros s Hs; rewrite Hg; auto|].
  split; [|intros s n Hs; rewrite Hc; auto]. unfold db_last in *. change (db_is_empty (db_drop d)) with (db_is_empty d).
  change (db_len (db_drop d)) with (db_len d). rewrite Hg. exact R4.
Qed.
(** appending through them is: the mapping now reaches past the end of the file, and the next record is
    written there *)
Theorem C22_append_after_drop_refuted : exists d d1 r,
  files_open small_cfg [] = Ok d /\ db_append small_cfg no_faults no_faults d [r] = (d1, Ok (Some 0)) /\
  snd (db_append small_cfg no_faults no_faults (db_drop d1) [r]) = Panic.
Proof. eexists _, _, [5%N]. split; [vm_compute; reflexivity|]. split; vm_compute; reflexivity. Qed.

(** C23: the size and number of mappings, and files or memory, do not show *)
Theorem C23_mappings_invisible k1 k2 h d1 d2 : entry_aligned k1 -> entry_aligned k2 -> history_fits k1 h -> history_fits k2 h ->
  (forall o, o ∈ h -> plain_op o = true) ->
  files_open k1 h = Ok d1 -> files_open k2 h = Ok d2 -> reads_as d1 (log_plain h) /\ reads_as d2 (log_plain h).
Proof.
  intros K1 K2 F1 F2 Hp E1 E2.
  assert (He : history_faults_early h) by (intros a b c Hi; apply Hp in Hi; discriminate).
  destruct (C12_opens k1 h K1 F1 He) as (d1' & R1 & E1' & L1 & G1). destruct (C12_opens k2 h K2 F2 He) as (d2' & R2 & E2' & L2 & G2).
  rewrite E1 in E1'. injection E1' as <-. rewrite E2 in E2'. injection E2' as <-.
  apply log_after_plain in L1, L2; auto. simpl in L1, L2. subst. auto.
Qed.
Theorem C23_files_or_memory k1 k2 h d1 d2 : entry_aligned k1 -> entry_aligned k2 -> history_fits k1 (map FAppend h) -> history_fits k2 (map FAppend h) ->
  files_open k1 (map FAppend h) = Ok d1 -> mem_open k2 h = Ok d2 ->
  forall R, reads_as d1 R <-> reads_as d2 R.
Proof.
  intros K1 K2 F1 F2 E1 E2.
  assert (Hp : forall o, o ∈ map FAppend h -> plain_op o = true).
  { intros o Ho. apply elem_of_list_fmap in Ho as (r & -> & _). reflexivity. }
  destruct (C23_mappings_invisible k1 k1 _ d1 d1 K1 K1 F1 F1 Hp E1 E1) as [G1 _].
  destruct (C12_memory k2 h K2 F2) as (d2' & E2' & G2). rewrite E2 in E2'. injection E2' as <-.
  set (R0 := log_plain (map FAppend h)) in *.
  assert (Hsmall : (N.of_nat (length R0) < 2 ^ 60)%N).
  { destruct F1 as [_ F]. assert (length R0 <= length (concat (map op_batch (map FAppend h)))); [|change (2 ^ 64)%N with (16 * 2 ^ 60)%N in F; lia].
    unfold R0, log_plain. clear. induction h as [|r h IH]; [simpl; lia|]. cbn [map concat op_batch]. rewrite !app_length. destruct (has_empty r); simpl in *; lia. }
  intro R. split; intro G.
  - rewrite <- (reads_length d1 R0 R G1 G Hsmall). exact G2.
  - rewrite <- (reads_length d2 R0 R G2 G Hsmall). exact G1.
Qed.

(** C17: concurrent readers and writers.  The trace lists what the calls of all threads returned, in the
    order in which they did. *)
Definition conc_start (k : cfg) (h : list fop) (tr : list event) (d : db) (R0 : list (list N)) : Prop :=
  entry_aligned k /\ history_fits k h /\ (forall fd fi recs, FAppendFail fd fi recs ∉ h) /\
  files_open k h = Ok d /\ reads_as d R0 /\
  (N.of_nat (length (concat (R0 ++ begun tr))) < 2 ^ 64)%N /\ (N.of_nat (16 * length (R0 ++ begun tr)) < 2 ^ 64)%N.

Lemma conc_inv k h tr d R0 st : conc_start k h tr d R0 -> crun k (CState d WIdle []) tr st ->
  exists B L L', cinv st (R0 ++ begun tr) B L' /\ tr_ok L (length L) tr L' /\ map snd L = R0.
Proof.
  intros (Hk & Hf & Hn & E & HR & F1 & F2) Hrun.
  destruct (files_open_ok k h [] Hk ltac:(rewrite app_nil_r; exact Hf)) as (d0 & B & L & E' & H & Hs & HB & HL & _ & Hc).
  { intros fd fi recs Hi. exfalso. eapply Hn; eauto. }
  rewrite E in E'. injection E' as <-. destruct (Hc Hn) as [_ Hc2].
  assert (HRL : map snd L = R0).
  { apply (reads_length d); [eapply reads_ok; eauto|exact HR|]. rewrite map_length.
    assert (G : (N.of_nat (16 * length L) < 2 ^ 64)%N) by apply (do_fits _ _ _ H). change (2 ^ 64)%N with (16 * 2 ^ 60)%N in G. lia. }
  destruct (crun_ok k Hk _ _ _ Hrun R0 B L) as (B' & L' & Hinv & Htr).
  - split; cbn [c_db c_w c_reads].
    + assert (fixed d B L = d) as ->; [|exact H]. unfold fixed. rewrite <- (do_dsize _ _ _ H), <- (do_isize _ _ _ H). destruct d as [[] []]. reflexivity.
    + split; [apply (do_dsize _ _ _ H)|apply (do_isize _ _ _ H)].
    + simpl. rewrite app_nil_r. congruence.
    + rewrite Hc2, HRL. reflexivity.
    + intros s o l Hi. inversion Hi.
  - split; assumption.
  - exists B', L, L'. auto.
Qed.

Lemma cinv_lookup st R B L i x : cinv st R B L -> map snd L !! i = Some x -> R !! i = Some x.
Proof. intros H Hi. rewrite (ci_log _ _ _ _ H). apply lookup_app_l_Some. exact Hi. Qed.

(** a read gives nothing or the whole record of that number, in the order in which the appends were begun *)
Theorem C17_whole_records k h tr d R0 st s r : conc_start k h tr d R0 -> crun k (CState d WIdle []) tr st ->
  EvRead s r ∈ tr -> (s < 2 ^ 60)%N -> r = Ok None \/ exists x, r = Ok (Some x) /\ (R0 ++ begun tr) !! N.to_nat s = Some x.
Proof.
  intros H Hrun Hin Hs. destruct (conc_inv _ _ _ _ _ _ H Hrun) as (B & L & L' & Hinv & Htr & _).
  apply elem_of_list_split in Hin as (t1 & t2 & Et). rewrite Et in Htr. apply tr_ok_app in Htr as (L1 & w1 & _ & _ & Htr).
  destruct Htr as (L2 & w2 & P1 & _ & _ & Hev & Htr). specialize (Hev Hs). destruct r as [[x|]| |]; try contradiction; [|auto].
  right. exists x. split; [reflexivity|]. eapply cinv_lookup; [exact Hinv|]. eapply prefix_lookup_snd; [|exact Hev].
  etransitivity; [exact P1|]. eapply tr_ok_prefix; eauto.
Qed.
(** once somebody has read a record, everybody reads the same under that number *)
Theorem C17_monotone k h tr d R0 st t1 t2 t3 s x r : conc_start k h tr d R0 -> crun k (CState d WIdle []) tr st ->
  tr = t1 ++ EvRead s (Ok (Some x)) :: t2 ++ EvRead s r :: t3 -> (s < 2 ^ 60)%N -> r = Ok (Some x).
Proof.
  intros H Hrun Et Hs. destruct (conc_inv _ _ _ _ _ _ H Hrun) as (B & L & L' & Hinv & Htr & _).
  rewrite Et in Htr. apply tr_ok_app in Htr as (L1 & w1 & _ & _ & Htr). destruct Htr as (L2 & w2 & P1 & _ & _ & Hev & Htr). specialize (Hev Hs). simpl in Hev.
  apply tr_ok_app in Htr as (L3 & w3 & P2 & _ & Htr). destruct Htr as (L4 & w4 & P3 & _ & _ & Hev2 & _). specialize (Hev2 Hs).
  assert (G : map snd L3 !! N.to_nat s = Some x) by (eapply prefix_lookup_snd; [|exact Hev]; etransitivity; eauto).
  destruct r as [[y|]| |]; try contradiction; [congruence|]. apply lookup_lt_Some in G. rewrite map_length in G. lia.
Qed.
(** what an append has returned is there for every read that returns later *)
Theorem C17_acknowledged k h tr d R0 st t1 t2 t3 s n recs i x r : conc_start k h tr d R0 -> crun k (CState d WIdle []) tr st ->
  tr = t1 ++ EvDone n recs :: t2 ++ EvRead s r :: t3 -> (s < 2 ^ 60)%N -> s = N.of_nat (n + i) -> recs !! i = Some x -> r = Ok (Some x).
Proof.
  intros H Hrun Et Hs -> Hi. destruct (conc_inv _ _ _ _ _ _ H Hrun) as (B & L & L' & Hinv & Htr & _).
  rewrite Et in Htr. apply tr_ok_app in Htr as (L1 & w1 & _ & _ & Htr). destruct Htr as (L2 & w2 & P1 & _ & _ & [Hd Hl] & Htr).
  apply tr_ok_app in Htr as (L3 & w3 & P2 & _ & Htr). destruct Htr as (L4 & w4 & P3 & _ & _ & Hev2 & _). specialize (Hev2 Hs).
  rewrite Nat2N.id in Hev2. rewrite <- Hd, lookup_drop in Hi.
  assert (G : map snd L3 !! (n + i) = Some x) by (eapply prefix_lookup_snd; [|exact Hi]; etransitivity; eauto).
  destruct r as [[y|]| |]; try contradiction; [congruence|]. apply lookup_lt_Some in G. rewrite map_length in G. lia.
Qed.
(** every number below a length somebody was told is readable; lengths do not fall *)
Theorem C17_len k h tr d R0 st t1 t2 t3 s n r : conc_start k h tr d R0 -> crun k (CState d WIdle []) tr st ->
  tr = t1 ++ EvLen n :: t2 ++ EvRead s r :: t3 -> (s < 2 ^ 60)%N -> (s < N.of_nat n)%N -> exists x, r = Ok (Some x).
Proof.
  intros H Hrun Et Hs Hn. destruct (conc_inv _ _ _ _ _ _ H Hrun) as (B & L & L' & Hinv & Htr & _).
  rewrite Et in Htr. apply tr_ok_app in Htr as (L1 & w1 & _ & _ & Htr). destruct Htr as (L2 & w2 & P1 & _ & Hw & -> & Htr).
  apply tr_ok_app in Htr as (L3 & w3 & P2 & _ & Htr). destruct Htr as (L4 & w4 & P3 & _ & _ & Hev2 & _). specialize (Hev2 Hs).
  apply prefix_len in P1, P2. destruct r as [[y|]| |]; try contradiction; [eauto|]. lia.
Qed.
Theorem C17_len_monotone k h tr d R0 st t1 t2 t3 n m : conc_start k h tr d R0 -> crun k (CState d WIdle []) tr st ->
  tr = t1 ++ EvLen n :: t2 ++ EvLen m :: t3 -> n <= m.
Proof.
  intros H Hrun Et. destruct (conc_inv _ _ _ _ _ _ H Hrun) as (B & L & L' & Hinv & Htr & _).
  rewrite Et in Htr. apply tr_ok_app in Htr as (L1 & w1 & _ & _ & Htr). destruct Htr as (L2 & w2 & _ & W & _ & -> & Htr).
  apply tr_ok_app in Htr as (L3 & w3 & _ & W2 & Htr). destruct Htr as (L4 & w4 & _ & _ & _ & -> & _). lia.
Qed.
(** the steps are those of the sequential append: run without interruption they are db_append *)
Theorem C17_steps_are_append k d recs d' n rs : recs <> [] -> db_append k no_faults no_faults d recs = (d', Ok (Some n)) ->
  crun k (CState d WIdle rs) [EvBegin recs; EvTau; EvTau; EvDone n recs] (CState d' WIdle rs).
Proof.
  intros Hne E. unfold db_append, flat_append in E. destruct recs as [|r0 rr] eqn:Er; [congruence|]. cbn iota in E. rewrite <- Er in *.
  destruct (existsb (fun r => length r =? 0) recs) eqn:Eex; [discriminate|].
  unfold appender_append in E. destruct (length (concat recs) =? 0) eqn:E0.
  { exfalso. apply Nat.eqb_eq, nil_length_inv in E0. apply existsb_empty in Eex. eapply concat_nonempty; eauto. }
  fold (data_grow k (ap_mmap (d_data d)) recs) in E. destruct (data_grow k (ap_mmap (d_data d)) recs) as [g [[]|e|]] eqn:Eg; try discriminate.
  unfold idx_append in E. rewrite existsb_locations, Eex in E.
  destruct (locations (ap_size (d_data d)) recs) as [|l0 ls] eqn:El; [rewrite Er in El; discriminate|]. cbn iota in E. rewrite <- El in E.
  unfold appender_append in E. destruct (8 * 2 * length (locations (ap_size (d_data d)) recs) =? 0) eqn:E1.
  { apply Nat.eqb_eq in E1. rewrite El in E1. simpl in E1. lia. }
  fold (idx_grow k (ap_mmap (d_idx d)) (locations (ap_size (d_data d)) recs)) in E.
  destruct (idx_grow k (ap_mmap (d_idx d)) (locations (ap_size (d_data d)) recs)) as [gi [[]|e|]] eqn:Ei; try discriminate.
  injection E as <- <-. rewrite locations_length.
  econstructor; [apply CBegin; [exact Hne|exact Eex|exact Eg]|].
  econstructor; [apply CDataStore|]. econstructor; [apply CIdxGrow; exact Ei|]. econstructor; [apply CIdxStore|]. constructor.
Qed.

(** ** the hypotheses are met *)
Definition ex_history : list fop :=
  [FAppend [[1; 2; 3]; [4]]%N; FAppend [[5; 6]]%N; FReopen; FAppend [[7]; []]%N;
   FAppendFail {| f_extend := false; f_map := true; f_protect := false; f_flush := false; f_remap := false |} no_faults [replicate 70 8%N];
   FCrash [[9]; [10; 11]; [12]]%N (CrashIndexWords 3); FAppend [replicate 100 13%N]; FReopen; FAppend [[14]]%N].
Example ex_fits : history_fits small_cfg ex_history /\ history_faults_early ex_history /\ entry_aligned small_cfg.
Proof.
  split; [split; vm_compute; reflexivity|]. split; [|reflexivity]. intros fd fi recs H. unfold ex_history in H.
  repeat (apply elem_of_cons in H as [H|H]; [try discriminate; injection H as -> -> ->; repeat split|]). inversion H.
Qed.
(** of the crashed batch one record survives; the batch with an empty record and the failed one leave nothing *)
Example ex_reads : exists d, files_open small_cfg ex_history = Ok d /\
  iter_collect 20 d 0 = (map Ok [[1; 2; 3]; [4]; [5; 6]; [9]; replicate 100 13; [14]]%N, true).
Proof. eexists. split; [vm_compute; reflexivity|]. vm_compute. reflexivity. Qed.
Example ex_real : history_fits real_cfg ex_history /\ entry_aligned real_cfg.
Proof. split; [split; vm_compute; reflexivity|exact real_cfg_aligned]. Qed.
Lemma crun_cons_eq k st ev ev' st1 tr st2 : cstep k st ev' st1 -> ev' = ev -> crun k st1 tr st2 -> crun k st (ev :: tr) st2.
Proof. intros H <-. apply crun_cons. exact H. Qed.
(** a reader between the steps of an append *)
Example ex_conc : exists d st, files_open small_cfg [FAppend [[1]%N]] = Ok d /\
  crun small_cfg (CState d WIdle []) [EvBegin [[2]%N]; EvRead 1 (Ok None); EvTau; EvLen 1; EvTau; EvTau; EvLen 1; EvRead 1 (Ok (Some [2]%N)); EvDone 1 [[2]%N]; EvLen 2] st.
Proof.
  eexists _, _. split; [vm_compute; reflexivity|].
  eapply crun_cons; [eapply CBegin; [discriminate|reflexivity|vm_compute; reflexivity]|].
  eapply crun_cons_eq; [eapply (CReadNone _ _ _ _ 1); vm_compute; discriminate|vm_compute; reflexivity|].
  eapply crun_cons; [eapply CDataStore|].
  eapply crun_cons_eq; [eapply CLen|vm_compute; reflexivity|].
  eapply crun_cons; [eapply CIdxGrow; vm_compute; reflexivity|].
  eapply crun_cons. { eapply (CReadIdx _ _ _ _ 1). vm_compute. reflexivity. }
  eapply crun_cons_eq; [eapply CLen|vm_compute; reflexivity|].
  eapply crun_cons_eq; [eapply (CReadData _ _ _ [] [] 1)|vm_compute; reflexivity|].
  eapply crun_cons_eq; [apply (CIdxStore small_cfg)|vm_compute; reflexivity|].
  eapply crun_cons_eq; [eapply CLen|vm_compute; reflexivity|].
  apply crun_nil.
Qed.

(** one traversal for all theorems of this file: what the tuple assumes is what any of them assumes *)
Definition all_FraosProps := (@C12_opens, @C12_read_back, @C12_append_succeeds, @C12_memory, @C13_append_only, @C14_iteration, @C14_iteration_items, @C15_reopen, @C15_disk_size, @C16_crash, @C16_crash_exact, @C17_whole_records, @C17_monotone, @C17_acknowledged, @C17_len, @C17_len_monotone, @C17_steps_are_append, @C18_past_the_end, @C18_wraps_refuted, @C19_search, @C19_search_exact, @C19_any_index_opens, @C20_empty_batch, @C20_empty_record, @C20_put_empty, @C21_failed_append, @C21_later_append, @C21_flush_failure_refuted, @C22_drop_keeps_reads, @C22_append_after_drop_refuted, @C23_mappings_invisible, @C23_files_or_memory).
Print Assumptions all_FraosProps.
