(** C64: the log of fraos after power failures. *)
From Coq Require Import Lia ZArith.
From stdpp Require Import numbers list.
From Verif Require Import FraosModel FraosSpec FraosProofs FraosLogProofs FraosCrashProofs FraosHistProofs.
From Verif Require Import FraosPowerModel FraosPowerSpec FraosPowerProofs FraosPowerHist.

(** the space a history needs, and that of its parts *)
Lemma phistory_fits_app k h1 h2 : phistory_fits k (h1 ++ h2) -> phistory_fits k h1.
Proof. unfold phistory_fits. cbv zeta. rewrite map_app, !concat_app, !app_length. lia. Qed.

Lemma along_app k dk P h1 h2 s : along k dk P s (h1 ++ h2) ->
  along k dk P s h1 /\ forall s1, prun k dk s h1 = Ok s1 -> along k dk P s1 h2.
Proof.
  revert s. induction h1 as [|o h IH]; intros s H; cbn [along app prun] in *.
  - split; [exact I|]. intros s1 E. injection E as <-. exact H.
  - destruct H as [H1 H2]. destruct (pop_apply k dk s o) as [s'| |].
    + destruct (IH s' H2) as [A B]. split; [split; assumption|exact B].
    + split; [split; [exact H1|exact I]|discriminate].
    + split; [split; [exact H1|exact I]|discriminate].
Qed.
Lemma prun_app k dk h1 h2 s : prun k dk s (h1 ++ h2) = match prun k dk s h1 with Ok s' => prun k dk s' h2 | Err e => Err e | Panic => Panic end.
Proof. revert s. induction h1 as [|o h IH]; intro s; cbn [app prun]; [reflexivity|]. destruct (pop_apply k dk s o); [apply IH|reflexivity..]. Qed.

Lemma run_new k dk h : cfg_ok k -> sector_aligned dk -> phistory_fits k h ->
  along_new k dk (left_on_disk k dk) h -> along_new k dk (torn_free dk) h ->
  exists d s B L, db_new (Some []) (Some []) = Ok d /\ prun k dk (PState d [[]] [[]]) h = Ok s /\
    pinv k s B L (length (concat (pbatches h))) (length (pbatches h)) /\
    length B <= length (concat (pbatches h)) /\ length L <= length (pbatches h) /\ plog_after [] h (map snd L).
Proof.
  intros Hk Hdk [F1 F2] Hl Ht. destruct (pinv_empty k (length (concat (pbatches h))) (length (pbatches h))) as (d & E & H).
  unfold along_new in Hl, Ht. rewrite E in Hl, Ht.
  destruct (prun_ok k dk _ _ Hk Hdk F1 F2 h _ _ _ H Hl Ht) as (s & B & L & E1 & H1 & Hb & Hlen & Hlog & _); [apply Nat.le_refl..|].
  exists d, s, B, L. eauto 10.
Qed.

(** *** a history of appends, reopenings, deaths of the process and power failures *)
Theorem C64_history k dk h : entry_aligned k -> sector_aligned dk -> phistory_fits k h ->
  along_new k dk (left_on_disk k dk) h -> along_new k dk (torn_free dk) h ->
  exists s R, popen k dk h = Ok s /\ plog_after [] h R /\ reads_as (ps_db s) R.
Proof.
  intros Hk Hdk F Hl Ht. destruct (run_new k dk h Hk Hdk F Hl Ht) as (d & s & B & L & E & E1 & H & _ & _ & Hlog).
  exists s, (map snd L). unfold popen. rewrite E. split; [exact E1|]. split; [exact Hlog|]. eapply reads_ok. apply (pi_db _ _ _ _ _ _ H).
Qed.

(** *** what was once readable stays so through the rest of the history *)
Theorem C64_acknowledged_stay k dk h1 h2 : entry_aligned k -> sector_aligned dk -> phistory_fits k (h1 ++ h2) ->
  along_new k dk (left_on_disk k dk) (h1 ++ h2) -> along_new k dk (torn_free dk) (h1 ++ h2) ->
  exists s1 s2 R S, popen k dk h1 = Ok s1 /\ popen k dk (h1 ++ h2) = Ok s2 /\
    reads_as (ps_db s1) R /\ reads_as (ps_db s2) (R ++ S) /\ plog_after [] h1 R /\ plog_after R h2 (R ++ S).
Proof.
  intros Hk Hdk [F1 F2] Hl Ht. set (h := h1 ++ h2) in *. fold (pbatches h) in F1, F2.
  destruct (pinv_empty k (length (concat (pbatches h))) (length (pbatches h))) as (d & E & H).
  unfold along_new in Hl, Ht. rewrite E in Hl, Ht.
  destruct (along_app _ _ _ _ _ _ Hl) as [Hl1 Hl2]. destruct (along_app _ _ _ _ _ _ Ht) as [Ht1 Ht2].
  assert (Hb : pbatches h = pbatches h1 ++ pbatches h2) by (unfold pbatches, h; rewrite map_app, concat_app; reflexivity).
  assert (Hb1 : length (pbatches h) = length (pbatches h1) + length (pbatches h2)) by (rewrite Hb, app_length; reflexivity).
  assert (Hb2 : length (concat (pbatches h)) = length (concat (pbatches h1)) + length (concat (pbatches h2))) by (rewrite Hb, concat_app, app_length; reflexivity).
  destruct (prun_ok k dk _ _ Hk Hdk F1 F2 h1 _ _ _ H Hl1 Ht1) as (s1 & B1 & L1 & E1 & H1 & HB1 & HL1 & Hlog1 & _); [cbn [length]; lia..|].
  destruct (prun_ok k dk _ _ Hk Hdk F1 F2 h2 _ _ _ H1 (Hl2 _ E1) (Ht2 _ E1)) as (s2 & B2 & L2 & E2 & H2 & HB2 & HL2 & Hlog2 & (L3 & ->)); [cbn [length] in *; lia..|].
  exists s1, s2, (map snd L1), (map snd L3). unfold popen, h. rewrite E, prun_app, E1. split; [reflexivity|]. split; [exact E2|].
  rewrite map_app in Hlog2. split; [eapply reads_ok; apply (pi_db _ _ _ _ _ _ H1)|].
  split; [rewrite <- map_app; eapply reads_ok; apply (pi_db _ _ _ _ _ _ H2)|]. split; [exact Hlog1|exact Hlog2].
Qed.

(** *** a power failure while a batch of any size is written: nothing acknowledged is lost, and every number below
    the new length reads as the record of the batch meant for it, as an empty record, or as nothing *)
Theorem C64_any_batch k dk h recs m df xf :
  entry_aligned k -> sector_aligned dk -> phistory_fits k (h ++ [PPower recs m df xf]) ->
  along_new k dk (left_on_disk k dk) (h ++ [PPower recs m df xf]) -> along_new k dk (torn_free dk) h ->
  exists s s' R, popen k dk h = Ok s /\ plog_after [] h R /\ reads_as (ps_db s) R /\
    popen k dk (h ++ [PPower recs m df xf]) = Ok s' /\
    length R <= db_len (ps_db s') <= length R + length recs /\
    (forall i r, R !! N.to_nat i = Some r -> db_get (ps_db s') i = Ok (Some r)) /\
    (forall i, (i < N.of_nat (db_len (ps_db s')))%N ->
       db_get (ps_db s') i = Ok ((R ++ recs) !! N.to_nat i) \/ db_get (ps_db s') i = Ok (Some []) \/ db_get (ps_db s') i = Ok None).
Proof.
  intros Hk Hdk [F1 F2] Hl Ht. set (h' := h ++ [PPower recs m df xf]) in *. fold (pbatches h') in F1, F2.
  destruct (pinv_empty k (length (concat (pbatches h'))) (length (pbatches h'))) as (d & E & H).
  unfold along_new in Hl, Ht. rewrite E in Hl, Ht.
  destruct (along_app _ _ _ _ _ _ Hl) as [Hl1 Hl2].
  assert (Hb : pbatches h' = pbatches h ++ recs) by (unfold pbatches, h'; rewrite map_app, concat_app; cbn [map concat pop_batch]; rewrite app_nil_r; reflexivity).
  assert (Hb1 : length (pbatches h') = length (pbatches h) + length recs) by (rewrite Hb, app_length; reflexivity).
  assert (Hb2 : length (concat (pbatches h')) = length (concat (pbatches h)) + length (concat recs)) by (rewrite Hb, concat_app, app_length; reflexivity).
  destruct (prun_ok k dk _ _ Hk Hdk F1 F2 h _ _ _ H Hl1 Ht) as (s1 & B1 & L1 & E1 & H1 & HB1 & HL1 & Hlog1 & _); [cbn [length]; lia..|].
  destruct (Hl2 _ E1) as [Hp _].
  destruct (any_batch_ok k dk s1 recs m df xf B1 L1 _ _ Hk Hdk H1 F1 F2) as (d' & Ed & Hlen & Hr & Hx); [cbn [length] in *; lia..|exact Hp|].
  exists s1, (PState d' [df] [xf]), (map snd L1). unfold popen, h'. rewrite E, prun_app, E1. cbn [prun pop_apply]. rewrite Ed. cbn [ps_db].
  rewrite map_length. split; [reflexivity|]. split; [exact Hlog1|]. split; [eapply reads_ok; apply (pi_db _ _ _ _ _ _ H1)|].
  split; [reflexivity|]. split; [exact Hlen|]. split; [exact Hr|exact Hx].
Qed.

(** *** a log written record by record (put) needs no condition on the sectors *)
Definition by_record (o : pop) : Prop :=
  match o with PPower recs _ _ _ => length recs <= 1 | PKill recs p => crash_kept recs p = 0 | _ => True end.
Theorem C64_single_records k dk h : entry_aligned k -> sector_aligned dk -> phistory_fits k h ->
  along_new k dk (left_on_disk k dk) h -> Forall by_record h ->
  exists s R, popen k dk h = Ok s /\ plog_after [] h R /\ reads_as (ps_db s) R.
Proof.
  intros Hk Hdk F Hl Hr. apply C64_history; auto. unfold along_new in *. destruct (db_new (Some []) (Some [])) as [d| |]; [|contradiction..].
  clear Hl F. revert Hr. generalize (PState d [[]] [[]]). induction h as [|o h IH]; intros s Hr; [exact I|].
  apply Forall_cons in Hr as [Ho Hr]. cbn [along]. split; [|destruct (pop_apply k dk s o); [apply IH; exact Hr|exact I..]].
  destruct o as [| |recs p|recs m df xf]; try exact I; [exact Ho|]. destruct m; try exact I. cbn [torn_free by_record] in *.
  destruct recs as [|r [|r' recs]]; [left; reflexivity| |cbn [length] in Ho; lia]. right; right. unfold one_sector.
  destruct Hdk as (D1 & D2 & _). replace (16 * (db_len (ps_db s) + length [r]) - 1) with (16 * db_len (ps_db s) + 15) by (cbn [length]; lia).
  symmetry. apply sector_entry; [exact D1|exact D2|lia].
Qed.
