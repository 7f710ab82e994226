(** C24: appends to an indexed log map that fail, because a system call under the log fails or sled refuses the key. *)
From Coq Require Import Lia ZArith.
From stdpp Require Import numbers list gmap.
From Verif Require Import FraosModel FraosSpec FraosProofs FraosLogProofs FraosCrashProofs FraosHistProofs ILogMapModel ILogMapSpec ILogMapProofs FraosProps ILogMapProps ILogFaultModel.

Section Faults.
Context {K V : Type} (c : codec K V).
Notation W := (written K V).
Notation eop := (eop (K := K) (V := V)).

(** ** Specification *)
(** the entries of the map (ILogMapSpec.v) and the results: an append that succeeds adds its pair; one that fails adds
    nothing, unless it was sled that refused: then the value is in the log without its key *)
Inductive entries_with : list W -> list eop -> list (ires unit) -> list W -> Prop :=
| ew_nil E : entries_with E [] [] E
| ew_done E key v fd fi h l E' : entries_with (E ++ [Written key v true]) h l E' -> entries_with E (EAppend key v fd fi false :: h) (IOk tt :: l) E'
| ew_refused E key v fd fi h l E' : entries_with (E ++ [Written key v false]) h l E' -> entries_with E (EAppend key v fd fi true :: h) (IErr :: l) E'
| ew_failed E key v fd fi refuse h l E' : ~ (fd = no_faults /\ fi = no_faults) ->
    entries_with E h l E' -> entries_with E (EAppend key v fd fi refuse :: h) (IErr :: l) E'
| ew_reopen E h l E' : entries_with E h l E' -> entries_with E (EReopen :: h) l E'.
(** the failing system calls are those that extend and map a file, before the record is stored *)
Definition early (o : eop) : Prop := match o with EAppend _ _ fd fi _ => no_late_faults fd /\ no_late_faults fi | EReopen => True end.
Definition eop_values (h : list eop) : list (list N) := concat (map (fun o => match o with EAppend _ v _ _ _ => [enc_val c v] | EReopen => [] end) h).
Definition ehistory_fits (k : cfg) (h : list eop) : Prop :=
  (N.of_nat (length (concat (eop_values h)) + min_mmap k) < 2 ^ 64)%N /\ (N.of_nat (16 * length (eop_values h) + min_mmap k) < 2 ^ 64)%N.
(** the pairs of the appends that succeeded, oldest first *)
Fixpoint succeeded (h : list eop) (l : list (ires unit)) : list (K * V) :=
  match h, l with
  | EAppend key v _ _ _ :: h, a :: l => match a with IOk _ => [(key, v)] | _ => [] end ++ succeeded h l
  | EReopen :: h, l => succeeded h l
  | _, _ => []
  end.

(** ** Proofs *)
(** without failures it is the append of ILogMapModel.v *)
Lemma append_without_failures k st key v : ilm_append_faulty c k no_faults no_faults false st key v = ilm_append c k st key v.
Proof. reflexivity. Qed.
Lemma erun_ok k T n : codec_ok c -> cfg_ok k -> (N.of_nat (T + min_mmap k) < 2 ^ 64)%N -> (N.of_nat (16 * n + min_mmap k) < 2 ^ 64)%N ->
  forall h st B L E, state_ok c st B L E -> sized k (storage st) T n -> Forall early h ->
  length B + length (concat (eop_values h)) <= T -> length L + length (eop_values h) <= n ->
  exists st' l E' B' L', erun c k st h = IOk (st', l) /\ state_ok c st' B' L' E' /\ entries_with E h l E'.
Proof.
  intros Hc Hk FT Fn. assert (Hcc : forall v, concat [enc_val c v] = enc_val c v) by (intro; simpl; apply app_nil_r).
  induction h as [|o h IH]; intros st B L E H Hs He HB HL.
  - exists st, [], E, B, L. split; [reflexivity|]. split; [exact H|constructor].
  - apply Forall_cons in He as [Ho He]. unfold eop_values in HB, HL. cbn [map concat] in HB, HL. fold (eop_values h) in HB, HL.
    rewrite concat_app, !app_length in HB. rewrite app_length in HL. destruct o as [key v fd fi refuse|].
    + destruct Ho as [Hfd Hfi]. rewrite Hcc in HB. cbn [length] in HL. cbn [erun]. unfold ilm_append_faulty. rewrite (so_idx _ _ _ _ _ H).
      destruct (db_append k fd fi (storage st) [enc_val c v]) as [d r] eqn:Ea.
      assert (Hs' : sized k d T n) by (eapply append_sized; [apply (so_db _ _ _ _ _ H)|exact Hfd|exact Hfi|exact Hs| | |exact Ea]; rewrite ?Hcc; simpl; lia).
      destruct (db_append_ok k fd fi (storage st) B L [enc_val c v] d r Hk (so_db _ _ _ _ _ H) Hfd Hfi) as [(G & _)|[(_ & G & _)|[(_ & _ & -> & Hok)|(_ & _ & -> & Hok & Hfl)]]].
      * rewrite Hcc. split; rewrite app_length, ?place_length; simpl; lia.
      * exact Ea.
      * discriminate.
      * exfalso. apply G. constructor; [apply Hc|constructor].
      * rewrite Hcc in Hok. rewrite (so_len _ _ _ _ _ H).
        destruct refuse.
        -- destruct (IH (Ilm d (Some (index_from c 0 E))) (B ++ enc_val c v) (L ++ place (length B) [enc_val c v]) (E ++ [Written key v false]))
             as (st' & l & E' & B' & L' & Er & H' & Hw); [|exact Hs'|exact He|rewrite app_length; lia|rewrite app_length, place_length; simpl; lia|].
           { split; [exact Hok| |]; cbn [key_to_seqno].
             - rewrite !map_app, (so_log _ _ _ _ _ H), place_snd. reflexivity.
             - rewrite index_from_app. cbn [index_from w_indexed app]. rewrite app_nil_r. reflexivity. }
           rewrite Er. exists st', (IErr :: l), E', B', L'. split; [reflexivity|]. split; [exact H'|]. apply ew_refused. exact Hw.
        -- destruct (IH (Ilm d (Some (sled_insert (index_from c 0 E) (enc_key c key) (json_of_pos (N.of_nat (length E)))))) (B ++ enc_val c v) (L ++ place (length B) [enc_val c v]) (E ++ [Written key v true]))
             as (st' & l & E' & B' & L' & Er & H' & Hw); [|exact Hs'|exact He|rewrite app_length; lia|rewrite app_length, place_length; simpl; lia|].
           { split; [exact Hok| |]; cbn [key_to_seqno].
             - rewrite !map_app, (so_log _ _ _ _ _ H), place_snd. reflexivity.
             - unfold sled_insert. rewrite index_from_app. simpl. reflexivity. }
           rewrite Er. exists st', (IOk tt :: l), E', B', L'. split; [reflexivity|]. split; [exact H'|]. apply ew_done. exact Hw.
      * rewrite Hcc in Hok.
        assert (Hex : exists B1, db_ok d B1 L /\ length B1 <= length B + length (enc_val c v)).
        { destruct Hok as [Hok|Hok]; [exists B|exists (B ++ enc_val c v); rewrite app_length]; split; try exact Hok; lia. }
        destruct Hex as (B1 & Hok1 & HB1).
        destruct (IH (Ilm d (Some (index_from c 0 E))) B1 L E) as (st' & l & E' & B' & L' & Er & H' & Hw); [|exact Hs'|exact He|lia|lia|].
        { split; [exact Hok1|apply (so_log _ _ _ _ _ H)|reflexivity]. }
        rewrite Er. exists st', (IErr :: l), E', B', L'. split; [reflexivity|]. split; [exact H'|]. apply ew_failed; assumption.
    + cbn [erun concat length] in *.
      destruct (files_op_ok k (storage st) B L FReopen T n Hk (so_db _ _ _ _ _ H) Hs FT Fn) as (d' & B1 & L1 & Ed & Hok & Hs' & HB' & HL' & St & _);
        [cbn [op_batch concat length]; lia|cbn [op_batch length]; lia|discriminate|].
      rewrite Ed. cbn [op_batch concat length] in HB', HL'.
      destruct (IH (Ilm d' (key_to_seqno st)) B1 L1 E) as (st' & l & E' & B' & L' & Er & H' & Hw); [|exact Hs'|exact He|lia|lia|].
      { split; [exact Hok| |apply (so_idx _ _ _ _ _ H)]. rewrite <- (so_log _ _ _ _ _ H). inversion St; congruence. }
      rewrite Er. exists st', l, E', B', L'. split; [reflexivity|]. split; [exact H'|]. constructor. exact Hw.
Qed.

(** *** the map survives any number of failed appends: all its answers are those of the entries above *)
Theorem C24_failures k h : codec_ok c -> entry_aligned k -> ehistory_fits k h -> Forall early h ->
  exists st l E, eopen c k h = IOk (st, l) /\ entries_with [] h l E /\ shows c st E.
Proof.
  intros Hc Hk [F1 F2] He.
  destruct (open_empty k (length (concat (eop_values h))) (length (eop_values h))) as (d & Ed & H & Hs). unfold eopen. rewrite Ed.
  destruct (erun_ok k _ _ Hc Hk F1 F2 h (Ilm d (Some [])) [] [] []) as (st & l & E & B & L & Er & H' & Hw);
    [split; [exact H|reflexivity|reflexivity]|exact Hs|exact He|simpl; lia..|].
  exists st, l, E. split; [exact Er|]. split; [exact Hw|]. eapply shows_ok; eauto.
Qed.

(** the entries of a key that the index knows are those of the successful appends, in order *)
Definition with_key (E : list W) : list (K * V) := omap (fun w => if w_indexed w then Some (w_key w, w_val w) else None) E.
Lemma with_key_app E1 E2 : with_key (E1 ++ E2) = with_key E1 ++ with_key E2.
Proof. apply omap_app. Qed.
Lemma entries_with_key (E : list W) (h : list eop) l (E' : list W) : entries_with E h l E' -> with_key E' = with_key E ++ succeeded h l.
Proof.
  induction 1 as [E|E key v fd fi h l E' _ IH|E key v fd fi h l E' _ IH|E key v fd fi refuse h l E' _ _ IH|E h l E' _ IH]; cbn [succeeded app]; rewrite ?app_nil_r; auto.
  - rewrite IH, with_key_app, <- app_assoc. reflexivity.
  - rewrite IH, with_key_app. cbn. rewrite app_nil_r. reflexivity.
Qed.
Lemma with_key_split E l1 k v l2 : with_key E = l1 ++ (k, v) :: l2 -> exists E1 E2, E = E1 ++ Written k v true :: E2 /\ with_key E2 = l2.
Proof.
  revert l1. induction E as [|[k' v' b] E IH]; intros l1 H; [destruct l1; discriminate|]. destruct b.
  - change (with_key (Written k' v' true :: E)) with ((k', v') :: with_key E) in H. destruct l1 as [|p l1].
    + injection H as -> -> H. exists [], E. split; [reflexivity|exact H].
    + injection H as _ H. destruct (IH l1 H) as (E1 & E2 & -> & G). exists (Written k' v' true :: E1), E2. split; [reflexivity|exact G].
  - change (with_key (Written k' v' false :: E)) with (with_key E) in H. destruct (IH l1 H) as (E1 & E2 & -> & G).
    exists (Written k' v' false :: E1), E2. split; [reflexivity|exact G].
Qed.
Lemma with_key_in (E : list W) k v : Written k v true ∈ E -> (k, v) ∈ with_key E.
Proof. intro H. apply elem_of_list_omap. exists (Written k v true). split; [exact H|reflexivity]. Qed.

(** *** what get returns depends only on the appends that succeeded *)
Theorem C24_failures_get k h : codec_ok c -> entry_aligned k -> ehistory_fits k h -> Forall early h ->
  exists st l, eopen c k h = IOk (st, l) /\
    (forall l1 key v l2, succeeded h l = l1 ++ (key, v) :: l2 -> (forall v', (key, v') ∉ l2) -> ilm_get c st key = IOk (Some v)) /\
    (forall key, (forall v, (key, v) ∉ succeeded h l) -> ilm_get c st key = IOk None).
Proof.
  intros Hc Hk Hf He. destruct (C24_failures k h Hc Hk Hf He) as (st & l & E & Eo & Hw & S1 & S2 & _). exists st, l. split; [exact Eo|].
  assert (Hkn := entries_with_key _ _ _ _ Hw). change (with_key []) with (@nil (K * V)) in Hkn. cbn [app] in Hkn. split.
  - intros l1 key v l2 Hl Hno. rewrite Hl in Hkn. destruct (with_key_split _ _ _ _ _ Hkn) as (E1 & E2 & HE & H2).
    apply (S1 E1 key v E2 HE). intros v' Hi. apply (Hno v'). rewrite <- H2. apply with_key_in. exact Hi.
  - intros key Hno. apply S2. intros v Hi. apply (Hno v). rewrite <- Hkn. apply with_key_in. exact Hi.
Qed.
End Faults.

(** the index file cannot be extended for the second append, and sled refuses the third *)
Definition cannot_extend : faults := Faults true false false false false.
Definition failing : list (eop (K := u64) (V := u64)) :=
  [EAppend (n64 1) (n64 10) no_faults no_faults false; EAppend (n64 2) (n64 20) no_faults cannot_extend false;
   EAppend (n64 3) (n64 30) no_faults no_faults true; EReopen; EAppend (n64 1) (n64 11) no_faults no_faults false].
Definition failing_answers (k : cfg) : list (ires unit) * list (option (option N)) * list (option N) :=
  match eopen cbor k failing with
  | IOk (st, l) => (l, map (fun k => obs (ilm_get cbor st (n64 k))) [1; 2; 3]%N, map (fun r => match r with IOk x => Some (proj1_sig (x : u64)) | _ => None end) (fst (ilm_iter cbor 10 st)))
  | _ => ([], [], [])
  end.
Example C24_failures_case : codec_ok cbor /\ entry_aligned (Cfg 16 2) /\ ehistory_fits cbor (Cfg 16 2) failing /\ Forall early failing /\
  failing_answers (Cfg 16 2) = ([IOk tt; IErr; IErr; IOk tt], [Some (Some 11); Some None; Some None], [Some 10; Some 30; Some 11])%N.
Proof.
  split; [exact cbor_ok|]. split; [reflexivity|]. split; [split; vm_compute; reflexivity|].
  split; [repeat (constructor; [repeat split|]); constructor|]. vm_compute. reflexivity.
Qed.
Example C24_failures_get_case : ehistory_fits cbor (Cfg 16 2) failing /\ Forall early failing /\ length (succeeded failing [IOk tt; IErr; IErr; IOk tt]) = 2.
Proof. split; [split; vm_compute; reflexivity|]. split; [repeat (constructor; [repeat split|]); constructor|reflexivity]. Qed.
(** *** the failing calls must come before the record is stored: when it is the flush of the data file that fails, the
    append reports an error, but its bytes stay, and a later append of another key stores a number that answers with them *)
Definition flush_failed : list (eop (K := u64) (V := u64)) :=
  [EAppend (n64 1) (n64 10) flush_fails no_faults false; EAppend (n64 2) (n64 20) no_faults no_faults false].
Theorem C24_flush_failure_refuted : exists k st l,
  codec_ok cbor /\ entry_aligned k /\ ehistory_fits cbor k flush_failed /\ eopen cbor k flush_failed = IOk (st, l) /\ l = [IErr; IOk tt] /\
  obs (ilm_get cbor st (n64 2)) = Some (Some 10%N) /\ obs (ilm_get cbor st (n64 1)) = Some None.
Proof.
  exists (Cfg 16 2). destruct (eopen cbor (Cfg 16 2) flush_failed) as [[st l]| |] eqn:E; [|vm_compute in E; discriminate..].
  exists st, l. split; [exact cbor_ok|]. split; [reflexivity|]. split; [split; vm_compute; reflexivity|]. split; [reflexivity|].
  assert (G : match eopen cbor (Cfg 16 2) flush_failed with IOk (st, l) => (l, obs (ilm_get cbor st (n64 2)), obs (ilm_get cbor st (n64 1))) | _ => ([], None, None) end
              = ([IErr; IOk tt], Some (Some 10%N), Some None)) by (vm_compute; reflexivity).
  rewrite E in G. injection G as -> -> ->. auto.
Qed.
Definition all_ILogFaults := (@append_without_failures, @C24_failures, @C24_failures_get, @C24_flush_failure_refuted).
Print Assumptions all_ILogFaults.
