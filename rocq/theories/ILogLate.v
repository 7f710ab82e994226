(** C24: appends to an indexed log map during which any system call under the log fails, when the map is closed and opened
    after such a failure. *)
From Coq Require Import Lia ZArith.
From stdpp Require Import numbers list gmap.
From Verif Require Import FraosModel FraosSpec FraosProofs FraosLogProofs FraosCrashProofs FraosHistProofs FraosLateProofs ILogMapModel ILogMapSpec ILogMapProofs FraosProps ILogMapProps ILogFaultModel ILogFaults.

Section Late.
Context {K V : Type} (c : codec K V).
Notation W := (written K V).
Notation eop := (eop (K := K) (V := V)).

(** ** Specification *)
(** as in ILogFaults.v, but an append that fails after the file has been grown is followed by closing and opening the map *)
Inductive emended : list eop -> Prop :=
| emd_nil : emended []
| emd_early o h : early o -> emended h -> emended (o :: h)
| emd_reopened key v fd fi refuse h : ~ early (EAppend key v fd fi refuse) -> emended h -> emended (EAppend key v fd fi refuse :: EReopen :: h).
(** the entries of the map: such an append may report an error and leave its value in the log, without its key *)
Inductive entries_late : list W -> list eop -> list (ires unit) -> list W -> Prop :=
| el_nil E : entries_late E [] [] E
| el_done E key v fd fi h l E' : entries_late (E ++ [Written key v true]) h l E' -> entries_late E (EAppend key v fd fi false :: h) (IOk tt :: l) E'
| el_refused E key v fd fi h l E' : entries_late (E ++ [Written key v false]) h l E' -> entries_late E (EAppend key v fd fi true :: h) (IErr :: l) E'
| el_failed E key v fd fi refuse h l E' : ~ (fd = no_faults /\ fi = no_faults) ->
    entries_late E h l E' -> entries_late E (EAppend key v fd fi refuse :: h) (IErr :: l) E'
| el_unkeyed E key v fd fi refuse h l E' : ~ early (EAppend key v fd fi refuse) ->
    entries_late (E ++ [Written key v false]) h l E' -> entries_late E (EAppend key v fd fi refuse :: h) (IErr :: l) E'
| el_reopen E h l E' : entries_late E h l E' -> entries_late E (EReopen :: h) l E'.

(** ** Proofs *)
Lemma append_number k fd fi d recs d' n : db_append k fd fi d recs = (d', Ok (Some n)) -> n = idx_len (d_idx d).
Proof.
  unfold db_append. destruct recs as [|r recs]; [discriminate|]. destruct (flat_append k fd (d_data d) (r :: recs)) as [data' [[]| |]]; try discriminate.
  unfold idx_append. destruct (locations _ _) as [|l0 ls]; [discriminate|]. destruct (existsb _ _); [discriminate|].
  destruct (appender_append _ _ _ _ _) as [ap' [[]| |]]; try discriminate. intro E. injection E as _ <-. reflexivity.
Qed.
Lemma append_none k fd fi d r recs d' : db_append k fd fi d (r :: recs) <> (d', Ok None).
Proof.
  unfold db_append. destruct (flat_append k fd (d_data d) (r :: recs)) as [data' [[]| |]]; try discriminate.
  unfold idx_append. cbn [locations]. destruct (existsb _ _); [discriminate|].
  destruct (appender_append _ _ _ _ _) as [ap' [[]| |]]; discriminate.
Qed.

Lemma late_run k T n : codec_ok c -> cfg_ok k -> (N.of_nat (T + min_mmap k) < 2 ^ 64)%N -> (N.of_nat (16 * n + min_mmap k) < 2 ^ 64)%N ->
  forall h, emended h -> forall st B L E, state_ok c st B L E -> sized k (storage st) T n ->
  length B + length (concat (eop_values c h)) <= T -> length L + length (eop_values c h) <= n ->
  exists st' l E' B' L', erun c k st h = IOk (st', l) /\ state_ok c st' B' L' E' /\ entries_late E h l E'.
Proof.
  intros Hc Hk FT Fn. assert (Hcc : forall v, concat [enc_val c v] = enc_val c v) by (intro; simpl; apply app_nil_r).
  assert (Hreopen : forall st B L E, state_ok c st B L E -> sized k (storage st) T n -> length B <= T -> length L <= n ->
    exists d' B' L', files_op k (storage st) FReopen = Ok d' /\ state_ok c (Ilm d' (key_to_seqno st)) B' L' E /\ sized k d' T n /\ length B' <= length B /\ length L' <= length L).
  { intros st B L E H Hs HB HL.
    destruct (files_op_ok k (storage st) B L FReopen T n Hk (so_db _ _ _ _ _ H) Hs FT Fn) as (d' & B1 & L1 & Ed & Hok & Hs' & HB' & HL' & St & _);
      [cbn [op_batch concat length]; lia|cbn [op_batch length]; lia|discriminate|]. cbn [op_batch concat length] in HB', HL'.
    exists d', B1, L1. split; [exact Ed|]. split; [|split; [exact Hs'|lia]]. split; [exact Hok| |apply (so_idx _ _ _ _ _ H)].
    rewrite <- (so_log _ _ _ _ _ H). inversion St; congruence. }
  induction 1 as [|o h Ho Hh IH|key v fd fi refuse h Hla Hh IH]; intros st B L E H Hs HB HL.
  - exists st, [], E, B, L. split; [reflexivity|]. split; [exact H|constructor].
  - unfold eop_values in HB, HL. cbn [map concat] in HB, HL. fold (eop_values c h) in HB, HL.
    rewrite concat_app, !app_length in HB. rewrite app_length in HL. destruct o as [key v fd fi refuse|].
    + destruct Ho as [Hfd Hfi]. rewrite Hcc in HB. cbn [length] in HL. cbn [erun]. unfold ilm_append_faulty. rewrite (so_idx _ _ _ _ _ H).
      destruct (db_append k fd fi (storage st) [enc_val c v]) as [d r] eqn:Ea.
      assert (Hs' : sized k d T n) by (eapply append_sized; [apply (so_db _ _ _ _ _ H)|exact Hfd|exact Hfi|exact Hs| | |exact Ea]; rewrite ?Hcc; simpl; lia).
      destruct (db_append_ok k fd fi (storage st) B L [enc_val c v] d r Hk (so_db _ _ _ _ _ H) Hfd Hfi) as [(G & _)|[(_ & G & _)|[(_ & _ & -> & Hok)|(_ & _ & -> & Hok & Hfl)]]].
      * rewrite Hcc. split; rewrite app_length, ?place_length; simpl; lia.
      * exact Ea.
      * discriminate.
      * exfalso. apply G. constructor; [apply Hc|constructor].
      * rewrite Hcc in Hok. rewrite (so_len _ _ _ _ _ H).
        destruct refuse.
        -- destruct (IH (Ilm d (Some (index_from c 0 E))) (B ++ enc_val c v) (L ++ place (length B) [enc_val c v]) (E ++ [Written key v false]))
             as (st' & l & E' & B' & L' & Er & H' & Hw); [|exact Hs'|rewrite app_length; lia|rewrite app_length, place_length; simpl; lia|].
           { split; [exact Hok| |]; cbn [key_to_seqno].
             - rewrite !map_app, (so_log _ _ _ _ _ H), place_snd. reflexivity.
             - rewrite index_from_app. cbn [index_from w_indexed app]. rewrite app_nil_r. reflexivity. }
           rewrite Er. exists st', (IErr :: l), E', B', L'. split; [reflexivity|]. split; [exact H'|]. apply el_refused. exact Hw.
        -- destruct (IH (Ilm d (Some (sled_insert (index_from c 0 E) (enc_key c key) (json_of_pos (N.of_nat (length E)))))) (B ++ enc_val c v) (L ++ place (length B) [enc_val c v]) (E ++ [Written key v true]))
             as (st' & l & E' & B' & L' & Er & H' & Hw); [|exact Hs'|rewrite app_length; lia|rewrite app_length, place_length; simpl; lia|].
           { split; [exact Hok| |]; cbn [key_to_seqno].
             - rewrite !map_app, (so_log _ _ _ _ _ H), place_snd. reflexivity.
             - unfold sled_insert. rewrite index_from_app. simpl. reflexivity. }
           rewrite Er. exists st', (IOk tt :: l), E', B', L'. split; [reflexivity|]. split; [exact H'|]. apply el_done. exact Hw.
      * rewrite Hcc in Hok.
        assert (Hex : exists B1, db_ok d B1 L /\ length B1 <= length B + length (enc_val c v)).
        { destruct Hok as [Hok|Hok]; [exists B|exists (B ++ enc_val c v); rewrite app_length]; split; try exact Hok; lia. }
        destruct Hex as (B1 & Hok1 & HB1).
        destruct (IH (Ilm d (Some (index_from c 0 E))) B1 L E) as (st' & l & E' & B' & L' & Er & H' & Hw); [|exact Hs'|lia|lia|].
        { split; [exact Hok1|apply (so_log _ _ _ _ _ H)|reflexivity]. }
        rewrite Er. exists st', (IErr :: l), E', B', L'. split; [reflexivity|]. split; [exact H'|]. apply el_failed; assumption.
    + cbn [erun concat length] in *. destruct (Hreopen st B L E H Hs) as (d' & B1 & L1 & Ed & H1 & Hs' & HB' & HL'); [lia..|]. rewrite Ed.
      destruct (IH _ B1 L1 E H1) as (st' & l & E' & B' & L' & Er & H' & Hw); [exact Hs'|lia|lia|].
      rewrite Er. exists st', l, E', B', L'. split; [reflexivity|]. split; [exact H'|]. constructor. exact Hw.
  - unfold eop_values in HB, HL. cbn [map concat app] in HB, HL. fold (eop_values c h) in HB, HL.
    cbn [concat] in HB. rewrite app_length in HB. cbn [length] in HL.
    cbn [erun]. unfold ilm_append_faulty. rewrite (so_idx _ _ _ _ _ H).
    destruct (db_append k fd fi (storage st) [enc_val c v]) as [d r] eqn:Ea. destruct Hs as (df & xf & Hfiles & _ & _).
    destruct (reopen_any k fd fi (storage st) B L [enc_val c v] d r df xf Hk (so_db _ _ _ _ _ H) Hfiles) as (Hp & L1 & d2 & HL1 & Hok & Eo & B2 & H2 & LB2 & df2 & xf2 & Hf2 & S1 & S2);
      [rewrite Hcc; split; rewrite app_length, ?place_length; simpl; lia|exact Ea|]. rewrite Hcc in *. cbn [length] in *.
    assert (Hs2 : sized k d2 T n) by (exists df2, xf2; split; [exact Hf2|lia]).
    assert (LL1 : length L1 <= length L + 1).
    { destruct HL1 as [->|[_ ->]]; [lia|rewrite app_length, place_length; simpl; lia]. }
    assert (Hnf : ~ (fd = no_faults /\ fi = no_faults)) by (intros [-> ->]; apply Hla; repeat split).
    (* the value in the log without its key, or not in the log *)
    assert (Hnokey : exists E1, (E1 = E \/ E1 = E ++ [Written key v false]) /\ state_ok c (Ilm d2 (Some (index_from c 0 E))) B2 L1 E1).
    { destruct HL1 as [->|[_ ->]].
      - exists E. split; [auto|]. split; [exact H2|apply (so_log _ _ _ _ _ H)|reflexivity].
      - exists (E ++ [Written key v false]). split; [auto|]. split; [exact H2| |]; cbn [key_to_seqno].
        + rewrite !map_app, (so_log _ _ _ _ _ H), place_snd. reflexivity.
        + rewrite index_from_app. cbn [index_from w_indexed app]. rewrite app_nil_r. reflexivity. }
    assert (Hfailed : exists st' l E' B' L', erun c k (Ilm d2 (Some (index_from c 0 E))) h = IOk (st', l) /\ state_ok c st' B' L' E' /\
      entries_late E (EAppend key v fd fi refuse :: EReopen :: h) (IErr :: l) E').
    { destruct Hnokey as (E1 & HE1 & H1). destruct (IH _ _ _ _ H1 Hs2) as (st' & l & E' & B' & L' & Er & H' & Hw); [lia|lia|].
      exists st', l, E', B', L'. split; [exact Er|]. split; [exact H'|].
      destruct HE1 as [->| ->]; [apply el_failed; [exact Hnf|]|apply el_unkeyed; [exact Hla|]]; constructor; exact Hw. }
    destruct r as [[pos|]|e|]; [| |cbn [storage key_to_seqno]; rewrite Eo; destruct Hfailed as (st' & l & E' & B' & L' & -> & Q); exists st', (IErr :: l), E', B', L'; split; [reflexivity|exact Q]|congruence].
    + destruct refuse; cbn [storage key_to_seqno]; rewrite Eo.
      { destruct Hfailed as (st' & l & E' & B' & L' & -> & Q). exists st', (IErr :: l), E', B', L'. split; [reflexivity|exact Q]. }
      assert (HL2 := Hok (ex_intro _ pos eq_refl)).
      assert (Hpos : pos = length E).
      { rewrite (append_number _ _ _ _ _ _ _ Ea). unfold idx_len. rewrite (do_isize _ _ _ (so_db _ _ _ _ _ H)), (so_len _ _ _ _ _ H).
        rewrite Nat.div_div by lia. change (8 * 2) with 16. rewrite Nat.mul_comm. apply Nat.div_mul. lia. }
      subst pos.
      destruct (IH (Ilm d2 (Some (sled_insert (index_from c 0 E) (enc_key c key) (json_of_pos (N.of_nat (length E)))))) B2 L1 (E ++ [Written key v true]))
        as (st' & l & E' & B' & L' & Er & H' & Hw); [|exact Hs2|lia|lia|].
      { split; [exact H2| |]; cbn [key_to_seqno].
        - rewrite HL2, !map_app, (so_log _ _ _ _ _ H), place_snd. reflexivity.
        - unfold sled_insert. rewrite index_from_app. simpl. reflexivity. }
      rewrite Er. exists st', (IOk tt :: l), E', B', L'. split; [reflexivity|]. split; [exact H'|]. apply el_done. constructor. exact Hw.
    + exfalso. apply (append_none k fd fi (storage st) (enc_val c v) [] d). exact Ea.
Qed.

(** *** all answers of the map are those of the entries above *)
Theorem C24_late_failures k h : codec_ok c -> entry_aligned k -> ehistory_fits c k h -> emended h ->
  exists st l E, eopen c k h = IOk (st, l) /\ entries_late [] h l E /\ shows c st E.
Proof.
  intros Hc Hk [F1 F2] He.
  destruct (open_empty k (length (concat (eop_values c h))) (length (eop_values c h))) as (d & Ed & H & Hs). unfold eopen. rewrite Ed.
  destruct (late_run k _ _ Hc Hk F1 F2 h He (Ilm d (Some [])) [] [] []) as (st & l & E & B & L & Er & H' & Hw);
    [split; [exact H|reflexivity|reflexivity]|exact Hs|simpl; lia..|].
  exists st, l, E. split; [exact Er|]. split; [exact Hw|]. eapply shows_ok; eauto.
Qed.
Lemma late_with_key (E : list W) (h : list eop) l (E' : list W) : entries_late E h l E' -> with_key E' = with_key E ++ succeeded h l.
Proof.
  induction 1 as [E|E key v fd fi h l E' _ IH|E key v fd fi h l E' _ IH|E key v fd fi refuse h l E' _ _ IH|E key v fd fi refuse h l E' _ _ IH|E h l E' _ IH]; cbn [succeeded app]; rewrite ?app_nil_r; auto.
  - rewrite IH, with_key_app, <- app_assoc. reflexivity.
  - rewrite IH, with_key_app. cbn. rewrite app_nil_r. reflexivity.
  - rewrite IH, with_key_app. cbn. rewrite app_nil_r. reflexivity.
Qed.
(** *** what get returns depends only on the appends that succeeded *)
Theorem C24_late_failures_get k h : codec_ok c -> entry_aligned k -> ehistory_fits c k h -> emended h ->
  exists st l, eopen c k h = IOk (st, l) /\
    (forall l1 key v l2, succeeded h l = l1 ++ (key, v) :: l2 -> (forall v', (key, v') ∉ l2) -> ilm_get c st key = IOk (Some v)) /\
    (forall key, (forall v, (key, v) ∉ succeeded h l) -> ilm_get c st key = IOk None).
Proof.
  intros Hc Hk Hf He. destruct (C24_late_failures k h Hc Hk Hf He) as (st & l & E & Eo & Hw & S1 & S2 & _). exists st, l. split; [exact Eo|].
  assert (Hkn := late_with_key _ _ _ _ Hw). change (with_key []) with (@nil (K * V)) in Hkn. cbn [app] in Hkn. split.
  - intros l1 key v l2 Hl Hno. rewrite Hl in Hkn. destruct (with_key_split _ _ _ _ _ Hkn) as (E1 & E2 & HE & H2).
    apply (S1 E1 key v E2 HE). intros v' Hi. apply (Hno v'). rewrite <- H2. apply with_key_in. exact Hi.
  - intros key Hno. apply S2. intros v Hi. apply (Hno v). rewrite <- Hkn. apply with_key_in. exact Hi.
Qed.
End Late.

(** the flush of the data file fails for key 1 and that of the index file for key 3; the map is opened again after each *)
Definition late_failing : list (eop (K := u64) (V := u64)) :=
  [EAppend (n64 1) (n64 10) flush_fails no_faults false; EReopen; EAppend (n64 2) (n64 20) no_faults no_faults false;
   EAppend (n64 3) (n64 30) no_faults flush_fails false; EReopen; EAppend (n64 4) (n64 40) no_faults no_faults false].
Definition late_answers (k : cfg) : list (ires unit) * list (option (option N)) * list (option N) :=
  match eopen cbor k late_failing with
  | IOk (st, l) => (l, map (fun k => obs (ilm_get cbor st (n64 k))) [1; 2; 3; 4]%N, map (fun r => match r with IOk x => Some (proj1_sig (x : u64)) | _ => None end) (fst (ilm_iter cbor 10 st)))
  | _ => ([], [], [])
  end.
Example C24_late_failures_case : codec_ok cbor /\ entry_aligned (Cfg 16 2) /\ ehistory_fits cbor (Cfg 16 2) late_failing /\ emended late_failing /\
  late_answers (Cfg 16 2) = ([IErr; IOk tt; IErr; IOk tt], [Some None; Some (Some 20); Some None; Some (Some 40)], [Some 20; Some 30; Some 40])%N.
Proof.
  split; [exact cbor_ok|]. split; [reflexivity|]. split; [split; vm_compute; reflexivity|]. split; [|vm_compute; reflexivity].
  apply emd_reopened; [intros [(_ & G & _) _]; discriminate|]. apply emd_early; [repeat split|].
  apply emd_reopened; [intros [_ (_ & G & _)]; discriminate|]. apply emd_early; [repeat split|constructor].
Qed.
Example C24_late_failures_get_case : ehistory_fits cbor (Cfg 16 2) late_failing /\ length (succeeded late_failing [IErr; IOk tt; IErr; IOk tt]) = 2.
Proof. split; [split; vm_compute; reflexivity|reflexivity]. Qed.
Definition all_ILogLate := (@C24_late_failures, @C24_late_failures_get).
Print Assumptions all_ILogLate.
