(** C62: opening an indexed log map from its configuration. *)
From Coq Require Import Lia ZArith String.
From stdpp Require Import numbers list gmap.
From Verif Require Import FraosModel FraosSpec FraosProofs FraosLogProofs FraosCrashProofs FraosHistProofs FraosProps FraosRoModel FraosRoSpec FraosRoProofs FraosRoProps
  FraosDropProps ILogMapModel ILogMapSpec ILogMapProofs ILogMapProps JsonModel ILogOpenModel.
Local Close Scope Z_scope.
Local Open Scope nat_scope.

(** ** What is said *)
Section Spec.
Context {K V : Type} (c : codec K V).
(** what can be asked without keys is answered from [vs] *)
Definition shows_values (st : ilm) (vs : list V) : Prop :=
  (forall n, ilm_iter c n st = (map IOk (take n vs), length vs <? n)) /\
  ilm_last c st = IOk (last vs) /\ ilm_get_next c st None = IOk (head vs).
(** the files and keys of a map: while it is open, and after it was closed *)
Definition live_place (st : ilm) : place := Place (PDir (fst (db_files (storage st))) (snd (db_files (storage st)))) (key_to_seqno st) true.
Definition closed_place (st : ilm) : place := handle_drop (Handle st true) (live_place st).
(** the values of the operation under way whose index entry is complete *)
Definition op_values (o : iop (K := K) (V := V)) : list V := match o with IAppend _ v | ICrash _ v _ _ => [v] | IReopen => [] end.
Definition kept_values (h : list (iop (K := K) (V := V))) (m : moment) : list V :=
  match m_point m, h !! m_done m with CrashIndexWords n, Some o => take (n / 2) (op_values o) | _, _ => [] end.
End Spec.

Section C62.
Context {K V : Type} (c : codec K V).
Notation appends := (map (fun p : K * V => IAppend p.1 p.2)).

Lemma shows_values_ok d o vs : codec_ok c -> reads_as d (map (enc_val c) vs) -> shows_values c (Ilm d o) vs.
Proof.
  intros Hc (_ & _ & _ & R4 & R5).
  assert (Hd : forall l, map (decode_item c) (map Ok (map (enc_val c) l)) = map IOk l).
  { induction l as [|v l IH]; [reflexivity|]. simpl. destruct Hc as (_ & -> & _). rewrite IH. reflexivity. }
  split; [|split].
  - intro n. unfold ilm_iter. cbn [storage]. rewrite R5 by lia. change (N.to_nat 0) with 0. rewrite drop_0, map_length. f_equal.
    change (map (enc_val c) vs) with (enc_val c <$> vs). rewrite <- fmap_take. apply Hd.
  - unfold ilm_last. cbn [storage]. rewrite R4. change (map (enc_val c) vs) with (enc_val c <$> vs). rewrite fmap_last.
    destruct (last vs) as [v|]; [|reflexivity]. simpl. destruct Hc as (_ & -> & _). reflexivity.
  - unfold ilm_get_next, item_next. cbn [storage]. specialize (R5 0%N 1 ltac:(lia)). change (N.to_nat 0) with 0 in R5. rewrite drop_0 in R5.
    cbn [iter_collect] in R5. destruct vs as [|v vs]; simpl in R5.
    + destruct (iter_next d 0) as [[[r|]| |] s]; [discriminate|reflexivity|discriminate..].
    + destruct (iter_next d 0) as [[[r|]| |] s]; try discriminate. injection R5 as ->. simpl. destruct Hc as (_ & -> & _). reflexivity.
Qed.

(** the log of a map is the log of its history *)
Lemma ilm_op_storage k st o st' : ilm_op c k st o = IOk st' -> is_Some (key_to_seqno st) ->
  files_op k (storage st) (log_op c o) = Ok (storage st') /\ is_Some (key_to_seqno st').
Proof.
  destruct o as [key v| |key v p lost]; cbn [ilm_op log_op]; intros E [m Hm].
  - unfold ilm_append in E. rewrite Hm in E. cbn [files_op]. destruct (db_append k no_faults no_faults (storage st) [enc_val c v]) as [d [[n|]|e|]];
      try discriminate; injection E as <-; simpl; eauto.
  - destruct (files_op k (storage st) FReopen) as [d| |]; try discriminate. injection E as <-. simpl. eauto.
  - destruct (files_op k (storage st) (FCrash [enc_val c v] (crash_log_point p))) as [d| |]; try discriminate. injection E as <-. simpl. eauto.
Qed.
Lemma ilm_open_storage k h st : ilm_open c k h = IOk st -> files_open k (map (log_op c) h) = Ok (storage st).
Proof.
  unfold ilm_open, files_open. destruct (db_new (Some []) (Some [])) as [d| |]; [|discriminate..].
  assert (Hs : is_Some (key_to_seqno (Ilm d (Some [])))) by (simpl; eauto). revert Hs. change d with (storage (Ilm d (Some []))) at 3.
  generalize (Ilm d (Some [])) as s. induction h as [|o h IH]; intros s Hs E; simpl in *; [injection E as <-; reflexivity|].
  destruct (ilm_op c k s o) as [s1| |] eqn:Eo; try discriminate. destruct (ilm_op_storage k s o s1 Eo Hs) as [-> Hs1]. apply IH; assumption.
Qed.
Lemma log_ops_early h : history_faults_early (map (log_op c) h).
Proof. intros fd fi recs Hi. apply elem_of_list_fmap in Hi as ([key v| |key v p lost] & Hi & _); discriminate. Qed.

(** a map after a history: its state, its log and its files *)
Lemma ilm_state k h st : codec_ok c -> entry_aligned k -> ihistory_fits c k h -> ilm_open c k h = IOk st ->
  exists B L df xf, state_ok c st B L (map_after h) /\ contig B L /\ db_files (storage st) = (Some df, Some xf) /\ files_fit df xf.
Proof.
  intros Hc Hk Hf E. destruct (ilm_open_ok c Hc k h [] Hk ltac:(rewrite app_nil_r; exact Hf)) as (st' & B & L & E' & H & (df & xf & Ed & S1 & S2) & _).
  rewrite E in E'. injection E' as <-. rewrite app_nil_r in *.
  destruct (files_open_ok k (map (log_op c) h) [] Hk ltac:(rewrite app_nil_r; exact Hf) (log_ops_early h)) as (d & B' & L' & Eo & H' & _ & _ & _ & _ & Hcg).
  rewrite (ilm_open_storage _ _ _ E) in Eo. injection Eo as <-.
  exists B', L', df, xf. split; [|split; [apply Hcg; intros fd fi recs Hi; apply elem_of_list_fmap in Hi as ([key v| |key v p lost] & Hi & _); discriminate|]].
  - split; [exact H'| |apply (so_idx _ _ _ _ _ H)]. rewrite <- (so_log _ _ _ _ _ H).
    apply (reads_length (storage st)); [eapply reads_ok; eauto|eapply reads_ok; apply (so_db _ _ _ _ _ H)|].
    assert (G : (N.of_nat (16 * length L') < 2 ^ 64)%N) by apply (do_fits _ _ _ H'). rewrite map_length. change (2 ^ 64)%N with (16 * 2 ^ 60)%N in G. lia.
  - split; [exact Ed|]. destruct Hf as [F1 F2]. fold (batches (map (log_op c) h)) in F1, F2. split; lia.
Qed.

(** ** A configuration without a path: a new map in memory, whatever else it says *)
Theorem C62_memory k cfg mk p : lc_path cfg = None ->
  exists d, ilm_new cfg mk p = (p, IOk (Handle (Ilm d (if lc_index cfg then Some [] else None)) true)) /\ reads_as d [] /\
    ilm_mem_open c k [] = IOk (Ilm d (Some [])).
Proof.
  intro Hp. unfold ilm_new, ilm_mem_open. rewrite Hp. destruct mem_empty as (d & -> & H). exists d. split; [reflexivity|].
  split; [apply (reads_ok d [] [] H)|reflexivity].
Qed.

(** ** A path with nothing there: a new map, unless it is to be read only *)
Theorem C62_makes k pa : exists d,
  ilm_new (LogConfig (Some pa) true false) true (Place PMissing None false) =
    (Place (PDir (Some []) (Some [])) (Some []) true, IOk (Handle (Ilm d (Some [])) true)) /\
  ilm_open c k [] = IOk (Ilm d (Some [])).
Proof.
  destruct (open_empty k 0 0) as (d & E & _). exists d. split; [|unfold ilm_open; rewrite E; reflexivity].
  unfold ilm_new. cbn [lc_path lc_readonly lc_index negb pl_log pl_taken pl_keys].
  change (open_path true true PMissing) with (open_dir true (Some []) (Some [])). rewrite open_dir_existing, E. reflexivity.
Qed.
Theorem C62_makes_nothing_read_only cfg mk pa keys taken : lc_path cfg = Some pa -> lc_readonly cfg = true ->
  snd (ilm_new cfg mk (Place PMissing keys taken)) = IErr /\
  pl_keys (fst (ilm_new cfg mk (Place PMissing keys taken))) = keys.
Proof. intros Hp Hr. unfold ilm_new. rewrite Hp, Hr. simpl. destruct mk; split; reflexivity. Qed.

(** ** A map that was closed is opened as it was *)
Lemma closed_files k h st : codec_ok c -> entry_aligned k -> ihistory_fits c k h -> ilm_open c k h = IOk st ->
  exists B L d, closed_place st = Place (PDir (Some B) (Some (ibytes L))) (key_to_seqno st) false /\
    db_new (Some B) (Some (ibytes L)) = Ok d /\ files_op k (storage st) FReopen = Ok d /\
    ilm_open c k (h ++ [IReopen]) = IOk (Ilm d (key_to_seqno st)) /\ is_Some (key_to_seqno st) /\
    shows c (Ilm d (key_to_seqno st)) (map_after h) /\ reads_as d (map (enc_val c) (map w_val (map_after h))).
Proof.
  intros Hc Hk Hf E. destruct (ilm_state k h st Hc Hk Hf E) as (B & L & df & xf & H & Hcg & Ed & _).
  pose proof (so_db _ _ _ _ _ H) as Hd. pose proof (drop_files _ _ _ _ _ Hd Ed) as Edrop.
  assert (Hf' : ihistory_fits c k (h ++ [IReopen])).
  { unfold ihistory_fits, history_fits in *. rewrite map_app, map_app, concat_app. simpl. rewrite !app_nil_r. exact Hf. }
  destruct (ilm_open_ok c Hc k (h ++ [IReopen]) [] Hk ltac:(rewrite app_nil_r; exact Hf')) as (st' & B' & L' & E' & H' & _).
  assert (Em : map_after (h ++ [IReopen]) = map_after h) by (unfold map_after; rewrite foldl_app; reflexivity). rewrite Em in H'.
  assert (E2 : ilm_open c k (h ++ [IReopen]) = ilm_op c k st IReopen).
  { unfold ilm_open in *. destruct (db_new (Some []) (Some [])) as [d0| |]; [|discriminate..]. clear - E. revert E. generalize (Ilm d0 (Some [])) as s.
    induction h as [|o h IH]; intros s E; cbn [app ilm_run] in *; [injection E as ->; destruct (ilm_op c k st IReopen); reflexivity|].
    destruct (ilm_op c k s o); try discriminate. apply IH. exact E. }
  assert (E3 := E2). rewrite E' in E3. cbn [ilm_op] in E3.
  destruct (files_op k (storage st) FReopen) as [d| |] eqn:Eo; try discriminate. injection E3 as ->.
  exists B, L, d. split; [|split; [|split; [reflexivity|split; [exact E'|split; [|split]]]]].
  - unfold closed_place, handle_drop, log_dropped. cbn [mh_writable mh_map]. rewrite Edrop, (so_idx _ _ _ _ _ H). reflexivity.
  - unfold files_op in Eo. rewrite Edrop in Eo. exact Eo.
  - rewrite (so_idx _ _ _ _ _ H). eauto.
  - eapply shows_ok; eauto.
  - rewrite <- log_map, <- (so_log _ _ _ _ _ H'). eapply reads_ok. apply (so_db _ _ _ _ _ H').
Qed.
Theorem C62_opens_again k h st cfg pa mk : codec_ok c -> entry_aligned k -> ihistory_fits c k h -> ilm_open c k h = IOk st ->
  lc_path cfg = Some pa -> lc_index cfg = true ->
  exists st', ilm_new cfg mk (closed_place st) = (Place (pl_log (closed_place st)) (key_to_seqno st) true, IOk (Handle st' (negb (lc_readonly cfg)))) /\
    ilm_open c k (h ++ [IReopen]) = IOk st' /\ shows c st' (map_after h).
Proof.
  intros Hc Hk Hf E Hp Hi. destruct (closed_files k h st Hc Hk Hf E) as (B & L & d & -> & En & _ & E2 & [m Hm] & Hs & _). rewrite Hm in *.
  exists (Ilm d (Some m)). split; [|split; [exact E2|exact Hs]]. unfold ilm_new. rewrite Hp, Hi. cbn [pl_log pl_taken pl_keys default].
  unfold open_path. rewrite open_dir_existing, En. reflexivity.
Qed.
(** and, unless it is opened for reading only, appended to *)
Theorem C62_appends k h st cfg pa mk key v : codec_ok c -> entry_aligned k -> ihistory_fits c k (h ++ [IAppend key v]) -> ilm_open c k h = IOk st ->
  lc_path cfg = Some pa -> lc_index cfg = true -> lc_readonly cfg = false ->
  exists p hd hd', ilm_new cfg mk (closed_place st) = (p, IOk hd) /\ handle_append c k hd key v = (hd', IOk tt) /\ mh_writable hd' = true /\
    ilm_open c k (h ++ [IReopen; IAppend key v]) = IOk (mh_map hd') /\ shows c (mh_map hd') (map_after h ++ [Written key v true]).
Proof.
  intros Hc Hk Hf E Hp Hi Hr.
  assert (Hf1 : ihistory_fits c k h) by (unfold ihistory_fits in *; rewrite map_app in Hf; eapply fits_prefix; eauto).
  destruct (C62_opens_again k h st cfg pa mk Hc Hk Hf1 E Hp Hi) as (st' & En & Eo & _). rewrite Hr in En.
  assert (Hf2 : ihistory_fits c k ((h ++ [IReopen]) ++ [IAppend key v])).
  { unfold ihistory_fits, history_fits in *. rewrite <- app_assoc, !map_app, !concat_app in *. exact Hf. }
  destruct (C24_append_succeeds c k (h ++ [IReopen]) st' key v Hc Hk Hf2 Eo) as (st2 & Ea & Eo2).
  destruct (C25_any_history c k _ Hc Hk Hf2) as (st3 & Eo3 & Hs). rewrite Eo2 in Eo3. injection Eo3 as <-.
  eexists _, _, (Handle st2 true). split; [exact En|]. split; [unfold handle_append; cbn [mh_writable mh_map negb]; rewrite Ea; reflexivity|].
  split; [reflexivity|]. split; [rewrite <- app_assoc in Eo2; exact Eo2|]. cbn [mh_map].
  replace (map_after h ++ [Written key v true]) with (map_after ((h ++ [IReopen]) ++ [IAppend key v])); [exact Hs|].
  unfold map_after. rewrite !foldl_app. reflexivity.
Qed.
(** opened and closed again, in whatever way, it is as it was *)
Theorem C62_close_again k h st cfg pa mk p hd : codec_ok c -> entry_aligned k -> ihistory_fits c k h -> ilm_open c k h = IOk st ->
  lc_path cfg = Some pa -> ilm_new cfg mk (closed_place st) = (p, IOk hd) -> handle_drop hd p = closed_place st.
Proof.
  intros Hc Hk Hf E Hp En. destruct (ilm_state k h st Hc Hk Hf E) as (B & L & df & xf & H & Hcg & Ed & Hfit).
  pose proof (so_db _ _ _ _ _ H) as Hd. pose proof (drop_files _ _ _ _ _ Hd Ed) as Edrop. pose proof (drop_files_ok _ _ _ Hd) as Hok.
  destruct (db_files_ok _ _ _ _ _ Hd Ed) as (Hok1 & HB1 & HB2).
  assert (Hfit2 : files_fit B (ibytes L)).
  { destruct Hfit as [F1 F2]. destruct Hok1 as [G1 G2 G3 G4 G5]. split; [lia|]. rewrite ibytes_length. lia. }
  destruct (db_new_ok B (ibytes L) L Hok Hfit2) as (d & En2 & Hd2 & Ed2). pose proof (drop_files _ _ _ _ _ Hd2 Ed2) as Edrop2.
  assert (Hend : log_end L = length B) by (destruct Hcg as [G1 G2]; rewrite G1, log_end_place, G2; reflexivity).
  rewrite Hend, take_ge in Edrop2 by lia.
  assert (Ecl : closed_place st = Place (PDir (Some B) (Some (ibytes L))) (key_to_seqno st) false).
  { unfold closed_place, handle_drop, log_dropped. cbn [mh_writable mh_map]. rewrite Edrop, (so_idx _ _ _ _ _ H). reflexivity. }
  assert (Hlog : log_dropped (negb (lc_readonly cfg)) d = PDir (Some B) (Some (ibytes L))).
  { unfold log_dropped, ro_drop_files. destruct (lc_readonly cfg); cbn [negb]; [rewrite Ed2|rewrite Edrop2]; reflexivity. }
  rewrite Ecl in *. unfold ilm_new in En. rewrite Hp in En. cbn [pl_log pl_taken pl_keys] in En. unfold open_path in En. rewrite open_dir_existing, En2 in En.
  rewrite (so_idx _ _ _ _ _ H) in *. destruct (lc_index cfg); injection En as <- <-; unfold handle_drop; cbn [mh_map mh_writable storage key_to_seqno pl_keys pl_taken default];
    rewrite Hlog; reflexivity.
Qed.
(** without the key index: what needs no keys is answered, the rest is refused (C24_no_index), appending too *)
Theorem C62_without_index k h st cfg pa mk key v : codec_ok c -> entry_aligned k -> ihistory_fits c k h -> ilm_open c k h = IOk st ->
  lc_path cfg = Some pa -> lc_index cfg = false ->
  exists d, let hd := Handle (Ilm d None) (negb (lc_readonly cfg)) in
    ilm_new cfg mk (closed_place st) = (closed_place st, IOk hd) /\
    shows_values c (mh_map hd) (map w_val (map_after h)) /\ handle_append c k hd key v = (hd, IErr) /\
    ilm_get c (mh_map hd) key = IErr /\ ilm_contains c (mh_map hd) key = IErr /\ ilm_is_empty (mh_map hd) = IErr /\ ilm_get_next c (mh_map hd) (Some key) = IErr.
Proof.
  intros Hc Hk Hf E Hp Hi. destruct (closed_files k h st Hc Hk Hf E) as (B & L & d & -> & En & _ & E2 & [m Hm] & Hs & HR). rewrite Hm in *.
  exists d. intro hd. split; [|split; [|split]].
  - unfold ilm_new. rewrite Hp, Hi. cbn [pl_log pl_taken pl_keys default]. unfold open_path. rewrite open_dir_existing, En. reflexivity.
  - apply shows_values_ok; assumption.
  - unfold handle_append, hd. simpl. destruct (lc_readonly cfg); reflexivity.
  - repeat split.
Qed.

(** ** A map opened for reading only *)
(** Nothing can be appended, nothing changes, over whatever files the handle is; nor when it is dropped. *)
Theorem C62_read_only k cfg pa mk p p' hd df xf key v : codec_ok c -> lc_path cfg = Some pa -> lc_readonly cfg = true ->
  ilm_new cfg mk p = (p', IOk hd) ->
  let hd' := Handle (ilm_under (mh_map hd) df xf) (mh_writable hd) in
  handle_append c k hd' key v = (hd', IErr) /\ pl_log (handle_drop hd' p') = PDir (Some df) (Some xf) /\
  pl_keys (handle_drop hd' p') = pl_keys p' /\ pl_log p' = pl_log p.
Proof.
  intros Hc Hp Hr E hd'. unfold ilm_new in E. rewrite Hp, Hr in E. cbn [negb] in E.
  destruct (open_path false mk (pl_log p)) as [log [d|e|]] eqn:Eo; try discriminate.
  assert (Hl : log = pl_log p).
  { pose proof (C50_makes_no_files mk (pl_log p)) as G. rewrite Eo in G. apply G. intro Hm. rewrite Hm in Eo. simpl in Eo. destruct mk; discriminate. }
  destruct (C50_refuses k mk (pl_log p) log d df xf [enc_val c v] Eo) as [G1 G2].
  assert (Hne : has_empty [enc_val c v] = false) by (apply has_empty_false; constructor; [apply Hc|constructor]). rewrite Hne in G1. cbn [length Nat.eqb] in G1.
  destruct (lc_index cfg).
  - destruct (pl_taken p); [discriminate|]. injection E as <- <-. split; [|split; [|split]].
    + unfold hd', handle_append, ilm_under. cbn [mh_map mh_writable key_to_seqno storage]. rewrite G1. reflexivity.
    + reflexivity.
    + reflexivity.
    + exact Hl.
  - injection E as <- <-. split; [reflexivity|]. split; [reflexivity|]. split; [reflexivity|exact Hl].
Qed.

(** A reader without the key index opens the log of a map that another process has open and appends to: the index file at one
    moment, the data at that moment or later.  It has exactly the values that were written at the first moment, and still has
    them at every later one. *)
Lemma ilm_open_prefix k h i : codec_ok c -> entry_aligned k -> ihistory_fits c k h ->
  exists st, ilm_open c k (take i h) = IOk st /\ reads_as (storage st) (map (enc_val c) (map w_val (map_after (take i h)))).
Proof.
  intros Hc Hk Hf. destruct (ilm_open_ok c Hc k (take i h) (drop i h) Hk ltac:(rewrite take_drop; exact Hf)) as (st & B & L & E & H & _).
  exists st. split; [exact E|]. rewrite <- log_map, <- (so_log _ _ _ _ _ H). eapply reads_ok. apply (so_db _ _ _ _ _ H).
Qed.
Lemma kept_at_values h m : codec_ok c -> kept_at (map (log_op c) h) m = map (enc_val c) (kept_values h m).
Proof.
  intro Hc. unfold kept_at, batch_at, kept_values, crash_kept. rewrite list_lookup_fmap. destruct (h !! m_done m) as [o|]; simpl.
  - assert (Hb : op_batch (log_op c o) = map (enc_val c) (op_values o)) by (destruct o; reflexivity). rewrite Hb.
    assert (Hne : has_empty (map (enc_val c) (op_values o)) = false).
    { apply has_empty_false. apply Forall_forall. intros x Hx. apply elem_of_list_fmap in Hx as (v & -> & _). apply Hc. }
    rewrite Hne. destruct (m_point m); try reflexivity. symmetry. apply fmap_take.
  - destruct (m_point m); try reflexivity. apply take_nil.
Qed.
Theorem C62_reader k h m1 m2 m3 df1 xf1 df2 xf2 df3 xf3 pa mk keys taken : codec_ok c -> entry_aligned k -> ihistory_fits c k h ->
  let hl := map (log_op c) h in
  occurs hl m1 -> occurs hl m2 -> occurs hl m3 -> not_later hl m1 m2 -> not_later hl m2 m3 ->
  files_at k hl m1 = Some (df1, xf1) -> files_at k hl m2 = Some (df2, xf2) -> files_at k hl m3 = Some (df3, xf3) ->
  let p := Place (PDir (Some df2) (Some xf1)) keys taken in let vs := map w_val (map_after (take (m_done m1) h)) ++ kept_values h m1 in
  exists st, ilm_new (LogConfig (Some pa) false true) mk p = (p, IOk (Handle st false)) /\
    shows_values c st vs /\ shows_values c (ilm_under st df3 xf3) vs.
Proof.
  intros Hc Hk Hf hl O1 O2 O3 L12 L23 F1 F2 F3 p vs.
  destruct (ilm_open_prefix k h (m_done m1) Hc Hk Hf) as (st1 & E1 & R1).
  assert (Eo : files_open k (take (m_done m1) hl) = Ok (storage st1)).
  { unfold hl. change (map (log_op c) h) with (log_op c <$> h). rewrite <- fmap_take. apply ilm_open_storage. exact E1. }
  destruct (C50_snapshot k hl m1 m2 m3 (storage st1) _ df1 xf1 df2 xf2 df3 xf3 mk Hk Hf (log_ops_early h) O1 O2 O3 L12 L23 Eo R1 F1 F2 F3) as (r & Er & Ra & Rb).
  unfold hl in Ra, Rb. rewrite kept_at_values, <- map_app in Ra, Rb by exact Hc. fold vs in Ra, Rb.
  exists (Ilm r None). split; [|split; apply shows_values_ok; assumption].
  unfold ilm_new. cbn [lc_path lc_readonly lc_index negb pl_log pl_keys pl_taken p]. rewrite Er. reflexivity.
Qed.

(** ** Opening a map that is open already *)
(** With the key index it is refused ... *)
Theorem C62_second_refused k h st cfg pa mk : codec_ok c -> entry_aligned k -> ihistory_fits c k h -> ilm_open c k h = IOk st ->
  lc_path cfg = Some pa -> lc_index cfg = true -> snd (ilm_new cfg mk (live_place st)) = IErr /\
  (lc_readonly cfg = true -> fst (ilm_new cfg mk (live_place st)) = live_place st).
Proof.
  intros Hc Hk Hf E Hp Hi. destruct (ilm_state k h st Hc Hk Hf E) as (B & L & df & xf & H & Hcg & Ed & Hfit).
  destruct (db_files_ok _ _ _ _ _ (so_db _ _ _ _ _ H) Ed) as (Hok & _ & _). destruct (db_new_ok df xf L Hok Hfit) as (d2 & En & Hd2 & Ed2).
  unfold ilm_new, live_place. rewrite Hp, Hi, Ed. cbn [pl_log pl_keys pl_taken fst snd]. unfold open_path. rewrite open_dir_existing, En. split; [reflexivity|].
  intros ->. cbn [negb fst]. unfold log_dropped, ro_drop_files. rewrite Ed2. reflexivity.
Qed.
(** ... but unless it was to be read only the refused open has cut the files of the map that is open: while less than one mapping
    was appended since that was opened, its next append, which would have succeeded, writes past the end of the file.  The same
    when it is opened without the key index, which succeeds, and is dropped. *)
Lemma under_drop d B L df xf : db_ok d B L -> db_files d = (Some df, Some xf) -> db_under d B (ibytes L) = db_drop d.
Proof.
  intros H Ed. unfold db_files in Ed. injection Ed as E1 E2. unfold db_under, db_drop, ap_under, appender_shrink, gmm_under.
  pose proof (shrink_file _ _ (do_data _ _ _ H)) as S1. pose proof (shrink_file _ _ (do_idx _ _ _ H)) as S2. rewrite E1 in S1. rewrite E2 in S2.
  unfold shrink in *. rewrite E1 in *. rewrite E2 in *. cbn [g_file] in *. injection S1 as ->. injection S2 as ->. reflexivity.
Qed.
Theorem C62_second_cuts k h W st key v cfg pa mk : codec_ok c -> entry_aligned k ->
  ihistory_fits c k (h ++ IReopen :: appends W ++ [IAppend key v]) -> ilm_open c k (h ++ IReopen :: appends W) = IOk st ->
  W <> [] -> length (concat (map (fun p => enc_val c p.2) W)) + length (enc_val c v) < min_mmap k ->
  lc_path cfg = Some pa -> lc_readonly cfg = false ->
  snd (ilm_append c k st key v) = IOk tt /\
  exists df xf,
    (match ilm_new cfg mk (live_place st) with
     | (p, IErr) => lc_index cfg = true /\ pl_log p = PDir (Some df) (Some xf)
     | (p, IOk hd) => lc_index cfg = false /\ pl_log (handle_drop hd p) = PDir (Some df) (Some xf)
     | (_, IPanic) => False
     end) /\ snd (ilm_append c k (ilm_under st df xf) key v) = IPanic.
Proof.
  intros Hc Hk Hf E HW Hl Hp Hr.
  replace (h ++ IReopen :: appends W ++ [IAppend key v]) with ((h ++ IReopen :: appends W) ++ [IAppend key v]) in Hf by (rewrite <- app_assoc; reflexivity).
  split; [destruct (C24_append_succeeds c k _ st key v Hc Hk Hf E) as (st' & -> & _); reflexivity|].
  assert (Hf1 : ihistory_fits c k (h ++ IReopen :: appends W)) by (unfold ihistory_fits in *; rewrite map_app in Hf; eapply fits_prefix; eauto).
  destruct (ilm_state k _ st Hc Hk Hf1 E) as (B & L & df & xf & H & Hcg & Ed & Hfit). pose proof (so_db _ _ _ _ _ H) as Hd.
  destruct (db_files_ok _ _ _ _ _ Hd Ed) as (Hok & HB1 & HB2). destruct (db_new_ok df xf L Hok Hfit) as (d2 & En & Hd2 & Ed2).
  assert (Hend : log_end L = length B) by (destruct Hcg as [G1 G2]; rewrite G1, log_end_place, G2; reflexivity).
  rewrite Hend, HB2 in Hd2. pose proof (drop_files _ _ _ _ _ Hd2 Ed2) as Edrop.
  exists B, (ibytes L). split.
  - unfold ilm_new, live_place. rewrite Hp, Hr, Ed. cbn [pl_log pl_keys pl_taken fst snd negb]. unfold open_path. rewrite open_dir_existing, En.
    destruct (lc_index cfg).
    + split; [reflexivity|]. unfold log_dropped. cbn [pl_log]. rewrite Edrop. reflexivity.
    + split; [reflexivity|]. unfold handle_drop, log_dropped. cbn [mh_writable mh_map storage pl_log]. rewrite Edrop. reflexivity.
  - unfold ilm_append, ilm_under. cbn [key_to_seqno storage]. rewrite (so_idx _ _ _ _ _ H), (under_drop _ _ _ _ _ Hd Ed).
    pose proof (ilm_open_storage k _ st E) as Eo. rewrite map_app in Eo. cbn [map log_op] in Eo. rewrite map_map in Eo. cbn [log_op] in Eo.
    assert (EW : map (fun p : K * V => FAppend [enc_val c p.2]) W = map FAppend (map (fun p => [enc_val c p.2]) W)) by (rewrite map_map; reflexivity).
    rewrite EW in Eo.
    assert (Hcc : concat (concat (map (fun p : K * V => [enc_val c p.2]) W)) = concat (map (fun p => enc_val c p.2) W)).
    { clear. induction W as [|p W IH]; [reflexivity|]. simpl. rewrite IH. reflexivity. }
    assert (Hone : forall w, nonempty [enc_val c w]).
    { intro w. split; [discriminate|]. apply has_empty_false. constructor; [apply Hc|constructor]. }
    destruct (C22_append_past_end k (map (log_op c) h) (map (fun p => [enc_val c p.2]) W) [enc_val c v] (storage st) Hk) as [_ G]; auto.
    + unfold ihistory_fits in Hf. rewrite map_app, map_app in Hf. cbn [map log_op] in Hf. rewrite map_map in Hf. cbn [log_op] in Hf. rewrite EW in Hf.
      rewrite map_app. cbn [map]. rewrite <- app_assoc in Hf. exact Hf.
    + apply log_ops_early.
    + apply Forall_forall. intros x Hx. apply elem_of_list_fmap in Hx as (w & -> & _). apply Hone.
    + destruct W; [congruence|discriminate].
    + rewrite Hcc. simpl. rewrite app_nil_r. exact Hl.
    + destruct (db_append k no_faults no_faults (db_drop (storage st)) [enc_val c v]) as [d' r]. simpl in G. subst r. reflexivity.
Qed.
End C62.

(** ** Concrete cases *)
Definition some_config (index readonly : bool) : log_config := LogConfig (Some "map"%string) index readonly.
(** written, closed, written to again with a power failure in an append, then opened for reading only *)
Definition some_writes : list (iop (K := u64) (V := u64)) :=
  [IAppend (n64 1) (n64 10); IAppend (n64 2) (n64 70000); IReopen; IAppend (n64 1) (n64 300); ICrash (n64 9) (n64 8) (ICLog (CrashIndexWords 1)) 0; IAppend (n64 3) (n64 4)].
Example ex_opens_again : exists st, ihistory_fits cbor small_cfg some_writes /\ ilm_open cbor small_cfg some_writes = IOk st /\
  exists st', snd (ilm_new (some_config true true) true (closed_place st)) = IOk (Handle st' false) /\ obs (ilm_get cbor st' (n64 1)) = Some (Some 300%N) /\
  obs (ilm_last cbor st') = Some (Some 4%N).
Proof.
  eexists. split; [split; vm_compute; reflexivity|]. split; [vm_compute; reflexivity|]. eexists. split; [vm_compute; reflexivity|]. split; vm_compute; reflexivity.
Qed.

(** another process reads the log without the key index: it looks at the index file in the second append, at the data while the
    writer closes, and reads after a power failure *)
Definition writer : list (iop (K := u64) (V := u64)) :=
  [IAppend (n64 1) (n64 10); IAppend (n64 2) (n64 70000); IReopen; ICrash (n64 3) (n64 4) (ICLog (CrashIndexWords 1)) 0].
Example ex_reader : let hl := map (log_op cbor) writer in let m1 := Moment 1 (CrashIndexWords 2) in let m2 := Moment 2 CrashInDrop in let m3 := Moment 3 (CrashIndexWords 1) in
  ihistory_fits cbor small_cfg writer /\ occurs hl m1 /\ occurs hl m2 /\ occurs hl m3 /\ not_later hl m1 m2 /\ not_later hl m2 m3 /\
  map (@proj1_sig _ _) (map w_val (map_after (take (m_done m1) writer)) ++ kept_values writer m1) = [10%N; 70000%N] /\
  exists df1 xf1 df2 xf2 df3 xf3, files_at small_cfg hl m1 = Some (df1, xf1) /\ files_at small_cfg hl m2 = Some (df2, xf2) /\ files_at small_cfg hl m3 = Some (df3, xf3) /\
  exists st, snd (ilm_new (some_config false true) true (Place (PDir (Some df2) (Some xf1)) None true)) = IOk (Handle st false) /\
    obs (ilm_last cbor (ilm_under st df3 xf3)) = Some (Some 70000%N) /\ snd (handle_append cbor small_cfg (Handle st false) (n64 5) (n64 6)) = IErr.
Proof.
  cbv zeta. split; [split; vm_compute; reflexivity|].
  repeat (split; [first [split; [simpl; lia|]; simpl; try split; try discriminate; try exact I; vm_compute; lia|left; simpl; lia|vm_compute; reflexivity]|]).
  eexists _, _, _, _, _, _. repeat (split; [vm_compute; reflexivity|]). eexists. repeat (split; [vm_compute; reflexivity|]). vm_compute. reflexivity.
Qed.
(** a map that is open, with one value appended since; another open of it, in either way, and the next append *)
Theorem C62_second_open_refuted : exists st df xf,
  ilm_open cbor small_cfg [IAppend (n64 1) (n64 10); IReopen; IAppend (n64 2) (n64 20)] = IOk st /\
  snd (ilm_append cbor small_cfg st (n64 3) (n64 30)) = IOk tt /\
  (let (p, r) := ilm_new (some_config true false) true (live_place st) in r = IErr /\ pl_log p = PDir (Some df) (Some xf)) /\
  snd (ilm_append cbor small_cfg (ilm_under st df xf) (n64 3) (n64 30)) = IPanic.
Proof.
  assert (Hf : ihistory_fits cbor small_cfg ([IAppend (n64 1) (n64 10)] ++ IReopen :: map (fun p : u64 * u64 => IAppend p.1 p.2) [(n64 2, n64 20)] ++ [IAppend (n64 3) (n64 30)]))
    by (split; vm_compute; reflexivity).
  destruct (C24_opens cbor small_cfg [IAppend (n64 1) (n64 10); IReopen; IAppend (n64 2) (n64 20)] cbor_ok eq_refl) as (st & E & _).
  { split; vm_compute; reflexivity. }
  { intros key v p lost H. repeat (apply elem_of_cons in H as [H|H]; [discriminate|]). inversion H. }
  destruct (C62_second_cuts cbor small_cfg [IAppend (n64 1) (n64 10)] [(n64 2, n64 20)] st (n64 3) (n64 30) (some_config true false) "map"%string true
    cbor_ok eq_refl Hf E ltac:(discriminate) ltac:(vm_compute; lia) eq_refl eq_refl) as (Ha & df & xf & Hn & Hp).
  exists st, df, xf. split; [exact E|]. split; [exact Ha|]. split; [|exact Hp].
  destruct (ilm_new (some_config true false) true (live_place st)) as [p [hd| |]]; [destruct Hn; discriminate|split; [reflexivity|apply Hn]|contradiction].
Qed.

Definition all_ILogOpenProps := (@C62_memory, @C62_appends, @C62_makes, @C62_makes_nothing_read_only, @C62_opens_again, @C62_close_again, @C62_without_index, @C62_read_only, @C62_reader,
  @C62_second_refused, @C62_second_cuts, @C62_second_open_refuted).
Print Assumptions all_ILogOpenProps.
