(** Proofs about read-only handles of the log. *)
From Coq Require Import Lia ZArith.
From stdpp Require Import numbers list.
From Verif Require Import FraosModel FraosSpec FraosProofs FraosLogProofs FraosCrashProofs FraosHistProofs FraosRoModel FraosRoSpec.

(** ** what an opened handle looks like *)
Definition window (n : nat) (v : view) : Prop := match v with VFile o l => o + l <= n | VAnon _ => False end.
Record fresh (ap : appender) : Prop := {
  fr_active : g_active (ap_mmap ap) = None;
  fr_maps : Forall (window (ap_size ap)) (g_maps (ap_mmap ap));
  fr_file : is_Some (g_file (ap_mmap ap)) }.

Lemma appender_new_fresh f e ap : appender_new (Some f) e = Ok ap -> fresh ap.
Proof.
  unfold appender_new, gmm_new. destruct (match e with Some e0 => length f <? e0 | None => false end); [discriminate|].
  destruct (default (length f) e =? 0) eqn:E0.
  - intro G. injection G as <-. split; simpl; [reflexivity|constructor|eauto].
  - set (cap := default (length f) e) in *. assert (E1 : c_append (Chunk 0 []) cap = Ok (Chunk 0 [cap])).
    { unfold c_append. rewrite E0. destruct (cap <=? c_size (Chunk 0 [])) eqn:E1; [|reflexivity].
      apply Nat.leb_le in E1. apply Nat.eqb_neq in E0. unfold c_size in E1. simpl in E1. lia. }
    rewrite E1. assert (E2 : i_append [] (Chunk 0 [cap]) = Ok [Chunk 0 [cap]]) by (unfold i_append, c_size; simpl; rewrite E0; reflexivity).
    rewrite E2. intro G. injection G as <-. split; simpl; [reflexivity| |eauto].
    constructor; [|constructor]. simpl. unfold gmm_len, i_len, c_end, c_size. simpl. lia.
Qed.

Lemma idx_new_fresh f ap : idx_new (Some f) = Ok ap -> fresh ap.
Proof.
  unfold idx_new. destruct (appender_new (Some f) None) as [ap0| |] eqn:E; try discriminate. apply appender_new_fresh in E.
  destruct (idx_last ap0) as [[[o l]|]| |]; try discriminate.
  - destruct (l =? 0)%N; [|intro G; injection G as <-; exact E].
    destruct (idx_find_end ap0) as [n| |]; try discriminate. apply appender_new_fresh.
  - intro G. injection G as <-. exact E.
Qed.

Lemma db_new_index DF IF : db_new DF IF = match open_index IF with
  | Ok (idx, e) => match appender_new DF (Some e) with Ok data => Ok (Db data idx) | Err e => Err e | Panic => Panic end
  | Err e => Err e | Panic => Panic end.
Proof.
  unfold db_new, open_index. destruct (idx_new IF) as [idx| |]; [|reflexivity|reflexivity].
  destruct (idx_is_correct idx); [|reflexivity]. destruct (idx_last idx) as [l| |]; reflexivity.
Qed.

Lemma db_new_fresh df xf d : db_new (Some df) (Some xf) = Ok d -> fresh (d_data d) /\ fresh (d_idx d).
Proof.
  rewrite db_new_index. destruct (open_index (Some xf)) as [[idx e]| |] eqn:E; try discriminate.
  destruct (appender_new (Some df) (Some e)) as [data| |] eqn:Ed; try discriminate. intro G. injection G as <-. simpl.
  split; [eapply appender_new_fresh; eauto|]. unfold open_index in E. destruct (idx_new (Some xf)) as [i| |] eqn:Ei; try discriminate.
  destruct (idx_is_correct i); [|discriminate]. destruct (idx_last i); try discriminate. injection E as -> _. eapply idx_new_fresh; eauto.
Qed.

Lemma open_dir_existing w df xf : open_dir w (Some df) (Some xf) = (PDir (Some df) (Some xf), db_new (Some df) (Some xf)).
Proof.
  rewrite db_new_index. unfold open_dir. assert (E : forall f, open_file w (Some f) = Some f) by (intro; destruct w; reflexivity). rewrite !E.
  destruct (open_index (Some xf)) as [[idx e]| |]; reflexivity.
Qed.

(** ** the handle over other files *)
Lemma gmm_under_ok g B f B' : gmm_ok g B -> g_active g = None -> is_Some (g_file g) -> length B' = length B ->
  length B' <= length f -> take (length B') f = B' -> gmm_ok (gmm_under g f) B'.
Proof.
  intros [C M A F] Ha [f0 Hf] HB Hl Ht. split; simpl; [exact C| | |].
  - eapply Forall2_impl; [exact M|]. intros c v Hv. destruct v; simpl in *; [split; [eauto|tauto]|]. destruct Hv as [G _]. congruence.
  - rewrite Ha in *. simpl in *. lia.
  - intros f1 G. injection G as <-. auto.
Qed.

Lemma gbounds_under g f : gbounds (gmm_under g f) = gbounds g.
Proof. reflexivity. Qed.

(** reading does not see beyond the window *)
Lemma view_read_take n f v : window n v -> n <= length f -> view_read (Some (take n f)) v = view_read (Some f) v.
Proof.
  destruct v as [o l|]; simpl; [|tauto]. intros H Hn. rewrite take_length, Nat.min_l by lia.
  destruct (o + l <=? n) eqn:E; [|apply Nat.leb_gt in E; lia]. destruct (o + l <=? length f) eqn:E2; [|apply Nat.leb_gt in E2; lia].
  f_equal. rewrite skipn_firstn_comm, take_take, Nat.min_l by lia. reflexivity.
Qed.

Lemma window_slice n v a b : window n v -> window n (view_slice v a b).
Proof.
  destruct v as [o l|]; simpl; [|tauto]. intro H. unfold view_slice. simpl.
  destruct ((l =? 0) || (l <=? a) || (b =? 0)) eqn:E; simpl; [lia|]. rewrite !orb_false_iff, !Nat.eqb_neq, Nat.leb_gt in E.
  destruct (a <=? Nat.min (b - 1) (l - 1)) eqn:G; simpl; [apply Nat.leb_le in G|]; lia.
Qed.

Lemma get_ref_take ap f a : fresh ap -> ap_size ap <= length f ->
  get_ref (gmm_under (ap_mmap ap) (take (ap_size ap) f)) a = get_ref (gmm_under (ap_mmap ap) f) a.
Proof.
  intros [Ha Hm _] Hl. unfold get_ref. simpl. rewrite Ha. destruct (a <? i_len (g_index (ap_mmap ap))); [|reflexivity].
  destruct (i_find (g_index (ap_mmap ap)) a) as [[[[n off] len]|]| |]; try reflexivity.
  destruct (g_maps (ap_mmap ap) !! n) as [v|] eqn:Ev; [|reflexivity].
  rewrite view_read_take; [reflexivity| |exact Hl]. apply window_slice. rewrite Forall_forall in Hm. apply Hm. eapply elem_of_list_lookup_2; eauto.
Qed.

Lemma iter_next_ext d d' s : (forall s, idx_get (d_idx d) s = idx_get (d_idx d') s) -> d_data d = d_data d' -> iter_next d s = iter_next d' s.
Proof. intros Hi Hd. unfold iter_next. rewrite Hi, Hd. reflexivity. Qed.

Lemma reads_as_ext d d' R : (forall s, idx_get (d_idx d) s = idx_get (d_idx d') s) -> ap_size (d_idx d) = ap_size (d_idx d') -> d_data d = d_data d' ->
  reads_as d R -> reads_as d' R.
Proof.
  intros Hi Hs Hd (H1 & H2 & H3 & H4 & H5).
  assert (Hlen : db_len d' = db_len d) by (unfold db_len, idx_len; rewrite Hs; reflexivity).
  assert (Hget : forall s, db_get d' s = db_get d s) by (intro s; unfold db_get; rewrite Hi, Hd; reflexivity).
  split; [congruence|]. split; [unfold db_is_empty in *; congruence|]. split; [intros s G; rewrite Hget; auto|].
  split; [unfold db_last, db_is_empty in *; rewrite Hlen, Hget; exact H4|].
  assert (Hit : forall n s, iter_collect n d' s = iter_collect n d s).
  { induction n as [|n IH]; intro s; simpl; [reflexivity|]. rewrite (iter_next_ext d d' s Hi Hd).
    destruct (iter_next d' s) as [[[r|]| |] s']; rewrite ?IH; reflexivity. }
  intros s n G. rewrite Hit. auto.
Qed.

Lemma log_end_le df L : Forall (in_data df) L -> log_end L <= length df.
Proof.
  intro H. unfold log_end. destruct (last L) as [q|] eqn:E; [|lia]. apply last_Some_elem_of in E. rewrite Forall_forall in H. destruct (H _ E) as (_ & G & _). exact G.
Qed.

Lemma ordered_end o L p : ordered_from o L -> p ∈ L -> p_end p <= log_end L.
Proof.
  revert o p. induction L as [|q L IH]; intros o p H Hp; [inversion Hp|]. destruct H as [_ H].
  unfold log_end. destruct L as [|q2 L].
  - simpl. apply elem_of_list_singleton in Hp as ->. reflexivity.
  - assert (E : last (q :: q2 :: L) = last (q2 :: L)) by reflexivity. rewrite E. fold (log_end (q2 :: L)).
    apply elem_of_cons in Hp as [->|Hp]; [|eapply IH; eauto]. assert (G := IH _ q2 H ltac:(left)). destruct H as [H _]. unfold p_end in *. lia.
Qed.

Lemma ibytes_prefix L1 L2 xf : L1 `prefix_of` L2 -> take (16 * length L2) xf = ibytes L2 -> 16 * length L2 <= length xf ->
  take (16 * length L1) xf = ibytes L1 /\ 16 * length L1 <= length xf.
Proof.
  intros [L ->] E Hl. rewrite app_length in *. split; [|lia].
  assert (G : take (16 * length L1) (take (16 * (length L1 + length L)) xf) = take (16 * length L1) (ibytes (L1 ++ L))) by congruence.
  rewrite take_take, Nat.min_l in G by lia. rewrite G, ibytes_app. rewrite <- (ibytes_length L1). apply take_app.
Qed.

(** a handle opened on the index of L1 and on data that have its records, over files with more *)
Lemma reader_ok df1 xf1 df2 L1 L2 L3 xf2 df3 xf3 :
  files_ok df1 xf1 L1 -> files_ok df2 xf2 L2 -> files_ok df3 xf3 L3 -> files_fit df2 xf1 -> L1 `prefix_of` L2 -> L2 `prefix_of` L3 ->
  files_fit df3 xf3 ->
  exists r, db_new (Some df2) (Some xf1) = Ok r /\ reads_as r (map snd L1) /\ reads_as (db_under r df3 xf3) (map snd L1).
Proof.
  intros [I1 I2 I3 I4 I5] F2 F3 Hfit P12 P23 Hfit3.
  assert (P13 : L1 `prefix_of` L3) by (etrans; eauto).
  assert (In2 : Forall (in_data df2) L1) by (destruct P12 as [L ->]; apply (Forall_app _ L1 L), (fo_in _ _ _ F2)).
  assert (In3 : Forall (in_data df3) L1) by (destruct P13 as [L ->]; apply (Forall_app _ L1 L), (fo_in _ _ _ F3)).
  destruct (db_new_ok df2 xf1 L1) as (r & E & Hok & Hfr); [split; auto|exact Hfit|].
  exists r. split; [exact E|]. split; [eapply reads_ok; exact Hok|].
  destruct (db_new_fresh _ _ _ E) as [Fd Fi].
  destruct (ibytes_prefix L1 L3 xf3 P13 (fo_idx _ _ _ F3) (fo_ilen _ _ _ F3)) as [X1 X2].
  assert (Hsi : ap_size (d_idx r) = 16 * length L1) by apply (do_isize _ _ _ Hok).
  assert (Hd2 := log_end_le _ _ In2). assert (Hd3 := log_end_le _ _ In3).
  assert (Hsd : ap_size (d_data r) = log_end L1) by (rewrite (do_dsize _ _ _ Hok), take_length; lia).
  set (xt := take (16 * length L1) xf3).
  apply (reads_as_ext (db_under r df3 xt)).
  - intro s. unfold idx_get. simpl. unfold xt. rewrite <- Hsi. rewrite (get_ref_take (d_idx r) xf3) by (rewrite ?Hsi; auto). reflexivity.
  - reflexivity.
  - reflexivity.
  - apply (reads_ok _ (take (log_end L1) df3)). split; simpl.
    + eapply gmm_under_ok; [apply (do_data _ _ _ Hok)|apply (fr_active _ Fd)|apply (fr_file _ Fd)|..].
      * rewrite !take_length. lia.
      * rewrite take_length. lia.
      * rewrite take_length. f_equal. lia.
    + rewrite Hsd, take_length. lia.
    + eapply gmm_under_ok; [apply (do_idx _ _ _ Hok)|apply (fr_active _ Fi)|apply (fr_file _ Fi)|..].
      * reflexivity.
      * unfold xt. rewrite ibytes_length, take_length. lia.
      * unfold xt. rewrite ibytes_length, take_take, Nat.min_id. exact X1.
    + exact Hsi.
    + intros x. apply (do_align _ _ _ Hok).
    + rewrite Forall_forall in *. intros p Hp. apply in_data_take; [auto|]. eapply ordered_end; eauto.
    + exact I5.
    + intros x p. apply (do_bounds _ _ _ Hok).
    + destruct Hfit3 as [G1 G2]. split; [rewrite take_length; lia|]. lia.
    + intros f G. injection G as <-. unfold xt. split; [rewrite take_length, Nat.min_l by lia; rewrite Nat.mul_comm; apply Nat.mod_mul; lia|].
      intros j Hj G. rewrite take_length in G. lia.
Qed.

(** ** moments of a history *)
Lemma prefix_take_l {A} n (l : list A) : take n l `prefix_of` l.
Proof. exists (drop n l). symmetry. apply take_drop. Qed.

Definition at_op (k : cfg) (h : list fop) (i : nat) (d : db) (B : list byte) (L : list placed) : Prop :=
  files_open k (take i h) = Ok d /\ db_ok d B L /\ sized k d (length (concat (batches h))) (length (batches h)) /\
  length B + length (concat (batches (drop i h))) <= length (concat (batches h)) /\
  length L + length (batches (drop i h)) <= length (batches h).

Lemma early_sub h h' : (forall o, o ∈ h' -> o ∈ h) -> history_faults_early h -> history_faults_early h'.
Proof. intros Hs He fd fi recs Hi. apply (He fd fi recs). auto. Qed.

Lemma at_op_open k h i : entry_aligned k -> history_fits k h -> history_faults_early h -> exists d B L, at_op k h i d B L.
Proof.
  intros Hk Hf He. destruct (files_open_ok k (take i h) (drop i h) Hk) as (d & B & L & E & H & S & HB & HL & _).
  - rewrite take_drop. exact Hf.
  - eapply early_sub; [|exact He]. intros o Ho. apply elem_of_take in Ho as (j & Hj & _). eapply elem_of_list_lookup_2; eauto.
  - rewrite take_drop in *. exists d, B, L. split; auto.
Qed.

(** the records that the index has at a moment *)
Definition at_moment (h : list fop) (m : moment) (B : list byte) (L : list placed) : list placed := L ++ place (length B) (kept_at h m).

Lemma batch_drop h m : exists rest, batches (drop (m_done m) h) = batch_at h m ++ rest.
Proof.
  unfold batch_at. destruct (h !! m_done m) as [o|] eqn:E; [|eexists; reflexivity].
  rewrite (drop_S h o _ E). unfold batches. simpl. eexists. reflexivity.
Qed.

Lemma files_at_ok k h m d B L : entry_aligned k -> history_fits k h -> at_op k h (m_done m) d B L ->
  exists df xf, files_at k h m = Some (df, xf) /\ files_ok df xf (at_moment h m B L) /\ files_fit df xf.
Proof.
  intros Hk [F1 F2] (E & H & S & HB & HL). destruct (batch_drop h m) as [rest Hr]. rewrite Hr in HB, HL. rewrite concat_app, !app_length in *.
  destruct (crash_ok k d B L (batch_at h m) (m_point m) _ _ Hk H S) as (df & xf & n & Ec & Hfo & S1 & S2 & Hm); [lia|lia|].
  exists df, xf. unfold files_at. rewrite E, Ec. split; [reflexivity|]. unfold at_moment, kept_at. rewrite <- Hm, place_take. split; [exact Hfo|].
  fold (batches h) in F1, F2. split; lia.
Qed.

Lemma at_op_step k h i o d B L : entry_aligned k -> history_fits k h -> history_faults_early h -> at_op k h i d B L -> h !! i = Some o ->
  exists d' B' L', at_op k h (S i) d' B' L' /\ placed_step (length B) L o L'.
Proof.
  intros Hk [F1 F2] He (E & H & S & HB & HL) Ho. assert (Hd := drop_S h o _ Ho). rewrite Hd in HB, HL. unfold batches in HB at 1, HL at 1. cbn [map concat] in HB, HL.
  rewrite concat_app, !app_length in *. fold (batches (drop (Datatypes.S i) h)) in HB, HL.
  destruct (files_op_ok k d B L o _ _ Hk H S F1 F2) as (d' & B' & L' & Eo & H' & S' & HB' & HL' & _ & _ & Hp); [lia|lia| |].
  { intros fd fi recs ->. apply (He fd fi recs). eapply elem_of_list_lookup_2; eauto. }
  exists d', B', L'. split; [|exact Hp]. split; [|split; [exact H'|split; [exact S'|lia]]].
  rewrite (take_S_r h i o Ho). unfold files_open in *. destruct (db_new (Some []) (Some [])) as [d0| |]; try discriminate.
  rewrite files_run_app, E. cbn [files_run]. rewrite Eo. reflexivity.
Qed.

Lemma at_op_steps k h i j d B L : entry_aligned k -> history_fits k h -> history_faults_early h -> at_op k h i d B L -> i <= j -> j <= length h ->
  exists d' B' L', at_op k h j d' B' L' /\ L `prefix_of` L'.
Proof.
  intros Hk Hf He H Hij Hj. remember (j - i) as n eqn:En. revert i d B L H Hij En. induction n as [|n IH]; intros i d B L H Hij En.
  - replace j with i by lia. eauto 10.
  - destruct (lookup_lt_is_Some_2 h i ltac:(lia)) as [o Ho].
    destruct (at_op_step k h i o d B L Hk Hf He H Ho) as (d1 & B1 & L1 & H1 & [P1 _]).
    destruct (IH (S i) d1 B1 L1 H1 ltac:(lia) ltac:(lia)) as (d2 & B2 & L2 & H2 & P2). exists d2, B2, L2. split; [exact H2|]. etrans; eauto.
Qed.

(** what the index has at a moment, it has later *)
Lemma moment_later k h m m' d B L : entry_aligned k -> history_fits k h -> history_faults_early h -> at_op k h (m_done m) d B L ->
  occurs h m -> occurs h m' -> not_later h m m' ->
  exists d' B' L', at_op k h (m_done m') d' B' L' /\ at_moment h m B L `prefix_of` at_moment h m' B' L'.
Proof.
  intros Hk Hf He H [Om Om2] [Om' _] [Hlt|[Heq Hle]].
  - destruct (lookup_lt_is_Some_2 h (m_done m) ltac:(lia)) as [o Ho]. rewrite Ho in Om2.
    destruct (at_op_step k h _ o d B L Hk Hf He H Ho) as (d1 & B1 & L1 & H1 & P1 & Hp).
    destruct (at_op_steps k h (S (m_done m)) (m_done m') d1 B1 L1 Hk Hf He H1 ltac:(lia) Om') as (d2 & B2 & L2 & H2 & P2).
    exists d2, B2, L2. split; [exact H2|]. unfold at_moment at 2. apply prefix_app_r. etrans; [|exact P2].
    unfold at_moment, kept_at, batch_at. rewrite Ho. destruct o as [recs|fd fi recs| |recs q]; simpl in *.
    + destruct (has_empty recs) eqn:Ee; [|rewrite (Hp eq_refl), place_take; apply prefix_app, prefix_take_l].
      unfold crash_kept. rewrite Ee, take_0. simpl. rewrite app_nil_r. exact P1.
    + destruct Om2 as [_ Om2]. rewrite Om2, take_0. simpl. rewrite app_nil_r. exact P1.
    + rewrite take_nil. simpl. rewrite app_nil_r. exact P1.
    + rewrite Hp, !place_take. apply prefix_app. destruct Om2 as [_ Om2].
      replace (take (crash_kept recs (m_point m)) (place (length B) recs)) with (take (crash_kept recs (m_point m)) (take (crash_kept recs q) (place (length B) recs)))
        by (rewrite take_take, Nat.min_l by lia; reflexivity). apply prefix_take_l.
  - rewrite Heq in H. exists d, B, L. split; [exact H|]. unfold at_moment. apply prefix_app. unfold kept_at, batch_at in *. rewrite Heq in *.
    set (recs := match h !! m_done m' with Some o => op_batch o | None => [] end) in *. rewrite !place_take. rewrite !take_length in Hle.
    set (a := crash_kept recs (m_point m)) in *. set (b := crash_kept recs (m_point m')) in *.
    destruct (Nat.le_gt_cases a b) as [G|G].
    + replace (take a (place (length B) recs)) with (take a (take b (place (length B) recs))) by (rewrite take_take, Nat.min_l by lia; reflexivity). apply prefix_take_l.
    + assert (length recs <= b) by lia. rewrite !take_ge by (rewrite place_length; lia). reflexivity.
Qed.

(** ** the search while the index grows *)
Lemma find_loop_const fuel len_at len : forall s e r, find_loop_at fuel (fun _ => len_at) len s e r = find_loop fuel len_at len s e r.
Proof.
  induction fuel as [|fuel IH]; intros s e r; [reflexivity|]. cbn [find_loop find_loop_at]. destruct (s <? len - 1); [|reflexivity].
  destruct (len_at (s + 1)) as [l1| |]; [|reflexivity|reflexivity]. destruct (l1 =? 0)%N; [reflexivity|].
  destruct (len_at ((s + e) / 2)) as [l| |]; [|reflexivity|reflexivity]. destruct (l =? 0)%N; apply IH.
Qed.

Lemma find_end_const fuel len_at len : find_actual_end_at fuel (fun _ => len_at) len = find_actual_end fuel len_at len.
Proof.
  unfold find_actual_end_at, find_actual_end. destruct (len_at 0) as [l0| |]; [|reflexivity|reflexivity].
  destruct ((l0 =? 0)%N || (len =? 0)); [reflexivity|]. destruct (len_at (len - 1)) as [l| |]; [|reflexivity|reflexivity].
  destruct (negb (l =? 0)%N); [reflexivity|]. apply find_loop_const.
Qed.

Lemma used_mono used t t' : (forall t, used t <= used (S t)) -> t <= t' -> used t <= used t'.
Proof. intros H Ht. induction Ht as [|t' Ht IH]; [lia|]. etrans; [exact IH|apply H]. Qed.

Lemma find_loop_growing len_at len used : growing len_at len used -> 0 < len -> forall fuel s e r n t,
  s < used (r - 1) -> 1 <= r -> e <= len -> s < e -> find_loop_at fuel len_at len s e r = Some (Ok n, t) ->
  exists t0, t0 < t /\ n = used t0.
Proof.
  intros (Hm & Hu & Hg) Hlen. induction fuel as [|fuel IH]; intros s e r n t Hs Hr He Hse E; [discriminate|]. cbn [find_loop_at] in E.
  destruct (s <? len - 1) eqn:El; [|discriminate]. apply Nat.ltb_lt in El.
  destruct (Hg r (s + 1) ltac:(lia)) as (l1 & E1 & G1). rewrite E1 in E.
  destruct (l1 =? 0)%N eqn:Z1.
  - apply N.eqb_eq in Z1. injection E as <- <-. exists r. split; [lia|].
    assert (used (r - 1) <= used r) by (apply used_mono; auto; lia). assert (~ s + 1 < used r) by tauto. lia.
  - assert (Hmid : (s + e) / 2 < len) by (apply Nat.div_lt_upper_bound; lia).
    destruct (Hg (r + 1) ((s + e) / 2) Hmid) as (l & E2 & G2). rewrite E2 in E.
    assert (Hsm : s <= (s + e) / 2) by (apply Nat.div_le_lower_bound; lia).
    assert (Hme : (s + e) / 2 < e) by (apply Nat.div_lt_upper_bound; lia).
    assert (Hru : s < used (r + 2 - 1)) by (assert (used (r - 1) <= used (r + 2 - 1)) by (apply used_mono; auto; lia); lia).
    destruct (l =? 0)%N eqn:Z2.
    + apply N.eqb_eq in Z2. assert (Hn : ~ (s + e) / 2 < used (r + 1)) by tauto. replace (r + 2 - 1) with (r + 1) in Hru by lia.
      eapply (IH s ((s + e) / 2) (r + 2)); try lia; [|exact E]. replace (r + 2 - 1) with (r + 1) by lia. exact Hru.
    + apply N.eqb_neq in Z2. eapply (IH ((s + e) / 2) e (r + 2)); try lia; [|exact E]. replace (r + 2 - 1) with (r + 1) by lia. tauto.
Qed.

Lemma find_end_growing len_at len used fuel n t : growing len_at len used -> 0 < len ->
  find_actual_end_at fuel len_at len = Some (Ok n, t) -> exists t0, t0 < t /\ n = used t0.
Proof.
  intros H Hlen E. assert (H' := H). destruct H' as (Hm & Hu & Hg). unfold find_actual_end_at in E.
  destruct (Hg 0 0 Hlen) as (l0 & E0 & G0). rewrite E0 in E.
  destruct ((l0 =? 0)%N || (len =? 0)) eqn:Z0.
  - apply orb_true_iff in Z0 as [Z0|Z0]; [|apply Nat.eqb_eq in Z0; lia]. apply N.eqb_eq in Z0. injection E as <- <-. exists 0. split; [lia|].
    assert (~ 0 < used 0) by tauto. lia.
  - apply orb_false_iff in Z0 as [Z0 _]. apply N.eqb_neq in Z0. destruct (Hg 1 (len - 1) ltac:(lia)) as (l & E1 & G1). rewrite E1 in E.
    destruct (l =? 0)%N eqn:Z1; simpl in E.
    + eapply (find_loop_growing _ _ _ H Hlen _ 0 len 2); [|lia|lia|lia|exact E].
      assert (used 0 <= used (2 - 1)) by (apply used_mono; auto; lia). assert (0 < used 0) by tauto. lia.
    + apply N.eqb_neq in Z1. injection E as <- <-. exists 1. split; [lia|]. assert (len - 1 < used 1) by tauto. specialize (Hu 1). lia.
Qed.
