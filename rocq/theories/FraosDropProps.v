(** C22, all histories: appending through one handle of a log after another handle of it was dropped. *)
From Coq Require Import Lia ZArith.
From stdpp Require Import numbers list.
From Verif Require Import FraosModel FraosSpec FraosProofs FraosLogProofs FraosCrashProofs FraosHistProofs FraosProps FraosRoModel FraosRoSpec FraosRoProofs.

(** ** the mapping appended to *)
(** a mapping of the smallest size, [n] bytes of it used *)
Definition window_used (k : cfg) (g : gmm) (n : nat) : Prop :=
  is_Some (g_file g) /\ exists off c, g_active g = Some (Active (min_mmap k) (AFile off (min_mmap k)) c) /\ c_size c = n.

Lemma rearrange_active k fl g g' r : rearrange k fl g = (g', r) -> g_active g' = g_active g /\ g_file g' = g_file g.
Proof.
  unfold rearrange. destruct (length (g_maps g) <=? max_mmaps k); [intros [= <- <-]; auto|].
  destruct (g_file g) as [f|] eqn:Ef; [|intros [= <- <-]; auto]. destruct (f_remap fl); [intros [= <- <-]; auto|].
  destruct (c_append (Chunk 0 []) (i_len (g_index g))) as [c|e|]; [|intros [= <- <-]; auto..].
  destruct (i_append [] c); intros [= <- <-]; auto.
Qed.
Lemma c_append_size c e c' : c_append c e = Ok c' -> c_size c' = e.
Proof. unfold c_append. destruct (e =? 0); [discriminate|]. destruct (e <=? c_size c); [discriminate|]. intros [= <-]. apply c_size_snoc. Qed.

Lemma window_first k g ext f g' : is_Some (g_file g) -> g_active g = None -> ext < min_mmap k ->
  grow_and_apply k no_faults g ext f = (g', Ok tt) -> window_used k g' ext.
Proof.
  intros [F HF] Ha He. unfold grow_and_apply. destruct (ext =? 0); [discriminate|]. unfold grow_prepare. rewrite Ha.
  unfold new_mmap_size, create_mmap. rewrite HF. cbn [f_extend f_map no_faults].
  replace (Nat.max ext (min_mmap k)) with (min_mmap k) by lia.
  destruct (c_append (Chunk (i_len (g_index g)) []) ext) as [c| |] eqn:Ec; [|discriminate..]. cbn [g_active active_size a_map].
  destruct (min_mmap k <? 0); [discriminate|]. destruct (f (min_mmap k - 0)) as [w e]. unfold active_write. cbn [a_map g_file].
  destruct (_ <=? _); [|discriminate]. destruct e; [discriminate|]. cbn [f_flush no_faults]. intro Er.
  apply rearrange_active in Er as [E1 E2]. split; [rewrite E2; simpl; eauto|]. exists (i_len (g_index g)), c. rewrite E1. split; [reflexivity|].
  exact (c_append_size _ _ _ Ec).
Qed.
Lemma window_next k g n ext f g' : window_used k g n -> n + ext < min_mmap k ->
  grow_and_apply k no_faults g ext f = (g', Ok tt) -> window_used k g' (n + ext).
Proof.
  intros ([F HF] & off & c & Ha & Hc) He. unfold grow_and_apply. destruct (ext =? 0); [discriminate|]. unfold grow_prepare. rewrite Ha.
  cbn [a_bounds a_len a_map]. rewrite Hc, (proj2 (Nat.ltb_lt _ _) He).
  destruct (c_append c (n + ext)) as [c'| |] eqn:Ec; [|discriminate..]. cbn [g_active active_size a_map].
  destruct (min_mmap k <? n); [discriminate|]. destruct (f (min_mmap k - n)) as [w e]. unfold active_write. cbn [a_map g_file]. rewrite HF.
  destruct (_ <=? _); [|discriminate]. destruct e; [discriminate|]. cbn [f_flush no_faults]. intro Er.
  apply rearrange_active in Er as [E1 E2]. split; [rewrite E2; simpl; eauto|]. exists off, c'. rewrite E1. split; [reflexivity|].
  exact (c_append_size _ _ _ Ec).
Qed.
(** over a file that ends where the used bytes end, the next write is past its end *)
Lemma window_past_end k g B n ext f : gmm_ok g B -> window_used k g n -> n + ext < min_mmap k -> 0 < ext ->
  (forall m, 0 < m -> 0 < length (fst (f m))) -> snd (grow_and_apply k no_faults (shrink g) ext f) = Panic.
Proof.
  intros Hok ([F HF] & off & c & Ha & Hc) He Hx Hf. pose proof (shrink_file g B Hok) as Hs. rewrite HF in Hs.
  assert (Hsa : g_active (shrink g) = g_active g) by (unfold shrink; rewrite HF; reflexivity).
  unfold grow_and_apply. destruct (ext =? 0) eqn:E0; [apply Nat.eqb_eq in E0; lia|]. unfold grow_prepare. rewrite Hsa, Ha.
  cbn [a_bounds a_len a_map]. rewrite Hc, (proj2 (Nat.ltb_lt _ _) He).
  pose proof (ok_active _ _ Hok) as Hact. rewrite Ha in Hact. destruct Hact as (A1 & A2 & A3 & A4 & A5 & A6 & _). cbn [a_bounds a_len] in *. rewrite Hc in *.
  rewrite (proj1 (c_append_ok c (n + ext) A2 ltac:(lia))). cbn [g_active active_size a_map].
  destruct (min_mmap k <? n) eqn:En; [apply Nat.ltb_lt in En; lia|]. destruct (f (min_mmap k - n)) as [w e] eqn:Ef.
  assert (Hw : 0 < length w) by (specialize (Hf (min_mmap k - n) ltac:(lia)); rewrite Ef in Hf; exact Hf).
  unfold active_write. cbn [a_map g_file]. rewrite Hs.
  destruct (off + n + length w <=? length B) eqn:El; [apply Nat.leb_le in El; lia|]. reflexivity.
Qed.

(** ** the data file of a log *)
Definition nonempty (recs : list (list N)) : Prop := recs <> [] /\ has_empty recs = false.
Lemma nonempty_concat recs : nonempty recs -> 0 < length (concat recs).
Proof.
  intros [H1 H2]. apply has_empty_false in H2. pose proof (concat_nonempty recs H1 H2). destruct (concat recs); [congruence|simpl; lia].
Qed.
Definition data_writes (recs : list (list N)) (slice : nat) : list N * option err :=
  (take slice (concat recs), if slice <? length (concat recs) then Some IoError else None).
Lemma append_data k d recs : nonempty recs ->
  let r := grow_and_apply k no_faults (ap_mmap (d_data d)) (length (concat recs)) (data_writes recs) in
  match snd r with
  | Ok _ => ap_mmap (d_data (fst (db_append k no_faults no_faults d recs))) = fst r
  | _ => snd (db_append k no_faults no_faults d recs) = match snd r with Err e => Err e | _ => Panic end
  end.
Proof.
  intros Hn r. pose proof (nonempty_concat recs Hn) as Hc. destruct Hn as [H1 H2]. apply has_empty_false in H2.
  unfold db_append, flat_append. destruct recs as [|r0 recs']; [congruence|]. set (recs := r0 :: recs') in *.
  destruct (existsb (fun x => length x =? 0) recs) eqn:Ee; [apply existsb_empty in H2; congruence|].
  unfold appender_append. destruct (length (concat recs) =? 0) eqn:E0; [apply Nat.eqb_eq in E0; lia|].
  cbv zeta. match goal with |- context [grow_and_apply k no_faults (ap_mmap (d_data d)) ?n ?f] => change (grow_and_apply k no_faults (ap_mmap (d_data d)) n f) with r end.
  clearbody r. destruct r as [g [u|e|]]; cbn [fst snd]; [|reflexivity..].
  destruct (idx_append k no_faults (d_idx d) (locations (ap_size (d_data d)) recs)) as [i [x|e|]]; reflexivity.
Qed.
Lemma append_window_first k d recs d' x : nonempty recs -> is_Some (g_file (ap_mmap (d_data d))) -> g_active (ap_mmap (d_data d)) = None ->
  length (concat recs) < min_mmap k -> db_append k no_faults no_faults d recs = (d', Ok x) -> window_used k (ap_mmap (d_data d')) (length (concat recs)).
Proof.
  intros Hn HF Ha Hl E. pose proof (append_data k d recs Hn) as H. rewrite E in H. cbn [fst snd] in H.
  destruct (grow_and_apply _ _ _ _ _) as [g [[]|e|]] eqn:Eg; cbn [fst snd] in H; [|discriminate..]. rewrite H.
  eapply window_first; eauto.
Qed.
Lemma append_window_next k d n recs d' x : nonempty recs -> window_used k (ap_mmap (d_data d)) n ->
  n + length (concat recs) < min_mmap k -> db_append k no_faults no_faults d recs = (d', Ok x) -> window_used k (ap_mmap (d_data d')) (n + length (concat recs)).
Proof.
  intros Hn HF Hl E. pose proof (append_data k d recs Hn) as H. rewrite E in H. cbn [fst snd] in H.
  destruct (grow_and_apply _ _ _ _ _) as [g [[]|e|]] eqn:Eg; cbn [fst snd] in H; [|discriminate..]. rewrite H.
  eapply window_next; eauto.
Qed.
Lemma append_past_end k d B n recs : gmm_ok (ap_mmap (d_data d)) B -> window_used k (ap_mmap (d_data d)) n -> nonempty recs ->
  n + length (concat recs) < min_mmap k -> snd (db_append k no_faults no_faults (db_drop d) recs) = Panic.
Proof.
  intros Hok Hw Hn Hl. pose proof (append_data k (db_drop d) recs Hn) as H. pose proof (nonempty_concat recs Hn).
  change (ap_mmap (d_data (db_drop d))) with (shrink (ap_mmap (d_data d))) in H.
  cbv zeta in H. rewrite (window_past_end k _ B n) in H; auto. intros m Hm. unfold data_writes. simpl. rewrite take_length. lia.
Qed.

(** ** appends since the log was opened *)
Lemma fits_prefix k h1 h2 : history_fits k (h1 ++ h2) -> history_fits k h1.
Proof. unfold history_fits. rewrite map_app, concat_app, concat_app, !app_length. lia. Qed.
Lemma early_prefix h1 h2 : history_faults_early (h1 ++ h2) -> history_faults_early h1.
Proof. intros H fd fi recs Hi. apply (H fd fi recs). apply elem_of_app. auto. Qed.
Lemma early_appends h bs : history_faults_early h -> history_faults_early (h ++ FReopen :: map FAppend bs).
Proof.
  intros H fd fi recs Hi. apply elem_of_app in Hi as [Hi|Hi]; [exact (H fd fi recs Hi)|].
  apply elem_of_cons in Hi as [Hi|Hi]; [discriminate|]. apply elem_of_list_fmap in Hi as (b & Hi & _). discriminate.
Qed.
Lemma files_open_app k h1 h2 d : files_open k h1 = Ok d -> files_open k (h1 ++ h2) = files_run k d h2.
Proof. unfold files_open. destruct (db_new (Some []) (Some [])); [|discriminate..]. rewrite files_run_app. intros ->. reflexivity. Qed.

(** a log that was just opened has nothing mapped for writing *)
Lemma just_opened k h : entry_aligned k -> history_fits k h -> history_faults_early h ->
  exists d, files_open k (h ++ [FReopen]) = Ok d /\ fresh (d_data d) /\ fresh (d_idx d).
Proof.
  intros Hk Hf He.
  assert (Hf' : history_fits k (h ++ [FReopen])).
  { unfold history_fits in *. rewrite map_app, concat_app. simpl. rewrite !app_nil_r. exact Hf. }
  destruct (files_open_ok k h [] Hk ltac:(rewrite app_nil_r; exact Hf) He) as (d0 & B & L & E0 & H0 & S0 & _).
  destruct (C12_opens k (h ++ [FReopen]) Hk Hf' (early_appends h [] He)) as (d & R & E & _). exists d. split; [exact E|].
  rewrite (files_open_app _ _ _ _ E0) in E. cbn [files_run files_op] in E.
  destruct S0 as (df & xf & Ed & _). rewrite (drop_files d0 B L df xf H0 Ed) in E.
  destruct (db_new (Some B) (Some (ibytes L))) as [d1| |] eqn:En; [|discriminate..]. injection E as ->. eapply db_new_fresh; eauto.
Qed.

Lemma appended_window k h bs : entry_aligned k -> history_fits k (h ++ FReopen :: map FAppend bs) -> history_faults_early h ->
  Forall nonempty bs -> bs <> [] -> length (concat (concat bs)) < min_mmap k ->
  exists d, files_open k (h ++ FReopen :: map FAppend bs) = Ok d /\ window_used k (ap_mmap (d_data d)) (length (concat (concat bs))).
Proof.
  intros Hk. induction bs as [|b bs IH] using rev_ind; intros Hf He Hn Hne Hl; [congruence|].
  apply Forall_app in Hn as [Hbs Hb]. inversion Hb as [|? ? Hb' _]; subst. destruct Hb' as [Hb1 Hb2].
  rewrite concat_app, concat_app, app_length in *. simpl in *. rewrite app_nil_r in *.
  rewrite map_app in *. simpl in *.
  replace (h ++ FReopen :: map FAppend bs ++ [FAppend b]) with ((h ++ FReopen :: map FAppend bs) ++ [FAppend b]) in * by (rewrite <- app_assoc; reflexivity).
  assert (Hf1 := fits_prefix _ _ _ Hf). assert (He1 : history_faults_early (h ++ FReopen :: map FAppend bs)) by (apply early_appends; exact He).
  destruct bs as [|b0 bs0].
  - destruct (just_opened k h Hk ltac:(exact (fits_prefix _ _ _ Hf1)) He) as (d & E & Fd & _). simpl in *.
    destruct (C12_append_succeeds k _ b d Hk Hf He1 E Hb1 Hb2) as (d' & Ea). exists d'. split.
    + rewrite (files_open_app _ _ _ _ E). simpl. rewrite Ea. reflexivity.
    + eapply append_window_first; eauto; [split; assumption|apply Fd|apply Fd].
  - destruct (IH Hf1 He Hbs ltac:(discriminate) ltac:(lia)) as (d & E & Hw).
    destruct (C12_append_succeeds k _ b d Hk Hf He1 E Hb1 Hb2) as (d' & Ea). exists d'. split.
    + rewrite (files_open_app _ _ _ _ E). simpl. rewrite Ea. reflexivity.
    + eapply append_window_next; eauto. split; assumption.
Qed.

(** ** C22 *)
(** After any history: the log is opened, and some batches are appended.  As long as everything appended since it was opened is
    less than one mapping, the next batch is appended too; but when another handle of the log was dropped before, it is written
    past the end of the file. *)
Theorem C22_append_past_end k h bs recs d : entry_aligned k -> history_fits k (h ++ FReopen :: map FAppend (bs ++ [recs])) ->
  history_faults_early h -> Forall nonempty bs -> nonempty recs -> bs <> [] ->
  length (concat (concat bs)) + length (concat recs) < min_mmap k ->
  files_open k (h ++ FReopen :: map FAppend bs) = Ok d ->
  snd (db_append k no_faults no_faults d recs) = Ok (Some (db_len d)) /\ snd (db_append k no_faults no_faults (db_drop d) recs) = Panic.
Proof.
  intros Hk Hf He Hbs Hr Hne Hl E. rewrite map_app in Hf. simpl in Hf.
  replace (h ++ FReopen :: map FAppend bs ++ [FAppend recs]) with ((h ++ FReopen :: map FAppend bs) ++ [FAppend recs]) in Hf by (rewrite <- app_assoc; reflexivity).
  assert (Hf1 := fits_prefix _ _ _ Hf). assert (He1 : history_faults_early (h ++ FReopen :: map FAppend bs)) by (apply early_appends; exact He).
  split.
  - destruct (C12_append_succeeds k _ recs d Hk Hf He1 E (proj1 Hr) (proj2 Hr)) as (d' & Ea). rewrite Ea. reflexivity.
  - destruct (appended_window k h bs Hk Hf1 He Hbs Hne ltac:(lia)) as (d0 & E0 & Hw). rewrite E in E0. injection E0 as <-.
    destruct (files_open_ok k _ [] Hk ltac:(rewrite app_nil_r; exact Hf1) He1) as (d1 & B & L & E1 & H1 & _). rewrite E in E1. injection E1 as <-.
    eapply append_past_end; eauto. apply (do_data _ _ _ H1).
Qed.

(** Before the first append since the log was opened, dropping another handle does no harm. *)
Lemma shrink_ok ap B : fresh ap -> gmm_ok (ap_mmap ap) B -> gmm_ok (shrink (ap_mmap ap)) B.
Proof.
  intros [Ha _ [f Hf]] Hok. pose proof (shrink_file _ _ Hok) as Hs. rewrite Hf in Hs.
  assert (Hg : shrink (ap_mmap ap) = gmm_under (ap_mmap ap) B).
  { unfold shrink in *. rewrite Hf in *. unfold gmm_under. simpl in Hs. injection Hs as Hs. rewrite Hs. reflexivity. }
  rewrite Hg. apply gmm_under_ok with (B := B); auto; try (rewrite Hf; eauto). apply firstn_all.
Qed.
Theorem C22_first_append k h recs d R : entry_aligned k -> history_fits k (h ++ [FReopen; FAppend recs]) -> history_faults_early h ->
  nonempty recs -> files_open k (h ++ [FReopen]) = Ok d -> reads_as d R ->
  exists d', db_append k no_faults no_faults (db_drop d) recs = (d', Ok (Some (length R))) /\ reads_as d' (R ++ recs).
Proof.
  intros Hk Hf He [Hr1 Hr2] E HR.
  replace (h ++ [FReopen; FAppend recs]) with ((h ++ [FReopen]) ++ [FAppend recs]) in Hf by (rewrite <- app_assoc; reflexivity).
  assert (Hf1 := fits_prefix _ _ _ Hf). assert (He1 : history_faults_early (h ++ [FReopen])) by (apply (early_appends h []); exact He).
  destruct (just_opened k h Hk (fits_prefix _ _ _ Hf1) He) as (d0 & E0 & Fd & Fi). rewrite E in E0. injection E0 as <-.
  destruct (files_open_ok k _ [FAppend recs] Hk Hf He1) as (d1 & B & L & E1 & H & _ & HB & HL & _). rewrite E in E1. injection E1 as <-.
  assert (H' : db_ok (db_drop d) B L).
  { destruct H as [A1 A2 A3 A4 A5 A6 A7 A8 A9 A10]. split; auto.
    - apply shrink_ok; assumption.
    - apply (shrink_ok _ _ Fi A3).
    - unfold aligned in *. simpl. intros x Hx. apply A5. unfold shrink in Hx. destruct (g_file (ap_mmap (d_idx d))); exact Hx.
    - simpl. intros x p Hx. apply A8. unfold shrink in Hx. destruct (g_file (ap_mmap (d_data d))); exact Hx.
    - intros f Ef. change (g_file (shrink (ap_mmap (d_idx d))) = Some f) in Ef. rewrite (shrink_file _ _ A3) in Ef.
      destruct (g_file (ap_mmap (d_idx d))) as [f0|]; [|discriminate]. injection Ef as <-. split.
      + rewrite ibytes_length. apply mod16_mul.
      + intros j Hj. rewrite ibytes_length. lia. }
  assert (HRL : R = map snd L).
  { assert (Hsm : (N.of_nat (length L) < 2 ^ 60)%N) by (destruct (do_fits _ _ _ H) as [_ G]; change (2 ^ 64)%N with (16 * 2 ^ 60)%N in G; lia).
    symmetry. apply (reads_length d); [eapply reads_ok; eauto|exact HR|rewrite map_length; exact Hsm]. }
  unfold batches in HB, HL. simpl in HB, HL. rewrite app_nil_r in HB, HL. destruct Hf as [F1 F2]. fold (batches ((h ++ [FReopen]) ++ [FAppend recs])) in *.
  assert (Hfit : fits (B ++ concat recs) (L ++ place (length B) recs)) by (split; rewrite app_length, ?place_length; unfold batches in *; lia).
  destruct (db_append k no_faults no_faults (db_drop d) recs) as [d' r] eqn:Ea. exists d'.
  destruct (db_append_ok k no_faults no_faults (db_drop d) B L recs d' r Hk H' ltac:(repeat split) ltac:(repeat split) Hfit Ea) as
      [(-> & _)|[(_ & G & _)|[(_ & _ & -> & Hok)|(_ & _ & _ & _ & Hnf)]]]; [congruence| | |tauto].
  - apply has_empty_false in Hr2. contradiction.
  - rewrite HRL, map_length. split; [reflexivity|]. pose proof (reads_ok _ _ _ Hok) as G. rewrite map_app, place_snd in G. exact G.
Qed.
(** Nor does it harm a log kept in memory, or the log that is opened afterwards. *)
Lemma grow_mem k g ext f : g_file g = None -> g_file (fst (grow_and_apply k no_faults g ext f)) = None.
Proof.
  intro HF. unfold grow_and_apply. destruct (ext =? 0); [exact HF|].
  assert (Hp : g_file (fst (grow_prepare k no_faults g ext)) = None).
  { unfold grow_prepare, create_mmap. rewrite HF. cbn [f_extend f_map f_protect no_faults].
    destruct (g_active g) as [a|]; [|destruct (c_append _ _); reflexivity].
    destruct (_ <? _); [destruct (c_append _ _); first [reflexivity|exact HF]|].
    destruct (c_append _ _); [|reflexivity..]. destruct (i_append _ _); reflexivity. }
  destruct (grow_prepare k no_faults g ext) as [g1 [start|e|]]; [|exact Hp..]. cbn [fst] in Hp.
  destruct (g_active g1) as [a|]; [|exact Hp]. destruct (_ <? _); [exact Hp|]. destruct (f _) as [w e].
  destruct (active_write (g_file g1) a start w) as [[F' a']|] eqn:Ew; [|exact Hp].
  assert (HF' : F' = None).
  { unfold active_write in Ew. rewrite Hp in Ew. destruct (a_map a); [discriminate|]. injection Ew as <- _. reflexivity. }
  destruct e; [exact HF'|]. cbn [f_flush no_faults]. destruct (rearrange k no_faults (Gmm F' (g_index g1) (g_maps g1) (Some a'))) as [g2 r] eqn:Er.
  apply rearrange_active in Er as [_ E2]. simpl in *. congruence.
Qed.
Definition in_memory (d : db) : Prop := g_file (ap_mmap (d_data d)) = None /\ g_file (ap_mmap (d_idx d)) = None.
Lemma append_mem k ap inc f : g_file (ap_mmap ap) = None -> g_file (ap_mmap (fst (appender_append k no_faults ap inc f))) = None.
Proof.
  intro H. unfold appender_append. destruct (inc =? 0); [exact H|]. pose proof (grow_mem k (ap_mmap ap) inc f H) as G.
  destruct (grow_and_apply _ _ _ _ _) as [g [u|e|]]; exact G.
Qed.
Lemma db_append_mem k d recs : in_memory d -> in_memory (fst (db_append k no_faults no_faults d recs)).
Proof.
  intros [H1 H2]. unfold db_append, flat_append. destruct recs as [|r0 recs]; [split; assumption|].
  destruct (existsb _ _); [split; assumption|]. cbv zeta.
  match goal with |- context [appender_append k no_faults (d_data d) ?i ?f] => pose proof (append_mem k (d_data d) i f H1) as G; destruct (appender_append k no_faults (d_data d) i f) as [data [u|e|]] end;
    [|split; assumption..]. cbn [fst] in G.
  assert (G2 : g_file (ap_mmap (fst (idx_append k no_faults (d_idx d) (locations (ap_size (d_data d)) (r0 :: recs))))) = None).
  { unfold idx_append. destruct (locations _ _) as [|l0 ls]; [exact H2|]. destruct (existsb _ _); [exact H2|]. cbv zeta.
    match goal with |- context [appender_append k no_faults (d_idx d) ?i ?f] => pose proof (append_mem k (d_idx d) i f H2) as G2; destruct (appender_append k no_faults (d_idx d) i f) as [idx [u'|e|]] end; exact G2. }
  destruct (idx_append _ _ _ _) as [idx r]. split; assumption.
Qed.
Theorem C22_memory k h d : mem_open k h = Ok d -> db_drop d = d.
Proof.
  intros E. enough (G : in_memory d).
  { destruct d as [[gd sd] [gi si]]. unfold in_memory, db_drop, appender_shrink, shrink in *. simpl in *. destruct G as [-> ->]. reflexivity. }
  unfold mem_open in E. destruct (db_new None None) as [d0| |] eqn:E0; [|discriminate..].
  assert (G0 : in_memory d0) by (vm_compute in E0; injection E0 as <-; split; reflexivity).
  clear E0. revert d0 G0 E. induction h as [|b h IH]; intros d0 G0 E; simpl in E; [injection E as <-; exact G0|].
  pose proof (db_append_mem k d0 b G0) as G1. destruct (db_append k no_faults no_faults d0 b) as [d1 [x|e|]]; [| |discriminate];
    (eapply IH; [exact G1|exact E]).
Qed.
Theorem C22_reopen d k : files_op k (db_drop d) FReopen = files_op k d FReopen.
Proof.
  assert (G : forall g, shrink (shrink g) = shrink g).
  { intro g. unfold shrink. destruct (g_file g) as [f|] eqn:Ef; [|rewrite Ef; reflexivity]. simpl. f_equal. f_equal.
    unfold set_len, gmm_len. simpl. apply resize_all_alt. rewrite resize_length. reflexivity. }
  unfold files_op, db_drop, appender_shrink. simpl. rewrite !G. reflexivity.
Qed.

(** the hypotheses are met: a log with a record, opened, and one batch appended *)
Lemma ex_early : history_faults_early [FAppend [[1%N; 2%N]]].
Proof. intros fd fi recs Hi. apply elem_of_list_singleton in Hi. discriminate. Qed.
Lemma ex_nonempty r : nonempty [r :: []] .
Proof. split; [discriminate|reflexivity]. Qed.
Example ex_past_end : exists d,
  files_open small_cfg ([FAppend [[1%N; 2%N]]] ++ FReopen :: map FAppend [[[3%N]]]) = Ok d /\
  reads_as d [[1%N; 2%N]; [3%N]] /\
  snd (db_append small_cfg no_faults no_faults d [[5%N]]) = Ok (Some 2) /\
  snd (db_append small_cfg no_faults no_faults (db_drop d) [[5%N]]) = Panic.
Proof.
  assert (Hf : history_fits small_cfg ([FAppend [[1%N; 2%N]]] ++ FReopen :: map FAppend ([[[3%N]]] ++ [[[5%N]]]))) by (split; reflexivity).
  assert (Hf1 : history_fits small_cfg ([FAppend [[1%N; 2%N]]] ++ FReopen :: map FAppend [[[3%N]]])) by (split; reflexivity).
  destruct (C12_opens small_cfg _ eq_refl Hf1 (early_appends [FAppend [[1%N; 2%N]]] [[[3%N]]] ex_early)) as (d & R & E & Hl & HR).
  apply log_after_plain in Hl; [|intros o Ho; repeat (apply elem_of_cons in Ho as [->|Ho]; [reflexivity|]); inversion Ho].
  change (R = [[1%N; 2%N]; [3%N]]) in Hl. subst R. exists d. split; [exact E|]. split; [exact HR|].
  assert (Hs : length (concat (concat [[[3%N]]])) + length (concat [[5%N]]) < min_mmap small_cfg) by (simpl; lia).
  destruct (C22_append_past_end small_cfg [FAppend [[1%N; 2%N]]] [[[3%N]]] [[5%N]] d eq_refl Hf ex_early
    (proj2 (Forall_singleton _ _) (ex_nonempty 3%N)) (ex_nonempty 5%N) ltac:(discriminate) Hs E) as [G1 G2].
  rewrite G1, G2. destruct HR as [-> _]. auto.
Qed.
Example ex_first_append : exists d d',
  files_open small_cfg ([FAppend [[1%N; 2%N]]] ++ [FReopen]) = Ok d /\
  db_append small_cfg no_faults no_faults (db_drop d) [[5%N]] = (d', Ok (Some 1)) /\ reads_as d' [[1%N; 2%N]; [5%N]].
Proof.
  assert (Hf : history_fits small_cfg ([FAppend [[1%N; 2%N]]] ++ [FReopen; FAppend [[5%N]]])) by (split; reflexivity).
  assert (Hf1 : history_fits small_cfg ([FAppend [[1%N; 2%N]]] ++ [FReopen])) by (split; reflexivity).
  destruct (C12_opens small_cfg _ eq_refl Hf1 (early_appends [FAppend [[1%N; 2%N]]] [] ex_early)) as (d & R & E & Hl & HR).
  apply log_after_plain in Hl; [|intros o Ho; repeat (apply elem_of_cons in Ho as [->|Ho]; [reflexivity|]); inversion Ho].
  change (R = [[1%N; 2%N]]) in Hl. subst R.
  destruct (C22_first_append small_cfg [FAppend [[1%N; 2%N]]] [[5%N]] d _ eq_refl Hf ex_early (ex_nonempty 5%N) E HR) as (d' & G1 & G2).
  exists d, d'. auto.
Qed.
Example ex_memory : exists d, mem_open small_cfg [[[1%N]]; [[2%N; 3%N]]] = Ok d /\ db_len d = 2 /\ db_drop d = d.
Proof. eexists. split; [vm_compute; reflexivity|]. split; [vm_compute; reflexivity|]. eapply C22_memory with (k := small_cfg) (h := [[[1%N]]; [[2%N; 3%N]]]). vm_compute. reflexivity. Qed.

Definition all_FraosDropProps := (@C22_append_past_end, @C22_first_append, @C22_memory, @C22_reopen).
Print Assumptions all_FraosDropProps.
