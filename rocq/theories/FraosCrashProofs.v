From Coq Require Import Lia ZArith.
From stdpp Require Import numbers list.
From Verif Require Import FraosModel FraosSpec FraosProofs FraosLogProofs.

(** ** the file at the points of a growth *)
Lemma grow_file_at_ok k g B w p f0 : gmm_ok g B -> w <> [] -> g_file g = Some f0 ->
  exists f1 n, (f1 = f0 \/ f1 = set_len f0 (length B + Nat.max (length w) (min_mmap k))) /\
    (0 < n -> length B + length w <= length f1) /\
    grow_file_at k g w p = Some (write_at f1 (length B) (take n w)) /\
    match p with GWritten m => n = m | _ => n = 0 end.
Proof.
  intros Hok Hw Hf. assert (Hpos : 0 < length w) by (destruct w; simpl; [congruence|lia]).
  assert (Hwa : forall f n, n = 0 -> write_at f (length B) (take n w) = f).
  { intros f n ->. unfold write_at. rewrite take_0. simpl. rewrite Nat.add_0_r. apply take_drop. }
  destruct p as [| |m]; cbn [grow_file_at].
  - exists f0, 0. rewrite Hwa by reflexivity. repeat split; auto; lia.
  - destruct (grow_prepare k no_faults g (length w)) as [g1 r1] eqn:Ep.
    destruct (grow_prepare_ok k no_faults g B (length w) g1 r1 Hok Hpos eq_refl Ep) as (Hg & _ & _). simpl fst.
    destruct Hg as [->|(f & Hf' & ->)].
    + exists f0, 0. rewrite Hwa by reflexivity. repeat split; auto; lia.
    + rewrite Hf in Hf'. injection Hf' as <-. eexists _, 0. rewrite Hwa by reflexivity. repeat split; [right; reflexivity|lia].
  - destruct (grow_prepare k no_faults g (length w)) as [g1 r1] eqn:Ep.
    destruct (grow_prepare_ok k no_faults g B (length w) g1 r1 Hok Hpos eq_refl Ep) as (Hg & Hcase & Hno).
    destruct (Hno eq_refl) as [start0 ->]. destruct Hcase as [(E & _)|(start & a & E & HP & _)]; [discriminate|]. injection E as ->.
    rewrite (pr_act _ _ _ _ _ HP).
    assert (Htl : length (take m w) <= length w) by (rewrite take_length; lia).
    destruct (active_write_ok g1 B start (length w) a (take m w) HP Hpos Htl) as (F' & a' & -> & -> & _ & _).
    destruct Hg as [Hg|(f & Hf' & Hg)].
    + rewrite Hg, Hf. exists f0, m. repeat split; auto. intros _. destruct HP as [P1 P2 P3 P4 P5 P6 P7 P8 P9 P10].
      rewrite Hg, Hf in *. destruct (a_map a); [|destruct P9; congruence]. destruct P9 as (_ & _ & f2 & E2 & Hl2). injection E2 as <-. lia.
    + rewrite Hf in Hf'. injection Hf' as <-. rewrite Hg. eexists _, m. repeat split; [right; reflexivity|]. intros _. rewrite set_len_length. lia.
Qed.

Lemma in_data_file B f p : in_data B p -> take (length B) f = B -> in_data f p.
Proof. intros H E. rewrite <- (take_drop (length B) f), E. apply in_data_app, H. Qed.

Lemma take_le_eq {A} (f B : list A) n : take (length B) f = B -> n <= length B -> take n f = take n B.
Proof. intros H Hn. rewrite <- H, take_take. f_equal. lia. Qed.

Lemma grown_prefix (f0 f1 B : list N) m : length B <= length f0 -> take (length B) f0 = B ->
  (f1 = f0 \/ f1 = set_len f0 (length B + m)) -> length B <= length f1 /\ take (length B) f1 = B.
Proof.
  intros H1 H2 [->| ->]; [auto|]. rewrite set_len_length. split; [lia|]. rewrite set_len_take by lia. exact H2.
Qed.

Lemma write_partial f1 B w n : length B <= length f1 -> (0 < n -> length B + length w <= length f1) -> take (length B) f1 = B ->
  length (write_at f1 (length B) (take n w)) = length f1 /\
  take (length B + length (take n w)) (write_at f1 (length B) (take n w)) = B ++ take n w.
Proof.
  intros H1 H2 H3. assert (length B + length (take n w) <= length f1).
  { destruct n; [simpl; lia|]. rewrite take_length. specialize (H2 ltac:(lia)). lia. }
  rewrite write_at_length by assumption. split; [reflexivity|]. rewrite write_at_take by assumption. rewrite H3. reflexivity.
Qed.

Lemma ibytes_take L m : take (16 * m) (ibytes L) = ibytes (take m L).
Proof.
  rewrite <- (take_drop m L) at 1. rewrite ibytes_app. destruct (decide (m <= length L)).
  - rewrite take_app_le by (rewrite ibytes_length, take_length; lia). apply take_ge. rewrite ibytes_length, take_length. lia.
  - rewrite (take_ge L), (drop_ge L) by lia. simpl. rewrite app_nil_r. apply take_ge. rewrite ibytes_length. lia.
Qed.

Lemma db_files_ok d B L df xf : db_ok d B L -> db_files d = (Some df, Some xf) ->
  files_ok df xf L /\ length B <= length df /\ take (length B) df = B.
Proof.
  intros H Hf. unfold db_files in Hf. injection Hf as Hd Hx.
  destruct (ok_file _ _ (do_data _ _ _ H) _ Hd) as [D1 D2]. destruct (ok_file _ _ (do_idx _ _ _ H) _ Hx) as [X1 X2].
  rewrite ibytes_length in *. split; [|auto]. split.
  - exact X2.
  - exact X1.
  - apply (do_tail _ _ _ H). exact Hx.
  - eapply Forall_impl; [apply (do_in _ _ _ H)|]. intros p Hp. eapply in_data_file; eauto.
  - apply (do_ord _ _ _ H).
Qed.

(** how large the files may be: T data bytes and n records in all *)
Definition sized (k : cfg) (d : db) (T n : nat) : Prop :=
  exists df xf, db_files d = (Some df, Some xf) /\ length df <= T + min_mmap k /\ length xf <= 16 * n + min_mmap k.

Lemma flat_append_file k d B L recs f0 : db_ok d B L -> recs <> [] -> Forall (fun r => r <> []) recs -> g_file (ap_mmap (d_data d)) = Some f0 ->
  exists f1, (f1 = f0 \/ f1 = set_len f0 (length B + Nat.max (length (concat recs)) (min_mmap k))) /\
    length B + length (concat recs) <= length f1 /\
    g_file (ap_mmap (fst (flat_append k no_faults (d_data d) recs))) = Some (write_at f1 (length B) (concat recs)).
Proof.
  intros H Hne Hall Hf. unfold flat_append. assert (Hcn := concat_nonempty recs Hne Hall).
  assert (Eex := Hall). apply existsb_empty in Eex. destruct recs as [|r0 recs']; [congruence|]. cbn iota. rewrite Eex.
  match goal with |- context [appender_append k no_faults (d_data d) _ ?f] => set (fnd := f) end.
  set (w := concat (r0 :: recs')) in *.
  assert (Hfnd : forall n, length w <= n -> fnd n = (w, None)).
  { intros n Hn. unfold fnd. rewrite take_ge by exact Hn. destruct (n <? length w) eqn:E; [apply Nat.ltb_lt in E; lia|reflexivity]. }
  destruct (appender_append k no_faults (d_data d) (length w) fnd) as [data' rd] eqn:Ed.
  destruct (appender_append_ok k no_faults (d_data d) B w fnd data' rd (ApOk _ _ (do_data _ _ _ H) (do_dsize _ _ _ H)) Hcn
    ltac:(repeat split) Hfnd Ed) as [(-> & Hdok & Hdb & Hdf)|(-> & Hdok & Hdb & Hdf & Hnf)]; [|congruence].
  rewrite Hf in Hdf. simpl. exact Hdf.
Qed.

(** ** crashing *)
Lemma crash_ok k d B L recs p T n : cfg_ok k -> db_ok d B L -> sized k d T n ->
  length B + length (concat recs) <= T -> length L + length recs <= n ->
  exists df xf m, crash_files k d recs p = (Some df, Some xf) /\ files_ok df xf (L ++ take m (place (length B) recs)) /\
    length df <= T + min_mmap k /\ length xf <= 16 * n + min_mmap k /\ take m recs = take (crash_kept recs p) recs.
Proof.
  intros Hk H (df & xf & Hf & Sd & Sx) HT Hn.
  destruct (db_files_ok _ _ _ _ _ H Hf) as (Hfo & D1 & D2). assert (Hf' := Hf). unfold db_files in Hf'. injection Hf' as Hd Hx.
  assert (Hsame : exists df' xf' m, (Some df, Some xf) = (Some df', Some xf') /\ files_ok df' xf' (L ++ take m (place (length B) recs)) /\
    length df' <= T + min_mmap k /\ length xf' <= 16 * n + min_mmap k /\ m = 0).
  { exists df, xf, 0. rewrite take_0, app_nil_r. auto. }
  assert (Hweak : forall F, (exists df' xf' m, F = (Some df', Some xf') /\ files_ok df' xf' (L ++ take m (place (length B) recs)) /\
    length df' <= T + min_mmap k /\ length xf' <= 16 * n + min_mmap k /\ m = 0) -> crash_kept recs p = 0 \/ recs = [] ->
    exists df' xf' m, F = (Some df', Some xf') /\ files_ok df' xf' (L ++ take m (place (length B) recs)) /\
    length df' <= T + min_mmap k /\ length xf' <= 16 * n + min_mmap k /\ take m recs = take (crash_kept recs p) recs).
  { intros F (df' & xf' & m & Q1 & Q2 & Q3 & Q4 & ->) Hk0. exists df', xf', 0. repeat split; auto; try apply Q2. destruct Hk0 as [->| ->]; [reflexivity|symmetry; apply take_nil]. }
  assert (Hdp : p = CrashInDrop \/ p <> CrashInDrop) by (destruct p; [right; discriminate..|left; reflexivity]).
  destruct Hdp as [->|Hp].
  { cbn [crash_files]. rewrite Hd, (shrink_file _ _ (do_idx _ _ _ H)), Hx. exists df, (ibytes L), 0. rewrite take_0, app_nil_r.
    split; [reflexivity|]. rewrite ibytes_length. destruct Hfo as [F1 F2 F3 F4 F5]. split; [|split; [exact Sd|split; [lia|unfold crash_kept; destruct (has_empty recs); reflexivity]]].
    split; auto.
    - apply take_ge. rewrite ibytes_length. lia.
    - rewrite ibytes_length. lia.
    - split; rewrite ibytes_length; [apply mod16_mul|lia]. }
  assert (Hunf : crash_files k d recs p = if (length recs =? 0) || existsb (fun r => length r =? 0) recs then db_files d else crash_files k d recs p).
  { destruct p; try congruence; cbn [crash_files]; destruct ((length recs =? 0) || existsb (fun r => length r =? 0) recs); reflexivity. }
  destruct ((length recs =? 0) || existsb (fun r => length r =? 0) recs) eqn:Ei.
  { rewrite Hunf, Hf. apply Hweak; [exact Hsame|]. apply orb_true_iff in Ei as [Ei|Ei].
    - right. apply Nat.eqb_eq, nil_length_inv in Ei. exact Ei.
    - left. unfold crash_kept. destruct (has_empty recs) eqn:G; [reflexivity|]. exfalso.
      clear - Ei G. unfold has_empty in G. induction recs as [|[|x r] recs IH]; simpl in *; try discriminate. auto. }
  clear Hunf. assert (Ei' := Ei). apply orb_false_iff in Ei' as [Hne Hall]. apply Nat.eqb_neq in Hne. apply existsb_empty in Hall.
  assert (Hne' : recs <> []) by (intros ->; simpl in Hne; congruence). assert (Hcn := concat_nonempty recs Hne' Hall).
  (* crash while the data grows *)
  assert (Hdata : forall gp, exists df' xf' m, (grow_file_at k (ap_mmap (d_data d)) (concat recs) gp, Some xf) = (Some df', Some xf') /\
    files_ok df' xf' (L ++ take m (place (length B) recs)) /\ length df' <= T + min_mmap k /\ length xf' <= 16 * n + min_mmap k /\ m = 0).
  { intro gp. destruct (grow_file_at_ok k _ B (concat recs) gp df (do_data _ _ _ H) Hcn Hd) as (f1 & nw & Hf1 & Hl1 & -> & _).
    destruct (grown_prefix _ _ _ _ D1 D2 Hf1) as [G1 G2]. destruct (write_partial f1 B (concat recs) nw G1 Hl1 G2) as [W1 W2].
    eexists _, xf, 0. split; [reflexivity|]. rewrite take_0, app_nil_r. split; [|split; [|split; [exact Sx|reflexivity]]].
    - destruct Hfo as [F1 F2 F3 F4 F5]. split; auto. eapply Forall_impl; [apply (do_in _ _ _ H)|]. intros q Hq.
      eapply in_data_file; [apply (in_data_app B (take nw (concat recs)) q), Hq|]. rewrite app_length. exact W2.
    - rewrite W1. destruct Hf1 as [->| ->]; [exact Sd|]. rewrite set_len_length. lia. }
  (* crash while the index grows *)
  destruct (flat_append_file k d B L recs df H Hne' Hall Hd) as (f1 & Hf1 & Hl1 & Hdf1).
  destruct (grown_prefix _ _ _ _ D1 D2 Hf1) as [G1 G2].
  assert (Hdlen : length (write_at f1 (length B) (concat recs)) <= T + min_mmap k).
  { rewrite write_at_length by exact Hl1. destruct Hf1 as [->| ->]; [exact Sd|]. rewrite set_len_length. lia. }
  assert (Hdin : take (length (B ++ concat recs)) (write_at f1 (length B) (concat recs)) = B ++ concat recs).
  { rewrite app_length, write_at_take by exact Hl1. rewrite G2. reflexivity. }
  assert (Hall2 : forall m, Forall (in_data (write_at f1 (length B) (concat recs))) (L ++ take m (place (length B) recs))).
  { intro m. apply Forall_forall. intros q Hq. eapply in_data_file; [|exact Hdin]. apply elem_of_app in Hq as [Hq|Hq].
    - apply in_data_app. pose proof (do_in _ _ _ H) as G. rewrite Forall_forall in G. auto.
    - apply place_in_data; [exact Hall|]. eapply elem_of_take in Hq as (i & Hi & _). eapply elem_of_list_lookup_2; eauto. }
  assert (Hord : forall m, ordered_from 0 (L ++ take m (place (length B) recs))).
  { intro m. rewrite <- place_take. apply ordered_place; [apply (do_in _ _ _ H)|apply (do_ord _ _ _ H)]. }
  set (w := flat_map entry_bytes (locations (ap_size (d_data d)) recs)).
  assert (Hw : w = ibytes (place (length B) recs)).
  { unfold w, ibytes. rewrite place_ents, (do_dsize _ _ _ H). reflexivity. }
  assert (Hwl : length w = 16 * length recs) by (rewrite Hw, ibytes_length, place_length; reflexivity).
  assert (Hwn : w <> []) by (intro G; rewrite G in Hwl; simpl in Hwl; lia).
  destruct (ok_file _ _ (do_idx _ _ _ H) _ Hx) as [X1 X2].
  assert (Hidx : forall gp q, match gp with GWritten nw => nw = 8 * q | _ => q = 0 end ->
    exists df' xf' m, (Some (write_at f1 (length B) (concat recs)), grow_file_at k (ap_mmap (d_idx d)) w gp) = (Some df', Some xf') /\
    files_ok df' xf' (L ++ take m (place (length B) recs)) /\ length df' <= T + min_mmap k /\ length xf' <= 16 * n + min_mmap k /\ m = Nat.min (q / 2) (length recs)).
  { intros gp q Hgp. destruct (grow_file_at_ok k _ (ibytes L) w gp xf (do_idx _ _ _ H) Hwn Hx) as (f2 & nw & Hf2 & Hl2 & -> & Hgpn).
    destruct (grown_prefix _ _ _ _ X1 X2 Hf2) as [Y1 Y2]. destruct (write_partial f2 (ibytes L) w nw Y1 Hl2 Y2) as [W1 W2].
    assert (Hq : nw = 8 * q) by (destruct gp; lia). subst nw. set (m := Nat.min (q / 2) (length recs)).
    assert (Hm : 2 * (q / 2) <= q /\ q <= 2 * (q / 2) + 1).
    { pose proof (Nat.div_mod q 2 ltac:(lia)). pose proof (Nat.mod_upper_bound q 2 ltac:(lia)). lia. }
    assert (Hlm : length (take m (place (length B) recs)) = m) by (rewrite take_length, place_length; unfold m; lia).
    assert (Htw : length (take (8 * q) w) = Nat.min (8 * q) (16 * length recs)) by (rewrite take_length, Hwl; reflexivity).
    rewrite ibytes_length in *.
    assert (Hroom : 16 * length L + length (take (8 * q) w) <= length f2).
    { destruct q; [simpl; lia|]. specialize (Hl2 ltac:(lia)). lia. }
    eexists _, _, m. split; [reflexivity|]. split; [|split; [exact Hdlen|split; [|reflexivity]]].
    - split; auto.
      + rewrite app_length, Hlm.
        transitivity (take (16 * (length L + m)) (ibytes L ++ take (8 * q) w)).
        { rewrite <- W2, take_take. f_equal. unfold m in *. lia. }
        rewrite take_app_ge by (rewrite ibytes_length; lia). rewrite ibytes_length, ibytes_app. f_equal.
        replace (16 * (length L + m) - 16 * length L) with (16 * m) by lia. rewrite take_take.
        replace (Nat.min (16 * m) (8 * q)) with (16 * m) by (unfold m; lia). rewrite Hw. apply ibytes_take.
      + rewrite W1, app_length, Hlm. unfold m. lia.
      + rewrite app_length, Hlm. apply tail_write; [|exact Hroom|unfold m; lia].
        pose proof (do_tail _ _ _ H _ Hx) as Ht. destruct Hf2 as [->| ->]; [exact Ht|]. apply tail_set_len; [exact Ht|].
        apply mod16_add; [apply mod16_mul|]. rewrite Hwl.
        destruct (Nat.max_dec (16 * length recs) (min_mmap k)) as [-> | ->]; [apply mod16_mul|exact Hk].
    - rewrite W1. destruct Hf2 as [->| ->]; [exact Sx|]. rewrite set_len_length. lia. }
  assert (He0 : has_empty recs = false).
  { unfold has_empty. clear - Hall. induction Hall as [|r recs Hr _ IH]; [reflexivity|]. simpl. rewrite IH. destruct r; [congruence|reflexivity]. }
  assert (Hfin : forall F, (exists df' xf' m, F = (Some df', Some xf') /\ files_ok df' xf' (L ++ take m (place (length B) recs)) /\
    length df' <= T + min_mmap k /\ length xf' <= 16 * n + min_mmap k /\ m = Nat.min (crash_kept recs p) (length recs)) ->
    exists df' xf' m, F = (Some df', Some xf') /\ files_ok df' xf' (L ++ take m (place (length B) recs)) /\
    length df' <= T + min_mmap k /\ length xf' <= 16 * n + min_mmap k /\ take m recs = take (crash_kept recs p) recs).
  { intros F (df' & xf' & m & Q1 & Q2 & Q3 & Q4 & ->). exists df', xf', (Nat.min (crash_kept recs p) (length recs)).
    split; [exact Q1|]. split; [exact Q2|]. split; [exact Q3|]. split; [exact Q4|].
    destruct (decide (crash_kept recs p <= length recs)); [f_equal; lia|]. rewrite !take_ge by lia. reflexivity. }
  unfold crash_kept in Hfin, Hweak. rewrite He0 in Hfin, Hweak. unfold crash_kept. rewrite He0.
  destruct p as [gp| | |q|]; [| | | |congruence]; cbn [crash_files]; rewrite Ei; fold w.
  - rewrite Hx. apply Hweak; [apply Hdata|auto].
  - rewrite Hdf1, Hx. apply Hfin. specialize (Hidx GStart 0 eq_refl). simpl in Hidx. rewrite Hx in Hidx. exact Hidx.
  - rewrite Hdf1. apply Hfin. apply (Hidx GExtended 0 eq_refl).
  - rewrite Hdf1. apply Hfin. apply (Hidx (GWritten (8 * q)) q eq_refl).
Qed.

(** sizes after an append *)
Lemma appender_append_len k fl ap B w f ap' r f0 : ap_ok ap B -> w <> [] -> no_late_faults fl ->
  (forall n, length w <= n -> f n = (w, None)) ->
  appender_append k fl ap (length w) f = (ap', r) -> g_file (ap_mmap ap) = Some f0 ->
  exists f1, g_file (ap_mmap ap') = Some f1 /\ length f1 <= Nat.max (length f0) (length B + Nat.max (length w) (min_mmap k)).
Proof.
  intros H Hw Hfl Hf E Ef0. destruct (appender_append_ok k fl ap B w f ap' r H Hw Hfl Hf E) as [(-> & _ & _ & Hif)|(-> & _ & _ & Hif & _)];
    rewrite Ef0 in Hif.
  - destruct Hif as (f1 & Hf1 & Hl & ->). eexists; split; [reflexivity|]. rewrite write_at_length by exact Hl.
    destruct Hf1 as [->| ->]; [|rewrite set_len_length]; lia.
  - destruct Hif as [->|(f2 & G & ->)]; eexists; (split; [reflexivity|]); [|rewrite set_len_length]; lia.
Qed.

Lemma append_sized k fd fi d B L recs d' r T n : db_ok d B L -> no_late_faults fd -> no_late_faults fi -> sized k d T n ->
  length B + length (concat recs) <= T -> length L + length recs <= n ->
  db_append k fd fi d recs = (d', r) -> sized k d' T n.
Proof.
  intros H Hfd Hfi (df & xf & Hf & Sd & Sx) HT Hn. assert (Hf' := Hf). unfold db_files in Hf'. injection Hf' as Hd Hx.
  assert (Hself : sized k d T n) by (exists df, xf; auto).
  unfold db_append, flat_append. destruct recs as [|r0 recs'] eqn:Er; [intro E; injection E as <- _; exact Hself|]. cbn iota. rewrite <- Er in *.
  assert (Hne : recs <> []) by (rewrite Er; discriminate). clear Er r0 recs'.
  destruct (existsb (fun r => length r =? 0) recs) eqn:Eex.
  { intro E; injection E as <- _. destruct d; exact Hself. }
  assert (Hall := Eex). apply existsb_empty in Hall. assert (Hcn := concat_nonempty recs Hne Hall).
  match goal with |- context [appender_append k fd (d_data d) _ ?f] => set (fnd := f) end.
  assert (Hfnd : forall n, length (concat recs) <= n -> fnd n = (concat recs, None)).
  { intros m Hm. unfold fnd. rewrite take_ge by exact Hm. destruct (m <? length (concat recs)) eqn:E; [apply Nat.ltb_lt in E; lia|reflexivity]. }
  destruct (appender_append k fd (d_data d) (length (concat recs)) fnd) as [data' rd] eqn:Ed.
  destruct (appender_append_len k fd (d_data d) B (concat recs) fnd data' rd df (ApOk _ _ (do_data _ _ _ H) (do_dsize _ _ _ H)) Hcn Hfd Hfnd Ed Hd) as (df' & Hdf1 & Hdl).
  assert (Hdlen : length df' <= T + min_mmap k) by lia.
  assert (Hother : sized k (Db data' (d_idx d)) T n).
  { exists df', xf. unfold db_files. simpl. rewrite Hdf1, Hx. auto. }
  destruct rd as [u|e|]; [|intro E; injection E as <- _; exact Hother..].
  unfold idx_append. rewrite existsb_locations, Eex.
  destruct (locations (ap_size (d_data d)) recs) as [|l0 ls] eqn:El; [destruct recs; [congruence|discriminate]|]. cbn iota. rewrite <- El.
  match goal with |- context [appender_append k fi (d_idx d) _ ?f] => set (fni := f) end.
  set (w := ibytes (place (length B) recs)).
  assert (Hll : 8 * 2 * length (locations (ap_size (d_data d)) recs) = length w).
  { unfold w. rewrite ibytes_length, place_length, <- (place_ents (ap_size (d_data d))). unfold ents. rewrite map_length, place_length. lia. }
  assert (Hfni : forall m, length w <= m -> fni m = (w, None)).
  { intros m Hm. unfold fni. rewrite Hll. destruct (m <? length w) eqn:E; [apply Nat.ltb_lt in E; lia|].
    unfold w, ibytes. rewrite place_ents, (do_dsize _ _ _ H). reflexivity. }
  assert (Hwl : length w = 16 * length recs) by (unfold w; rewrite ibytes_length, place_length; reflexivity).
  assert (Hwn : w <> []) by (intro G; rewrite G in Hwl; simpl in Hwl; destruct recs; [congruence|discriminate]).
  rewrite Hll. destruct (appender_append k fi (d_idx d) (length w) fni) as [idx' ri] eqn:Ei.
  destruct (appender_append_len k fi (d_idx d) (ibytes L) w fni idx' ri xf
      (ApOk _ _ (do_idx _ _ _ H) ltac:(rewrite ibytes_length; apply (do_isize _ _ _ H))) Hwn Hfi Hfni Ei Hx) as (xf' & Hxf & Hxl).
  assert (Hfin : forall r', (Db data' idx', r') = (d', r) -> sized k d' T n).
  { intros r' E. injection E as <- _. rewrite ibytes_length in *. exists df', xf'. unfold db_files. cbn [d_data d_idx]. rewrite Hdf1, Hxf.
    split; [reflexivity|]. split; [exact Hdlen|]. lia. }
  destruct ri; apply Hfin.
Qed.

(** ** dropping *)
Lemma drop_files d B L df xf : db_ok d B L -> db_files d = (Some df, Some xf) -> db_files (db_drop d) = (Some B, Some (ibytes L)).
Proof.
  intros H Hf. unfold db_files in *. injection Hf as Hd Hx. unfold db_drop, appender_shrink. simpl.
  rewrite (shrink_file _ _ (do_data _ _ _ H)), (shrink_file _ _ (do_idx _ _ _ H)), Hd, Hx. reflexivity.
Qed.

Lemma drop_files_ok d B L : db_ok d B L -> files_ok B (ibytes L) L.
Proof.
  intro H. split; rewrite ?ibytes_length; try lia.
  - apply take_ge. rewrite ibytes_length. lia.
  - split; rewrite ibytes_length; [apply mod16_mul|lia].
  - apply (do_in _ _ _ H).
  - apply (do_ord _ _ _ H).
Qed.
