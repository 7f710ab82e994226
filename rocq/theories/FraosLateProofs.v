(** Proofs for C21: the files after an append during which any system call fails. *)
From Coq Require Import Lia ZArith.
From stdpp Require Import numbers list.
From Verif Require Import FraosModel FraosSpec FraosProofs FraosLogProofs FraosCrashProofs FraosHistProofs FraosLateSpec.

(** the same failures without the one of the write-protection *)
Definition unprotect (fl : faults) : faults := Faults (f_extend fl) (f_map fl) false (f_flush fl) (f_remap fl).
Lemma create_unprotect fl F size off : create_mmap (unprotect fl) F size off = create_mmap fl F size off.
Proof. reflexivity. Qed.
Lemma prepare_unprotect k fl g ext : grow_prepare k fl g ext = grow_prepare k (unprotect fl) g ext \/
  exists s, (grow_prepare k fl g ext).2 = Err IoError /\ (grow_prepare k (unprotect fl) g ext).2 = Ok s /\
    g_file (grow_prepare k fl g ext).1 = g_file (grow_prepare k (unprotect fl) g ext).1 /\
    g_active (grow_prepare k fl g ext).1 = g_active (grow_prepare k (unprotect fl) g ext).1.
Proof.
  unfold grow_prepare. destruct (g_active g) as [a|]; [|left; reflexivity].
  destruct (c_size (a_bounds a) + ext <? a_len a); [left; reflexivity|]. rewrite create_unprotect.
  destruct (create_mmap fl (g_file g) (new_mmap_size k g ext) (c_end (a_bounds a))) as [F' [m|e|]]; [|left; reflexivity..].
  destruct (c_append _ ext); [|left; reflexivity..]. destruct (i_append _ _); [|left; reflexivity..].
  cbn [unprotect f_protect]. destruct (f_protect fl); [|left; reflexivity]. right. eexists. repeat split.
Qed.
Lemma rearrange_failed k fl g : f_remap fl = true -> (rearrange k fl g).2 = Ok tt \/ (rearrange k fl g).2 = Err IoError.
Proof.
  intro H. unfold rearrange. rewrite H. repeat match goal with |- context [match ?x with _ => _ end] => destruct x end; auto.
Qed.
Lemma prep_len g B start ext a : prep g B start ext a -> gmm_len g = length B + ext.
Proof. intros [P1 P2 P3 P4 P5 P6 P7 P8 P9 P10]. unfold gmm_len. rewrite P1. unfold c_end. lia. Qed.

Definition grown_from (k : cfg) (f0 : list N) (n ext : nat) (f1 : list N) : Prop := f1 = f0 \/ f1 = set_len f0 (n + Nat.max ext (min_mmap k)).
Lemma grow_any k fl g B w f g' r f0 : gmm_ok g B -> w <> [] -> g_file g = Some f0 ->
  (forall n, length w <= n -> f n = (w, None)) -> grow_and_apply k fl g (length w) f = (g', r) ->
  exists f1, grown_from k f0 (length B) (length w) f1 /\
    ((r = Err IoError /\ g_file g' = Some f1 /\ (gmm_len g' = length B \/ gmm_len g' = length B + length w)) \/
     (length B + length w <= length f1 /\ g_file g' = Some (write_at f1 (length B) w) /\ gmm_len g' = length B + length w /\ (r = Ok tt \/ r = Err IoError))).
Proof.
  intros Hok Hw Ef0 Hf. assert (Hpos : 0 < length w) by (destruct w; simpl; [congruence|lia]).
  unfold grow_and_apply. destruct (length w =? 0) eqn:E0; [apply Nat.eqb_eq in E0; lia|].
  destruct (grow_prepare k (unprotect fl) g (length w)) as [g1 r1] eqn:Ep.
  destruct (grow_prepare_ok k (unprotect fl) g B (length w) g1 r1 Hok Hpos eq_refl Ep) as (Hg & Hcase & _).
  assert (Hg1 : exists f1, g_file g1 = Some f1 /\ grown_from k f0 (length B) (length w) f1).
  { destruct Hg as [Hg|(fq & Hg0 & Hg)]; [exists f0; split; [congruence|left; reflexivity]|].
    rewrite Ef0 in Hg0. injection Hg0 as <-. eexists. split; [exact Hg|right; reflexivity]. }
  destruct Hg1 as (f1 & Hf1 & Hgr). intro E. exists f1. revert E.
  destruct (prepare_unprotect k fl g (length w)) as [->|(s & H1 & H2 & H3 & H4)]; rewrite Ep in *.
  - destruct Hcase as [(-> & Hok1 & _)|(start & a & -> & HP & _)].
    + intro E; injection E as <- <-. split; [exact Hgr|]. left. split; [reflexivity|]. split; [exact Hf1|]. left. apply gmm_len_ok, Hok1.
    + assert (HP' := HP). assert (Hlen := prep_len _ _ _ _ _ HP). destruct HP' as [P1 P2 P3 P4 P5 P6 P7 P8 P9 P10]. rewrite P1.
      assert (Hsz : active_size a = a_len a).
      { unfold active_size. destruct (a_map a); [|apply P9]. destruct P9 as (_ & -> & _). reflexivity. }
      rewrite Hsz. destruct (a_len a <? start) eqn:E1; [apply Nat.ltb_lt in E1; lia|].
      rewrite Hf by lia. destruct (active_write_ok g1 B start (length w) a w HP Hpos (le_n _)) as (F' & a' & Eaw & HF' & Hab & Hok2).
      rewrite Eaw. specialize (Hok2 eq_refl). rewrite Hf1 in HF'.
      assert (Hl1 : length B + length w <= length f1).
      { destruct (a_map a); [|destruct P9; congruence]. destruct P9 as (_ & _ & f2 & E2 & Hl2). rewrite Hf1 in E2. injection E2 as <-. lia. }
      intro E. split; [exact Hgr|]. right. split; [exact Hl1|]. destruct (f_flush fl).
      * injection E as <- <-. split; [exact HF'|]. split; [|auto]. rewrite (gmm_len_ok _ _ Hok2), app_length. reflexivity.
      * destruct (rearrange_ok _ _ _ _ _ _ Hok2 E) as (Hok3 & Hfile & _ & Hres). split; [rewrite Hfile; exact HF'|].
        split; [rewrite (gmm_len_ok _ _ Hok3), app_length; reflexivity|].
        destruct (f_remap fl) eqn:Er; [|left; apply Hres; exact Er || reflexivity].
        match type of E with rearrange _ _ ?G = _ => destruct (rearrange_failed k fl G Er) as [Q|Q] end; rewrite E in Q; cbn in Q; auto.
  - cbn [fst snd] in *. destruct (grow_prepare k fl g (length w)) as [g2 r2] eqn:Ep2. cbn [fst snd] in *. subst r2 r1.
    intro E; injection E as <- <-. split; [exact Hgr|]. left. split; [reflexivity|]. split; [congruence|]. right.
    destruct Hcase as [(G & _)|(start & a & G & HP & _)]; [discriminate|]. rewrite <- (prep_len _ _ _ _ _ HP).
    unfold gmm_len. rewrite H4. destruct HP as [P1 _ _ _ _ _ _ _ _ _]. rewrite P1. reflexivity.
Qed.

(** one file after an append that may fail anywhere, and after it has been closed *)
Lemma appender_any k fl ap B w f ap' r f0 : ap_ok ap B -> w <> [] -> g_file (ap_mmap ap) = Some f0 ->
  (forall n, length w <= n -> f n = (w, None)) -> appender_append k fl ap (length w) f = (ap', r) ->
  exists f1, grown_from k f0 (length B) (length w) f1 /\
    ((r = Err IoError /\ (g_file (shrink (ap_mmap ap')) = Some (set_len f1 (length B)) \/ g_file (shrink (ap_mmap ap')) = Some (set_len f1 (length B + length w)))) \/
     (length B + length w <= length f1 /\ g_file (shrink (ap_mmap ap')) = Some (set_len (write_at f1 (length B) w) (length B + length w)) /\ (r = Ok tt \/ r = Err IoError))).
Proof.
  intros [Hg Hs] Hw Hf0 Hf. unfold appender_append.
  destruct (length w =? 0) eqn:E; [apply Nat.eqb_eq in E; destruct w; [congruence|discriminate]|].
  destruct (grow_and_apply k fl (ap_mmap ap) (length w) f) as [g' r'] eqn:Eg. intro Q.
  destruct (grow_any k fl _ B w f g' r' f0 Hg Hw Hf0 Hf Eg) as (f1 & Hgr & H). exists f1. split; [exact Hgr|].
  assert (Hap : ap_mmap ap' = g') by (destruct r'; injection Q as <- <-; reflexivity).
  assert (Hr : r = r') by (destruct r' as [[]| |]; injection Q as <- <-; reflexivity). subst r'. rewrite Hap. unfold shrink.
  destruct H as [(-> & -> & [-> | ->])|(Hl & -> & -> & Hr)].
  - left. split; [reflexivity|left; reflexivity].
  - left. split; [reflexivity|right; reflexivity].
  - right. split; [exact Hl|]. split; [reflexivity|exact Hr].
Qed.

Lemma set_len_prefix (f B : list N) n : length B <= n -> length B <= length f -> take (length B) f = B -> take (length B) (set_len f n) = B.
Proof. intros H1 H2 H3. rewrite set_len_take by assumption. exact H3. Qed.

(** an open log with the records L, not larger than the given sizes *)
Definition within (d : db) (L : list placed) (b n : nat) : Prop :=
  exists B, db_ok d B L /\ length B <= b /\ exists df xf, db_files d = (Some df, Some xf) /\ length df <= b /\ length xf <= 16 * n.

(** *** the files that closing leaves open again, with the old log or with all of the batch too *)
Lemma reopen_any k fd fi d B L recs d' r df0 xf0 : cfg_ok k -> db_ok d B L -> db_files d = (Some df0, Some xf0) ->
  fits (B ++ concat recs) (L ++ place (length B) recs) -> db_append k fd fi d recs = (d', r) ->
  r <> Panic /\ exists L' d2, (L' = L \/ (Forall (fun r => r <> []) recs /\ L' = L ++ place (length B) recs)) /\
    ((exists n, r = Ok (Some n)) -> L' = L ++ place (length B) recs) /\
    files_op k d' FReopen = Ok d2 /\ within d2 L' (length B + length (concat recs)) (length L + length recs).
Proof.
  intros Hk H Hf0 [Fd Fx] Ea. assert (Hf0' := Hf0). unfold db_files in Hf0'. injection Hf0' as Hd Hx.
  destruct (ok_file _ _ (do_data _ _ _ H) _ Hd) as [D1 D2]. destruct (ok_file _ _ (do_idx _ _ _ H) _ Hx) as [X1 X2].
  rewrite app_length in Fd. rewrite app_length, place_length in Fx.
  (* how to conclude from the closed files *)
  assert (Hend : forall df xf L', g_file (shrink (ap_mmap (d_data d'))) = Some df -> g_file (shrink (ap_mmap (d_idx d'))) = Some xf ->
    files_ok df xf L' -> length df <= length B + length (concat recs) -> length xf <= 16 * (length L + length recs) ->
    exists d2, files_op k d' FReopen = Ok d2 /\ within d2 L' (length B + length (concat recs)) (length L + length recs)).
  { intros df xf L' E1 E2 Hfo L1 L2. cbn [files_op]. unfold db_files, db_drop, appender_shrink. cbn [d_data d_idx ap_mmap]. rewrite E1, E2.
    destruct (db_new_ok df xf L' Hfo) as (d2 & En & Hok & Hfd); [split; lia|]. exists d2. split; [exact En|].
    exists (take (log_end L') df). split; [exact Hok|]. rewrite take_length. split; [lia|]. exists df, xf. auto. }
  assert (Hold : forall df, length B <= length df -> take (length B) df = B -> files_ok df (ibytes L) L).
  { intros df L1 L2. pose proof (drop_files_ok _ _ _ H) as [F1 F2 F3 F4 F5]. split; auto.
    eapply Forall_impl; [exact F4|]. intros q Hq. eapply in_data_file; eauto. }
  assert (Hxold : g_file (shrink (ap_mmap (d_idx d))) = Some (ibytes L)) by (rewrite (shrink_file _ _ (do_idx _ _ _ H)), Hx; reflexivity).
  assert (Hdold : g_file (shrink (ap_mmap (d_data d))) = Some B) by (rewrite (shrink_file _ _ (do_data _ _ _ H)), Hd; reflexivity).
  unfold db_append, flat_append in Ea. destruct recs as [|r0 recs'] eqn:Erecs.
  { injection Ea as <- <-. split; [discriminate|]. exists L.
    destruct (Hend B (ibytes L) L Hdold Hxold) as (d2 & G); [apply Hold; [lia|apply take_ge; lia]|lia|rewrite ibytes_length; lia|].
    exists d2. split; [auto|]. split; [intros [n Q]; discriminate|exact G]. }
  cbn iota in Ea. rewrite <- Erecs in *. assert (Hne : recs <> []) by (rewrite Erecs; discriminate). clear Erecs.
  destruct (existsb (fun r => length r =? 0) recs) eqn:Eex.
  { injection Ea as <- <-. split; [discriminate|]. exists L.
    destruct (Hend B (ibytes L) L Hdold Hxold) as (d2 & G); [apply Hold; [lia|apply take_ge; lia]|lia|rewrite ibytes_length; lia|].
    exists d2. split; [auto|]. split; [intros [n Q]; discriminate|exact G]. }
  apply existsb_empty in Eex. assert (Hcn := concat_nonempty recs Hne Eex).
  match type of Ea with context [appender_append k fd (d_data d) _ ?f] => set (fnd := f) in Ea end.
  destruct (appender_append k fd (d_data d) (length (concat recs)) fnd) as [data' rd] eqn:Ed.
  destruct (appender_any k fd (d_data d) B (concat recs) fnd data' rd df0) as (f1 & Hgr & Hout);
    [split; [apply (do_data _ _ _ H)|apply (do_dsize _ _ _ H)]|exact Hcn|exact Hd| |exact Ed|].
  { intros m Hm. unfold fnd. destruct (m <? length (concat recs)) eqn:Q; [apply Nat.ltb_lt in Q; lia|]. f_equal. apply take_ge. lia. }
  destruct (grown_prefix _ _ _ _ D1 D2 Hgr) as [G1 G2].
  (* the data file after closing holds B; with the batch unless the data append failed before writing *)
  assert (HD : exists df, g_file (shrink (ap_mmap data')) = Some df /\ length B <= length df <= length B + length (concat recs) /\ take (length B) df = B /\
    (rd = Err IoError \/ (rd = Ok tt /\ length df = length B + length (concat recs) /\ take (length (B ++ concat recs)) df = B ++ concat recs))).
  { destruct Hout as [(-> & [-> | ->])|(Hl & -> & Hr)].
    - eexists. split; [reflexivity|]. rewrite set_len_length. split; [lia|]. split; [apply set_len_prefix; auto|auto].
    - eexists. split; [reflexivity|]. rewrite set_len_length. split; [lia|]. split; [apply set_len_prefix; auto; lia|auto].
    - eexists. split; [reflexivity|]. rewrite set_len_length. split; [lia|].
      assert (Hw : take (length (B ++ concat recs)) (set_len (write_at f1 (length B) (concat recs)) (length B + length (concat recs))) = B ++ concat recs).
      { apply set_len_prefix; rewrite app_length; [lia|rewrite write_at_length; lia|]. rewrite write_at_take by exact Hl. rewrite G2. reflexivity. }
      split; [|destruct Hr as [->| ->]; auto].
      transitivity (take (length B) (B ++ concat recs)); [|apply take_app]. rewrite <- Hw, take_take. f_equal. rewrite app_length. lia. }
  destruct HD as (df & Edf & Ldf & Pdf & Hrd).
  destruct Hrd as [->|(-> & Ldf2 & Pdf2)].
  { injection Ea as <- <-. split; [discriminate|]. exists L. destruct (Hend df (ibytes L) L Edf Hxold) as (d2 & G); [apply Hold; [lia|exact Pdf]|lia|rewrite ibytes_length; lia|].
    exists d2. split; [auto|]. split; [intros [n Q]; discriminate|exact G]. }
  (* the index *)
  unfold idx_append in Ea.
  assert (Hloc : locations (ap_size (d_data d)) recs = ents (place (length B) recs)) by (rewrite place_ents, (do_dsize _ _ _ H); reflexivity).
  set (w := ibytes (place (length B) recs)).
  assert (Hwl : length w = 16 * length recs) by (unfold w; rewrite ibytes_length, place_length; reflexivity).
  assert (Hln : length (locations (ap_size (d_data d)) recs) = length recs) by (rewrite Hloc; unfold ents; rewrite map_length, place_length; reflexivity).
  assert (Hrn : length recs <> 0) by (destruct recs; [congruence|discriminate]).
  assert (Hwn : w <> []) by (intro Q; rewrite Q in Hwl; simpl in Hwl; lia).
  destruct (locations (ap_size (d_data d)) recs) as [|l0 ls] eqn:El; [simpl in Hln; lia|]. rewrite <- El in *. clear El.
  assert (Hnz : existsb (fun r => r.2 =? 0) (locations (ap_size (d_data d)) recs) = false).
  { generalize (ap_size (d_data d)). clear - Eex. induction Eex as [|r recs Hr _ IH]; intro o; [reflexivity|]. simpl. rewrite IH. destruct r; [congruence|reflexivity]. }
  rewrite Hnz, Hln in Ea.
  match type of Ea with context [appender_append k fi (d_idx d) ?i ?f] => set (fni := f) in Ea; replace i with (length w) in Ea by (rewrite Hwl; rewrite ?Hln; lia) end.
  destruct (appender_append k fi (d_idx d) (length w) fni) as [idx' ri] eqn:Ei.
  destruct (appender_any k fi (d_idx d) (ibytes L) w fni idx' ri xf0) as (x1 & Xgr & Xout);
    [split; [apply (do_idx _ _ _ H)|rewrite ibytes_length; apply (do_isize _ _ _ H)]|exact Hwn|exact Hx| |exact Ei|].
  { intros m Hm. unfold fni. rewrite Hwl in Hm. destruct (m <? _) eqn:Q; [apply Nat.ltb_lt in Q; lia|]. unfold w, ibytes. rewrite <- Hloc. reflexivity. }
  destruct (grown_prefix _ _ _ _ X1 X2 Xgr) as [Y1 Y2].
  assert (Ht1 : tail_unused x1 (length L)).
  { pose proof (do_tail _ _ _ H _ Hx) as Ht. destruct Xgr as [->| ->]; [exact Ht|]. apply tail_set_len; [exact Ht|]. rewrite ibytes_length.
    apply mod16_add; [apply mod16_mul|]. rewrite Hwl. destruct (Nat.max_dec (16 * length recs) (min_mmap k)) as [-> | ->]; [apply mod16_mul|exact Hk]. }
  assert (Hd' : d' = Db data' idx') by (destruct ri; injection Ea as <- <-; reflexivity). subst d'. cbn [d_data d_idx] in *.
  assert (Hkeep : forall n, length L <= n -> files_ok df (set_len x1 (16 * n)) L).
  { intros n Hn. pose proof (Hold df ltac:(lia) Pdf) as [F1 F2 F3 F4 F5]. rewrite ibytes_length in *. split; auto.
    - rewrite <- (ibytes_length L) at 1. apply set_len_prefix; rewrite ?ibytes_length; [lia|exact Y1|exact Y2].
    - rewrite set_len_length. lia.
    - apply tail_set_len; [exact Ht1|apply mod16_mul]. }
  rewrite ibytes_length, Hwl in *.
  destruct Xout as [(-> & Xs)|(Xl & Xs & Xr)].
  - injection Ea as <-. split; [discriminate|]. exists L.
    assert (Hex : exists d2, files_op k (Db data' idx') FReopen = Ok d2 /\ within d2 L (length B + length (concat recs)) (length L + length recs)).
    { destruct Xs as [Xs|Xs].
      - eapply (Hend df _ L Edf Xs); [apply (Hkeep (length L)); lia|lia|rewrite set_len_length; lia].
      - replace (16 * length L + 16 * length recs) with (16 * (length L + length recs)) in Xs by lia.
        eapply (Hend df _ L Edf Xs); [apply Hkeep; lia|lia|rewrite set_len_length; lia]. }
    destruct Hex as (d2 & G). exists d2. split; [auto|]. split; [intros [n Q]; discriminate|exact G].
  - assert (Hr : r <> Panic) by (destruct Xr as [->| ->]; injection Ea as <-; discriminate). split; [exact Hr|].
    exists (L ++ place (length B) recs).
    destruct (Hend df _ (L ++ place (length B) recs) Edf Xs) as (d2 & G); [|lia|rewrite set_len_length; lia|].
    { assert (Hwx : length (write_at x1 (16 * length L) w) = length x1) by (apply write_at_length; lia).
      split.
      - rewrite app_length, place_length. rewrite set_len_take by lia.
        replace (16 * (length L + length recs)) with (16 * length L + length w) by lia.
        rewrite write_at_take by lia. rewrite Y2, ibytes_app. reflexivity.
      - rewrite set_len_length, app_length, place_length. lia.
      - rewrite app_length, place_length. apply tail_set_len; [apply tail_write; [exact Ht1|lia|lia]|].
        replace (16 * length L + 16 * length recs) with (16 * (length L + length recs)) by lia. apply mod16_mul.
      - apply Forall_forall. intros q Hq. eapply in_data_file; [|exact Pdf2]. apply elem_of_app in Hq as [Hq|Hq].
        + apply in_data_app. pose proof (do_in _ _ _ H) as Q. rewrite Forall_forall in Q. auto.
        + apply place_in_data; assumption.
      - apply ordered_place; [apply (do_in _ _ _ H)|apply (do_ord _ _ _ H)]. }
    exists d2. split; [auto|]. split; [auto|exact G].
Qed.

Lemma mended_run k T n : cfg_ok k -> (N.of_nat (T + min_mmap k) < 2 ^ 64)%N -> (N.of_nat (16 * n + min_mmap k) < 2 ^ 64)%N ->
  forall h, mended h -> forall d B L, db_ok d B L -> sized k d T n ->
  length B + length (concat (batches h)) <= T -> length L + length (batches h) <= n ->
  exists d' B' L', files_run k d h = Ok d' /\ db_ok d' B' L' /\ log_after (map snd L) h (map snd L').
Proof.
  intros Hk FT Fn. induction 1 as [|o h Ho Hh IH|fd fi recs h Hh IH]; intros d B L H Hs HB HL.
  - exists d, B, L. split; [reflexivity|]. split; [exact H|constructor].
  - unfold batches in *. cbn [map concat] in *. rewrite concat_app, !app_length in *.
    destruct (files_op_ok k d B L o T n Hk H Hs FT Fn) as (d1 & B1 & L1 & E1 & H1 & S1 & LB1 & LL1 & St1 & _); try lia; [exact Ho|].
    destruct (IH d1 B1 L1 H1 S1) as (d2 & B2 & L2 & E2 & H2 & St2); try lia.
    exists d2, B2, L2. cbn [files_run]. rewrite E1. split; [exact E2|]. split; [exact H2|]. econstructor; eauto.
  - unfold batches in *. cbn [map concat op_batch] in *. rewrite !app_nil_l, concat_app, !app_length in *.
    destruct (db_append k fd fi d recs) as [d1 r] eqn:Ea. destruct Hs as (df & xf & Hfiles & _ & _).
    destruct (reopen_any k fd fi d B L recs d1 r df xf Hk H Hfiles) as (Hp & L' & d2 & HL' & _ & Er & B2 & H2 & LB2 & df2 & xf2 & Hf2 & S1 & S2);
      [split; rewrite app_length, ?place_length; lia|exact Ea|].
    assert (LL2 : length L' <= length L + length recs).
    { destruct HL' as [->|[_ ->]]; [lia|rewrite app_length, place_length; lia]. }
    destruct (IH d2 B2 L' H2) as (d3 & B3 & L3 & E3 & H3 & St3); [exists df2, xf2; split; [exact Hf2|lia]|lia|lia|].
    exists d3, B3, L3. cbn [files_run]. assert (E1 : files_op k d (FAppendFail fd fi recs) = Ok d1) by (cbn [files_op]; rewrite Ea; destruct r; congruence).
    rewrite E1, Er. split; [exact E3|]. split; [exact H3|]. apply (la_cons _ _ (map snd L')).
    + destruct HL' as [->|[G ->]]; [constructor|]. rewrite map_app, place_snd. apply ls_not_failed, has_empty_false, G.
    + econstructor; [constructor|exact St3].
Qed.
