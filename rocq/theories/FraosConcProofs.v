From Coq Require Import Lia ZArith.
From stdpp Require Import numbers list.
From Verif Require Import FraosModel FraosSpec FraosProofs FraosLogProofs FraosHistProofs FraosConcModel.

(** the log as the mappings hold it, whatever sizes are published *)
Definition fixed (d : db) (B : list N) (L : list placed) : db :=
  Db (Appender (ap_mmap (d_data d)) (length B)) (Appender (ap_mmap (d_idx d)) (16 * length L)).

Definition pc_ok (d : db) (B : list N) (L : list placed) (w : wpc) : Prop :=
  match w with
  | WIdle => ap_size (d_data d) = length B /\ ap_size (d_idx d) = 16 * length L
  | WDataGrown recs off | WDataStored recs off =>
      exists B0, B = B0 ++ concat recs /\ off = length B0 /\ Forall (in_data B0) L /\
        (forall x, x ∈ gbounds (ap_mmap (d_data d)) -> x <= length B0 \/ x = length B) /\
        ap_size (d_idx d) = 16 * length L /\ recs <> [] /\ Forall (fun r => r <> []) recs /\
        ap_size (d_data d) = match w with WDataGrown _ _ => length B0 | _ => length B end
  | WIdxGrown recs n => ap_size (d_data d) = length B /\ ap_size (d_idx d) = 16 * n /\ n + length recs = length L /\ drop n (map snd L) = recs
  end.
Definition pc_recs (w : wpc) : list (list N) := match w with WDataGrown recs _ | WDataStored recs _ => recs | _ => [] end.
Definition published (w : wpc) (L : list placed) : nat := match w with WIdxGrown _ n => n | _ => length L end.

Record cinv (st : cstate) (R : list (list N)) (B : list N) (L : list placed) : Prop := CInv {
  ci_db : db_ok (fixed (c_db st) B L) B L;
  ci_pc : pc_ok (c_db st) B L (c_w st);
  ci_log : R = map snd L ++ pc_recs (c_w st);
  ci_bytes : length B = length (concat R);
  ci_reads : forall s off len, (s, off, len) ∈ c_reads st -> (s < 2 ^ 60)%N ->
     exists p, L !! N.to_nat s = Some p /\ off = N.of_nat p.1 /\ len = N.of_nat (length p.2)
}.

Lemma fixed_idx_get d B L s : idx_get (d_idx (fixed d B L)) s = idx_get (d_idx d) s.
Proof. reflexivity. Qed.

Lemma locations_length o recs : length (locations o recs) = length recs.
Proof. rewrite <- place_ents. unfold ents. rewrite map_length, place_length. reflexivity. Qed.

Definition ev_batch (ev : event) : list (list N) := match ev with EvBegin recs => recs | _ => [] end.
Definition rfits (R : list (list N)) : Prop := (N.of_nat (length (concat R)) < 2 ^ 64)%N /\ (N.of_nat (16 * length R) < 2 ^ 64)%N.

(** what an event says about the log at that moment *)
Definition ev_ok (L : list placed) (w : wpc) (ev : event) : Prop :=
  match ev with
  | EvRead s r => (s < 2 ^ 60)%N -> match r with Ok None => length L <= N.to_nat s | Ok (Some x) => map snd L !! N.to_nat s = Some x | _ => False end
  | EvLen n => n = published w L
  | EvDone n recs => drop n (map snd L) = recs /\ n + length recs = length L
  | _ => True
  end.

Lemma cstep_inv k st R B L ev st' : cfg_ok k -> cinv st R B L -> rfits (R ++ ev_batch ev) -> cstep k st ev st' ->
  exists B' L', cinv st' (R ++ ev_batch ev) B' L' /\ L `prefix_of` L' /\ ev_ok L (c_w st) ev /\
    published (c_w st) L <= published (c_w st') L'.
Proof.
  intros Hk H Hfit Hstep. destruct H as [Hdb Hpc Hlog Hbytes Hreads].
  destruct Hstep as [d rs recs g Hne Hall Hg|d rs recs off|d rs recs off g Hg|d rs recs n|d w rs s off len Hi|d w rs s Hi|d w rs1 rs2 s off len|d w rs];
    cbn [c_db c_w c_reads ev_batch ev_ok] in *; rewrite ?app_nil_r in *.
  - (* data grown *)
    apply existsb_empty in Hall. assert (Hcn := concat_nonempty recs Hne Hall). simpl in Hlog. rewrite ?app_nil_r in Hlog.
    destruct Hpc as [S1 S2]. unfold data_grow in Hg.
    match type of Hg with grow_and_apply _ _ _ _ ?f = _ => set (fnd := f) in Hg end.
    assert (Hfnd : forall n, length (concat recs) <= n -> fnd n = (concat recs, None)).
    { intros n Hn. unfold fnd. rewrite take_ge by exact Hn. destruct (n <? length (concat recs)) eqn:E; [apply Nat.ltb_lt in E; lia|reflexivity]. }
    destruct (grow_ok k no_faults (ap_mmap (d_data d)) B (concat recs) fnd g (Ok tt) (do_data _ _ _ Hdb) Hcn ltac:(repeat split) Hfnd Hg)
      as [(_ & Hg1 & Hgb & _)|(E & _)]; [|discriminate].
    assert (Hfit' : fits (B ++ concat recs) L).
    { destruct Hfit as [F1 F2]. subst R. rewrite concat_app, !app_length, map_length in *. split; rewrite ?app_length; lia. }
    exists (B ++ concat recs), L. split; [|split; [reflexivity|split; [exact I|simpl; lia]]]. split; cbn [c_db c_w c_reads].
    + apply (db_data_appended (Appender g (length (B ++ concat recs))) (fixed d B L) B L (concat recs)); auto. split; [exact Hg1|reflexivity].
    + exists B. split; [reflexivity|]. split; [exact S1|]. split; [apply (do_in _ _ _ Hdb)|]. split; [|auto].
      intros x Hx. destruct (Hgb x Hx) as [G|G]; [left|auto]. eapply gbounds_le; [apply (do_data _ _ _ Hdb)|exact G].
    + cbn [pc_recs]. subst R. reflexivity.
    + subst R. rewrite concat_app, !app_length. rewrite Hbytes. lia.
    + exact Hreads.
  - (* data size stored *)
    destruct Hpc as (B0 & E1 & E2 & E3 & E4 & E5 & E6 & E7 & E8). exists B, L. split; [|split; [reflexivity|split; [exact I|simpl; lia]]].
    split; cbn [c_db c_w c_reads]; auto. exists B0. simpl. rewrite E1 in *. rewrite app_length in *. repeat split; auto.
  - (* index grown *)
    destruct Hpc as (B0 & E1 & E2 & E3 & E4 & E5 & E6 & E7 & E8). unfold idx_grow in Hg.
    match type of Hg with grow_and_apply _ _ _ _ ?f = _ => set (fni := f) in Hg end.
    set (w := ibytes (place (length B0) recs)).
    assert (Hwl : length w = 16 * length recs) by (unfold w; rewrite ibytes_length, place_length; reflexivity).
    assert (Hll : 8 * 2 * length (locations off recs) = length w) by (rewrite locations_length, Hwl; lia).
    assert (Hfni : forall m, length w <= m -> fni m = (w, None)).
    { intros m Hm. unfold fni. rewrite Hll. destruct (m <? length w) eqn:E; [apply Nat.ltb_lt in E; lia|].
      unfold w, ibytes. rewrite place_ents, E2. reflexivity. }
    assert (Hwn : w <> []) by (intro G; rewrite G in Hwl; destruct recs; [congruence|discriminate]).
    rewrite Hll in Hg.
    destruct (grow_ok k no_faults (ap_mmap (d_idx d)) (ibytes L) w fni g (Ok tt) (do_idx _ _ _ Hdb) Hwn ltac:(repeat split) Hfni Hg)
      as [(_ & Hg1 & Hgb & Hgf)|(E & _)]; [|discriminate].
    unfold w in Hg1, Hgb. rewrite <- ibytes_app in Hg1, Hgb. cbn [pc_recs] in Hlog.
    assert (HlenL : length (L ++ place (length B0) recs) = length L + length recs) by (rewrite app_length, place_length; reflexivity).
    assert (Hdb' : db_ok (fixed (Db (d_data d) (Appender g (ap_size (d_idx d)))) B (L ++ place (length B0) recs)) B (L ++ place (length B0) recs)).
    { rewrite E1. change (fixed (Db (d_data d) (Appender g (ap_size (d_idx d)))) (B0 ++ concat recs) (L ++ place (length B0) recs))
        with (Db (d_data (fixed d (B0 ++ concat recs) L)) (Appender g (16 * length (L ++ place (length B0) recs)))).
      rewrite E1 in Hdb, E4. apply (db_index_appended k _ (fixed d (B0 ++ concat recs) L) B0 L recs); auto.
      - destruct Hfit as [F1 F2]. split; [rewrite <- E1, Hbytes; exact F1|]. rewrite HlenL. subst R. rewrite app_length, map_length in F2. exact F2.
      - split; [exact Hg1|]. simpl. rewrite ibytes_length. reflexivity. }
    exists B, (L ++ place (length B0) recs). split; [|split; [apply prefix_app_r; reflexivity|split; [exact I|]]].
    + split; cbn [c_db c_w c_reads].
      * exact Hdb'.
      * cbn [pc_ok d_data d_idx ap_size]. assert (El : idx_len (d_idx d) = length L).
        { unfold idx_len. rewrite E5, Nat.div_div by lia. change (8 * 2) with 16. rewrite Nat.mul_comm. apply Nat.div_mul. lia. }
        rewrite El. split; [exact E8|]. split; [exact E5|]. split; [rewrite HlenL; reflexivity|].
        rewrite map_app, place_snd. rewrite drop_app_ge by (rewrite map_length; lia). rewrite map_length, Nat.sub_diag. reflexivity.
      * rewrite map_app, place_snd. cbn [pc_recs]. rewrite app_nil_r. exact Hlog.
      * exact Hbytes.
      * intros s o l Hin Hs. destruct (Hreads s o l Hin Hs) as (p & Hp & Ho & Hl). exists p. split; [|auto]. apply lookup_app_l_Some. exact Hp.
    + simpl. unfold idx_len. rewrite E5, Nat.div_div by lia. change (8 * 2) with 16. rewrite (Nat.mul_comm 16). rewrite Nat.div_mul by lia. lia.
  - (* index size stored *)
    destruct Hpc as (E1 & E2 & E3 & E4). exists B, L. split; [|split; [reflexivity|split; [auto|simpl; lia]]].
    split; cbn [c_db c_w c_reads]; auto; [simpl; split; [exact E1|lia]|]. simpl. rewrite app_nil_r. exact Hlog.
  - exists B, L. split; [|split; [reflexivity|split; [exact I|lia]]]. split; cbn [c_db c_w c_reads]; auto.
    intros s' o l Hin Hs. apply elem_of_app in Hin as [Hin|Hin]; [eauto|]. apply elem_of_list_singleton in Hin. injection Hin as -> -> ->.
    destruct (L !! N.to_nat s) as [p|] eqn:Ep.
    + assert (G := idx_get_ok _ B L _ p Hdb Ep). rewrite N2Nat.id, fixed_idx_get, Hi in G. injection G as -> ->. eauto.
    + exfalso. rewrite <- (fixed_idx_get d B L), (idx_get_none _ (ibytes L)) in Hi; [discriminate|apply (do_idx _ _ _ Hdb)| |].
      * change (2 ^ 64)%N with (2 ^ 60 * 16)%N. lia.
      * rewrite ibytes_length. apply lookup_ge_None in Ep. lia.
  - exists B, L. split; [split; auto|]. split; [reflexivity|]. split; [|lia]. intro Hs.
    destruct (L !! N.to_nat s) as [p|] eqn:Ep.
    + assert (G := idx_get_ok _ B L _ p Hdb Ep). rewrite N2Nat.id, fixed_idx_get in G. exfalso. eapply Hi. exact G.
    + rewrite <- (fixed_idx_get d B L), (idx_get_none _ (ibytes L)); [|apply (do_idx _ _ _ Hdb)| |].
      * apply lookup_ge_None in Ep. exact Ep.
      * change (2 ^ 64)%N with (2 ^ 60 * 16)%N. lia.
      * rewrite ibytes_length. apply lookup_ge_None in Ep. lia.
  - exists B, L. split; [|split; [reflexivity|split; [|lia]]].
    + split; cbn [c_db c_w c_reads]; auto. intros s' o l Hin. apply Hreads. apply elem_of_app in Hin. apply elem_of_app. destruct Hin; [auto|right; right; assumption].
    + intro Hs. destruct (Hreads s off len) as (p & Hp & -> & ->); [apply elem_of_app; right; left|exact Hs|].
      change (flat_get (d_data d)) with (flat_get (d_data (fixed d B L))).
      rewrite (flat_get_ok _ B L p Hdb) by (eapply elem_of_list_lookup_2; eauto). rewrite list_lookup_fmap, Hp. reflexivity.
  - exists B, L. split; [split; auto|]. split; [reflexivity|]. split; [|lia].
    unfold db_len, idx_len. assert (Hd : forall n, 16 * n / 8 / 2 = n).
    { intro n. rewrite Nat.div_div by lia. change (8 * 2) with 16. rewrite Nat.mul_comm. apply Nat.div_mul. lia. }
    destruct w; simpl in Hpc.
    + destruct Hpc as [_ ->]. apply Hd.
    + destruct Hpc as (B0 & _ & _ & _ & _ & -> & _). apply Hd.
    + destruct Hpc as (B0 & _ & _ & _ & _ & -> & _). apply Hd.
    + destruct Hpc as (_ & -> & _). apply Hd.
Qed.

(** what a whole trace says, relative to the log at its start and its end *)
Fixpoint tr_ok (L : list placed) (w : nat) (tr : list event) (Lf : list placed) : Prop :=
  match tr with
  | [] => L `prefix_of` Lf /\ w <= length L
  | ev :: tr => exists L' w', L `prefix_of` L' /\ w <= w' /\ w <= length L /\
      match ev with EvDone n recs => drop n (map snd L) = recs /\ n + length recs = length L
                  | EvLen n => n = w
                  | EvRead _ _ => ev_ok L WIdle ev
                  | _ => True end /\ tr_ok L' w' tr Lf
  end.

Lemma published_le d B L w : pc_ok d B L w -> published w L <= length L.
Proof. destruct w; simpl; try lia. Qed.

Lemma crun_ok k : cfg_ok k -> forall st tr st', crun k st tr st' -> forall R B L, cinv st R B L -> rfits (R ++ begun tr) ->
  exists B' L', cinv st' (R ++ begun tr) B' L' /\ tr_ok L (published (c_w st) L) tr L'.
Proof.
  intros Hk st tr st' Hrun. induction Hrun as [st|st ev st1 tr st2 Hstep Hrun IH]; intros R B L H Hfit.
  - exists B, L. unfold begun. simpl. rewrite app_nil_r. split; [exact H|]. split; [reflexivity|]. eapply published_le. apply (ci_pc _ _ _ _ H).
  - change (begun (ev :: tr)) with (ev_batch ev ++ begun tr) in *. rewrite app_assoc in *.
    assert (Hfit1 : rfits (R ++ ev_batch ev)).
    { destruct Hfit as [F1 F2]. rewrite concat_app, !app_length in *. split; rewrite ?app_length; lia. }
    destruct (cstep_inv k st R B L ev st1 Hk H Hfit1 Hstep) as (B1 & L1 & H1 & Hpre & Hev & Hpub).
    destruct (IH _ _ _ H1 Hfit) as (B2 & L2 & H2 & Htr). exists B2, L2. split; [exact H2|]. cbn [tr_ok].
    exists L1, (published (c_w st1) L1). split; [exact Hpre|]. split; [exact Hpub|].
    split; [eapply published_le; apply (ci_pc _ _ _ _ H)|]. split; [|exact Htr]. destruct ev; auto.
Qed.

Lemma tr_ok_app L w tr1 tr2 Lf : tr_ok L w (tr1 ++ tr2) Lf -> exists L' w', L `prefix_of` L' /\ w <= w' /\ tr_ok L' w' tr2 Lf.
Proof.
  revert L w. induction tr1 as [|ev tr1 IH]; intros L w H; [exists L, w; auto|].
  destruct H as (L' & w' & H1 & H2 & _ & _ & H). destruct (IH _ _ H) as (L2 & w2 & H3 & H4 & H5). exists L2, w2.
  split; [etransitivity; eauto|]. split; [lia|exact H5].
Qed.

Lemma tr_ok_prefix L w tr Lf : tr_ok L w tr Lf -> L `prefix_of` Lf.
Proof. revert L w. induction tr as [|ev tr IH]; intros L w H; [apply H|]. destruct H as (L' & w' & H1 & _ & _ & _ & H). etransitivity; eauto. Qed.

Lemma prefix_lookup_snd (L Lf : list placed) i x : L `prefix_of` Lf -> map snd L !! i = Some x -> map snd Lf !! i = Some x.
Proof. intros [l ->] H. rewrite map_app. apply lookup_app_l_Some. exact H. Qed.
Lemma prefix_len (L Lf : list placed) : L `prefix_of` Lf -> length L <= length Lf.
Proof. intros [l ->]. rewrite app_length. lia. Qed.
