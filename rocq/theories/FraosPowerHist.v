From Coq Require Import Lia ZArith.
From stdpp Require Import numbers list.
From Verif Require Import FraosModel FraosSpec FraosProofs FraosLogProofs FraosCrashProofs FraosHistProofs FraosPowerModel FraosPowerSpec FraosPowerProofs.

(** ** the invariant: every content the disk may hold has the whole log *)
Record pinv (k : cfg) (s : pstate) (B : list N) (L : list placed) (T n : nat) : Prop := PInv {
  pi_db : db_ok (ps_db s) B L;
  pi_sized : sized k (ps_db s) T n;
  pi_data : Forall (dgood L (T + min_mmap k)) (ps_data s);
  pi_idx : Forall (xgood L (16 * n + min_mmap k)) (ps_idx s)
}.

Lemma refused_spec recs : refused recs = false <-> recs <> [] /\ Forall (fun r => r <> []) recs.
Proof.
  unfold refused. rewrite orb_false_iff, Nat.eqb_neq, existsb_empty. split; intros [H1 H2]; (split; [|exact H2]).
  - intros ->. apply H1. reflexivity.
  - intro G. apply H1, nil_length_inv, G.
Qed.
Lemma refused_has_empty recs : refused recs = true -> recs = [] \/ has_empty recs = true.
Proof.
  unfold refused. rewrite orb_true_iff. intros [H|H]; [left; apply Nat.eqb_eq, nil_length_inv in H; exact H|right].
  destruct (has_empty recs) eqn:E; [reflexivity|]. apply has_empty_false, existsb_empty in E. congruence.
Qed.

(** the records whose entries are being written *)
Definition pending (b : nat) (recs : list (list N)) (m : moment) : list placed :=
  if refused recs then [] else match m with MIndex => place b recs | _ => [] end.

Lemma flushed_forall dk ap vs a b (P Q : list N -> Prop) : flush_covers ap a b ->
  (forall F off len v, g_file (ap_mmap ap) = Some F -> off <= a -> b <= off + len -> P v -> Q (synced dk F off len v)) ->
  Forall P vs -> Forall Q (flushed dk ap vs).
Proof.
  intros (F & act & off & len & HF & Hact & Hm & H1 & H2) HPQ Hvs. unfold flushed. rewrite HF, Hact, Hm.
  apply Forall_fmap. eapply Forall_impl; [exact Hvs|]. intros v Hv. eapply HPQ; eauto.
Qed.

Lemma data_after_covers k d B L recs f0 : db_ok d B L -> recs <> [] -> Forall (fun r => r <> []) recs -> g_file (ap_mmap (d_data d)) = Some f0 ->
  flush_covers (data_after k d recs) (length B) (length B + length (concat recs)).
Proof.
  intros H Hne Hall Hf. unfold data_after, flat_append. assert (Hcn := concat_nonempty recs Hne Hall).
  assert (Eex := Hall). apply existsb_empty in Eex. destruct recs as [|r0 recs']; [congruence|]. cbn iota. rewrite Eex.
  match goal with |- context [appender_append k no_faults (d_data d) _ ?f] => set (fnd := f) end.
  set (w := concat (r0 :: recs')) in *.
  assert (Hfnd : forall n, length w <= n -> fnd n = (w, None)).
  { intros n Hn. unfold fnd. rewrite take_ge by exact Hn. destruct (n <? length w) eqn:E; [apply Nat.ltb_lt in E; lia|reflexivity]. }
  destruct (appender_append k no_faults (d_data d) (length w) fnd) as [data' rd] eqn:Ed.
  destruct (appender_append_ok k no_faults (d_data d) B w fnd data' rd (ApOk _ _ (do_data _ _ _ H) (do_dsize _ _ _ H)) Hcn
    ltac:(repeat split) Hfnd Ed) as [(-> & _)|(_ & _ & _ & _ & Hnf)]; [|congruence].
  simpl fst. eapply append_covers; eauto. split; [apply (do_data _ _ _ H)|apply (do_dsize _ _ _ H)].
Qed.

(** appending: both halves *)
Lemma db_append_parts k d B L recs d' r f0 x0 : cfg_ok k -> db_ok d B L -> recs <> [] -> Forall (fun r => r <> []) recs ->
  fits (B ++ concat recs) (L ++ place (length B) recs) ->
  g_file (ap_mmap (d_data d)) = Some f0 -> g_file (ap_mmap (d_idx d)) = Some x0 ->
  db_append k no_faults no_faults d recs = (d', r) ->
  d_data d' = data_after k d recs /\ flush_covers (d_idx d') (16 * length L) (16 * (length L + length recs)).
Proof.
  intros Hk H Hne Hall Hfit Hf0 Hx0 E.
  destruct (db_append_ok k no_faults no_faults d B L recs d' r Hk H ltac:(repeat split) ltac:(repeat split) Hfit E) as
      [(-> & _ & _)|[(_ & Hem & _ & _)|[(_ & _ & -> & Hok)|(_ & _ & _ & _ & Hnf)]]]; try tauto; try congruence.
  unfold db_append in E. destruct recs as [|r0 recs'] eqn:Er; [congruence|]. cbn iota in E. rewrite <- Er in *.
  unfold data_after. destruct (flat_append k no_faults (d_data d) recs) as [data' rd] eqn:Ed.
  destruct rd as [u|e|]; [|discriminate E..]. 
  destruct (idx_append k no_faults (d_idx d) (locations (ap_size (d_data d)) recs)) as [idx' ri] eqn:Ei.
  injection E as <- ->. split; [reflexivity|]. cbn [d_idx].
  unfold idx_append in Ei. assert (Eex := Hall). apply existsb_empty in Eex.
  rewrite existsb_locations, Eex, (do_dsize _ _ _ H) in Ei.
  destruct (locations (length B) recs) as [|l0 ls] eqn:El; [rewrite Er in El; discriminate|]. cbn iota in Ei. rewrite <- El in Ei.
  set (w := ibytes (place (length B) recs)) in *.
  assert (Hw : flat_map entry_bytes (locations (length B) recs) = w) by (unfold w, ibytes; rewrite place_ents; reflexivity).
  assert (Hll : 8 * 2 * length (locations (length B) recs) = length w).
  { unfold w. rewrite ibytes_length, place_length, <- place_ents. unfold ents. rewrite map_length, place_length. lia. }
  assert (Hwl : length w = 16 * length recs) by (unfold w; rewrite ibytes_length, place_length; reflexivity).
  rewrite Hw, Hll in Ei.
  match type of Ei with context [appender_append k no_faults (d_idx d) _ ?f] => set (fni := f) in Ei end.
  assert (Hfni : forall n, length w <= n -> fni n = (w, None)).
  { intros n Hn. unfold fni. destruct (n <? length w) eqn:G; [apply Nat.ltb_lt in G; lia|reflexivity]. }
  assert (Hwn : w <> []) by (intro G; rewrite G in Hwl; simpl in Hwl; destruct recs; [congruence|discriminate]).
  destruct (appender_append k no_faults (d_idx d) (length w) fni) as [idx2 ri2] eqn:Ea.
  destruct ri2 as [[]|e|]; [|discriminate Ei..]. injection Ei as -> _.
  assert (G := append_covers k (d_idx d) (ibytes L) w fni idx' x0
    (ApOk _ _ (do_idx _ _ _ H) ltac:(rewrite ibytes_length; apply (do_isize _ _ _ H))) Hwn Hfni Hx0 Ea).
  rewrite ibytes_length, Hwl in G. replace (16 * (length L + length recs)) with (16 * length L + 16 * length recs) by lia. exact G.
Qed.

Lemma kept_none (b : nat) (recs : list (list N)) (m : nat) : take m recs = [] -> take m (place b recs) = [].
Proof. destruct recs; [intros _; apply take_nil|]. destruct m; [reflexivity|discriminate]. Qed.

(** ** the contents in the course of an operation *)
Section contents.
Context (k : cfg) (dk : disk) (s : pstate) (B : list N) (L : list placed) (T n : nat) (recs : list (list N)).
Context (Hk : cfg_ok k) (Hpg : 0 < dk_page dk) (H : pinv k s B L T n).
Context (HT : length B + length (concat recs) <= T) (Hn : length L + length recs <= n).

Lemma crash_good p : exists df xf m, crash_files k (ps_db s) recs p = (Some df, Some xf) /\
  dgood (L ++ take m (place (length B) recs)) (T + min_mmap k) df /\
  xgood (L ++ take m (place (length B) recs)) (16 * n + min_mmap k) xf /\ take m recs = take (crash_kept recs p) recs.
Proof.
  destruct (crash_ok k (ps_db s) B L recs p T n Hk (pi_db _ _ _ _ _ _ H) (pi_sized _ _ _ _ _ _ H) HT Hn) as (df & xf & m & E & Hfo & S1 & S2 & Hm).
  exists df, xf, m. split; [exact E|]. split; [split; [apply (fo_in _ _ _ Hfo)|exact S1]|]. split; [|exact Hm].
  split; [apply (fo_idx _ _ _ Hfo)|apply (fo_ilen _ _ _ Hfo)|apply (fo_tail _ _ _ Hfo)|exact S2].
Qed.

Lemma dgood_app P v : dgood (L ++ P) (T + min_mmap k) v -> dgood L (T + min_mmap k) v.
Proof. intros [G1 G2]. apply Forall_app in G1 as [G1 _]. split; assumption. Qed.

Lemma data_contents_good : Forall (dgood L (T + min_mmap k)) (data_contents k (ps_db s) recs).
Proof.
  unfold data_contents. apply Forall_app. split.
  - destruct (crash_good (CrashData GExtended)) as (df & xf & m & -> & G & _). constructor; [|constructor]. eapply dgood_app; exact G.
  - destruct (crash_good (CrashData (GWritten (length (concat recs))))) as (df & xf & m & -> & G & _). constructor; [|constructor]. eapply dgood_app; exact G.
Qed.

Lemma index_contents_good w : Forall (fun v => exists q, xgood (L ++ take q (place (length B) recs)) (16 * n + min_mmap k) v) (index_contents k (ps_db s) recs w).
Proof.
  unfold index_contents. apply Forall_app. split.
  - destruct (crash_good CrashIndexExtended) as (df & xf & m & -> & _ & G & _). constructor; [|constructor]. eauto.
  - apply Forall_forall. intros v Hv. apply elem_of_list_In, in_flat_map in Hv as (q & _ & Hv).
    destruct (crash_good (CrashIndexWords q)) as (df & xf & m & E & _ & G & _). rewrite E in Hv. simpl in Hv. destruct Hv as [<-|[]]. eauto.
Qed.

Lemma index_contents_none w : crash_kept recs (CrashIndexWords w) = 0 -> Forall (xgood L (16 * n + min_mmap k)) (index_contents k (ps_db s) recs w).
Proof.
  intro Hw. unfold index_contents. apply Forall_app. split.
  - destruct (crash_good CrashIndexExtended) as (df & xf & m & -> & _ & G & Hm). constructor; [|constructor].
    assert (crash_kept recs CrashIndexExtended = 0) as G0 by (unfold crash_kept; destruct (has_empty recs); reflexivity).
    rewrite G0, take_0 in Hm. rewrite (kept_none _ _ m Hm), app_nil_r in G. exact G.
  - apply Forall_forall. intros v Hv. apply elem_of_list_In, in_flat_map in Hv as (q & Hq & Hv). apply in_seq in Hq.
    destruct (crash_good (CrashIndexWords q)) as (df & xf & m & E & _ & G & Hm). rewrite E in Hv. simpl in Hv. destruct Hv as [<-|[]].
    assert (crash_kept recs (CrashIndexWords q) = 0) as G0.
    { unfold crash_kept in *. destruct (has_empty recs); [reflexivity|]. assert (q / 2 <= w / 2) by (apply Nat.div_le_mono; lia). lia. }
    rewrite G0, take_0 in Hm. rewrite (kept_none _ _ m Hm), app_nil_r in G. exact G.
Qed.

(** the data file after the batch is written *)
Lemma data_after_good F : recs <> [] -> Forall (fun r => r <> []) recs -> g_file (ap_mmap (data_after k (ps_db s) recs)) = Some F ->
  dgood (L ++ place (length B) recs) (T + min_mmap k) F.
Proof.
  intros Hne Hall HF. destruct (crash_good (CrashIndexWords (2 * length recs))) as (df & xf & m & E & G & _ & Hm).
  unfold crash_kept in Hm. rewrite (proj2 (has_empty_false recs) Hall) in Hm.
  rewrite (Nat.mul_comm 2), Nat.div_mul, firstn_all in Hm by lia.
  assert (Hmr : length recs <= m).
  { apply (f_equal length) in Hm. rewrite take_length in Hm. lia. }
  rewrite take_ge in G by (rewrite place_length; exact Hmr).
  assert (df = F); [|congruence]. cbn [crash_files] in E. unfold data_after in HF.
  assert (Hr : (length recs =? 0) || existsb (fun r => length r =? 0) recs = false) by (apply (proj2 (refused_spec recs)); auto).
  rewrite Hr, HF in E. injection E as -> _. reflexivity.
Qed.

Lemma files_some : exists f0 x0, g_file (ap_mmap (d_data (ps_db s))) = Some f0 /\ g_file (ap_mmap (d_idx (ps_db s))) = Some x0.
Proof. destruct (pi_sized _ _ _ _ _ _ H) as (f0 & x0 & E & _). unfold db_files in E. injection E as E1 E2. eauto. Qed.

Lemma flushed_data_good : recs <> [] -> Forall (fun r => r <> []) recs ->
  Forall (dgood (L ++ place (length B) recs) (T + min_mmap k)) (flushed dk (data_after k (ps_db s) recs) (ps_data s ++ data_contents k (ps_db s) recs)).
Proof.
  intros Hne Hall. destruct files_some as (f0 & x0 & Hf0 & Hx0).
  assert (Hc := data_after_covers k _ B L recs f0 (pi_db _ _ _ _ _ _ H) Hne Hall Hf0).
  eapply (flushed_forall dk _ _ _ _ (dgood L (T + min_mmap k))); [exact Hc| |].
  - intros F off len v HF H1 H2 [V1 V2]. destruct (data_after_good F Hne Hall HF) as [F1 F2].
    split; [|rewrite synced_length by exact Hpg; exact F2].
    apply Forall_forall. intros p Hp. rewrite Forall_forall in F1, V1. apply synced_d; [exact Hpg|auto|].
    apply elem_of_app in Hp as [Hp|Hp]; [left; auto|right]. apply place_ge in Hp. lia.
  - apply Forall_app. split; [apply (pi_data _ _ _ _ _ _ H)|apply data_contents_good].
Qed.

Lemma contents_good m : 
  Forall (dgood (L ++ pending (length B) recs m) (T + min_mmap k)) (fst (contents_at k dk s recs m)) /\
  Forall (fun v => exists q, xgood (L ++ take q (pending (length B) recs m)) (16 * n + min_mmap k) v) (snd (contents_at k dk s recs m)).
Proof.
  assert (Hself : Forall (dgood (L ++ []) (T + min_mmap k)) (ps_data s)) by (rewrite app_nil_r; apply (pi_data _ _ _ _ _ _ H)).
  assert (Hselfx : Forall (fun v => exists q, xgood (L ++ take q []) (16 * n + min_mmap k) v) (ps_idx s)).
  { eapply Forall_impl; [apply (pi_idx _ _ _ _ _ _ H)|]. intros v Hv. exists 0. rewrite take_0, app_nil_r. exact Hv. }
  assert (Hselfp : forall P, Forall (fun v => exists q, xgood (L ++ take q P) (16 * n + min_mmap k) v) (ps_idx s)).
  { intro P. eapply Forall_impl; [apply (pi_idx _ _ _ _ _ _ H)|]. intros v Hv. exists 0. rewrite take_0, app_nil_r. exact Hv. }
  unfold pending, contents_at. destruct m.
  - destruct (refused recs); simpl; auto.
  - destruct (refused recs) eqn:Er; simpl; [auto|]. split; [|exact Hselfx]. rewrite app_nil_r. apply Forall_app.
    split; [apply (pi_data _ _ _ _ _ _ H)|apply data_contents_good].
  - destruct (refused recs) eqn:Er; simpl; [auto|]. apply refused_spec in Er as [Hne Hall]. split; [apply flushed_data_good; assumption|].
    apply Forall_app. split; [apply Hselfp|apply index_contents_good].
  - (* drop *)
    assert (Hp : (if refused recs then [] else []) = ([] : list placed)) by (destruct (refused recs); reflexivity). rewrite Hp.
    destruct (pi_sized _ _ _ _ _ _ H) as (f0 & x0 & Ef & S1 & S2). rewrite (drop_files _ _ _ _ _ (pi_db _ _ _ _ _ _ H) Ef). simpl.
    assert (Hd := drop_files_ok _ _ _ (pi_db _ _ _ _ _ _ H)). rewrite app_nil_r in *. split; apply Forall_app; (split; [assumption|]); (constructor; [|constructor]).
    + split; [apply (fo_in _ _ _ Hd)|lia].
    + exists 0. rewrite take_0, app_nil_r. split; [apply (fo_idx _ _ _ Hd)|apply (fo_ilen _ _ _ Hd)|apply (fo_tail _ _ _ Hd)|]. rewrite ibytes_length. lia.
Qed.
End contents.

Lemma take_nil_any {A} q : take q ([] : list A) = [].
Proof. apply take_nil. Qed.

(** ** one operation *)
Lemma pop_ok k dk s o B L T n :
  cfg_ok k -> sector_aligned dk -> pinv k s B L T n ->
  (N.of_nat (T + min_mmap k) < 2 ^ 64)%N -> (N.of_nat (16 * n + min_mmap k) < 2 ^ 64)%N ->
  length B + length (concat (pop_batch o)) <= T -> length L + length (pop_batch o) <= n ->
  left_on_disk k dk s o -> torn_free dk s o ->
  exists s' B' L', pop_apply k dk s o = Ok s' /\ pinv k s' B' L' T n /\
    length B' <= length B + length (concat (pop_batch o)) /\ length L' <= length L + length (pop_batch o) /\
    plog_step (map snd L) o (map snd L') /\ L `prefix_of` L'.
Proof.
  intros Hk (Hs1 & Hs2 & Hpg) H FT Fn HB HL Hleft Htorn. assert (Hdb := pi_db _ _ _ _ _ _ H). assert (Hsz := pi_sized _ _ _ _ _ _ H).
  destruct o as [recs| |recs p|recs m df xf]; cbn [pop_batch] in *.
  - (* append *)
    destruct (files_op_ok k (ps_db s) B L (FAppend recs) T n Hk Hdb Hsz FT Fn HB HL ltac:(discriminate)) as (d' & B' & L' & E & Hok & Hsz' & HB' & HL' & Hst & _ & Hpre & Hpl).
    cbn [op_batch] in HB', HL'. cbn [files_op] in E. cbn [pop_apply]. destruct (db_append k no_faults no_faults (ps_db s) recs) as [d1 r] eqn:Ea.
    destruct (contents_at k dk s recs MIndex) as [dv xv] eqn:Ec.
    destruct (contents_good k dk s B L T n recs Hk Hpg H HB HL MIndex) as [Hcd Hcx]. rewrite Ec in Hcd, Hcx. simpl in Hcd, Hcx.
    assert (Hplog : plog_step (map snd L) (PAppend recs) (map snd L')) by (inversion Hst; subst; constructor; assumption).
    assert (Hfin : pinv k (PState d1 dv (if refused recs then xv else flushed dk (d_idx d1) xv)) B' L' T n).
    { assert (d1 = d') as -> by (destruct r; congruence).
      destruct (refused recs) eqn:Er.
      - assert (L' = L) as ->.
        { assert (G := refused_has_empty _ Er). destruct G as [->|G]; [rewrite (Hpl eq_refl); simpl; apply app_nil_r|].
          assert (Hfit2 : db_append k no_faults no_faults (ps_db s) recs = (ps_db s, Err EmptyRecord)).
          { assert (Hex : existsb (fun r => length r =? 0) recs = true).
            { destruct (existsb (fun r => length r =? 0) recs) eqn:Ee; [reflexivity|]. apply existsb_empty, has_empty_false in Ee. congruence. }
            unfold db_append, flat_append. destruct recs as [|r0 recs']; [discriminate G|]. cbn iota. rewrite Hex. destruct (ps_db s); reflexivity. }
          rewrite Hfit2 in Ea. injection Ea as <- <-.
          destruct Hpre as [P ->].
          assert (HR : length (map snd (L ++ P)) = length (map snd L)) by (inversion Hst; subst; [congruence|congruence]).
          rewrite !map_length, app_length in HR. destruct P as [|p0 P]; [apply app_nil_r|simpl in HR; lia]. }
        unfold pending in Hcd, Hcx. rewrite Er in Hcd, Hcx. rewrite app_nil_r in Hcd. split; auto. cbn [ps_idx].
        eapply Forall_impl; [exact Hcx|]. intros v (q & G). rewrite take_nil_any, app_nil_r in G. exact G.
      - assert (Hre := Er). apply refused_spec in Er as [Hne Hall]. rewrite (Hpl (proj2 (has_empty_false _) Hall)) in *.
        unfold pending in Hcd, Hcx. rewrite Hre in Hcd, Hcx. split; auto. cbn [ps_idx].
        destruct (files_some k s B L T n H) as (f0 & x0 & Hf0 & Hx0).
        assert (Hfit : fits (B ++ concat recs) (L ++ place (length B) recs)) by (split; rewrite app_length; rewrite ?place_length; lia).
        destruct (db_append_parts k _ B L recs d' r f0 x0 Hk Hdb Hne Hall Hfit Hf0 Hx0 Ea) as [_ Hcov].
        eapply (flushed_forall dk _ _ _ _ (fun v => exists q, xgood (L ++ take q (place (length B) recs)) (16 * n + min_mmap k) v)); [exact Hcov| |exact Hcx].
        intros F off len v HF H1 H2 (q & G). eapply synced_x; [exact Hpg| |exact G|lia|rewrite place_length; lia].
        destruct Hsz' as (df' & xf' & Ef' & S1 & S2). destruct (db_files_ok _ _ _ _ _ Hok Ef') as (Hfo & _).
        unfold db_files in Ef'. injection Ef' as _ Ex'. rewrite HF in Ex'. injection Ex' as ->.
        split; [apply (fo_idx _ _ _ Hfo)|apply (fo_ilen _ _ _ Hfo)|apply (fo_tail _ _ _ Hfo)|exact S2]. }
    destruct r as [r|e|]; [| |discriminate E]; (eexists _, B', L'; split; [reflexivity|]; split; [exact Hfin|]; auto).
  - (* reopen *)
    destruct (files_op_ok k (ps_db s) B L FReopen T n Hk Hdb Hsz FT Fn HB HL ltac:(discriminate)) as (d' & B' & L' & E & Hok & Hsz' & HB' & HL' & Hst & _ & Hpre & _).
    cbn [op_batch] in *. cbn [files_op] in E. cbn [pop_apply].
    destruct (contents_good k dk s B L T n [] Hk Hpg H HB HL MDrop) as [Hcd Hcx].
    destruct (db_files (db_drop (ps_db s))) as [DF IF]. destruct (contents_at k dk s [] MDrop) as [dv xv]. rewrite E.
    assert (L' = L) as ->.
    { destruct Hpre as [P ->]. simpl in HL'. rewrite app_length in HL'. destruct P; [apply app_nil_r|simpl in HL'; lia]. }
    eexists _, B', L. split; [reflexivity|]. split; [|split; [exact HB'|split; [exact HL'|split; [constructor|reflexivity]]]].
    unfold pending in *. simpl in Hcd, Hcx. rewrite app_nil_r in Hcd. split; auto. cbn [ps_idx].
    eapply Forall_impl; [exact Hcx|]. intros v (q & G). rewrite take_nil_any, app_nil_r in G. exact G.
  - (* the process dies *)
    cbn [torn_free] in Htorn.
    destruct (files_op_ok k (ps_db s) B L (FCrash recs p) T n Hk Hdb Hsz FT Fn HB HL ltac:(discriminate)) as (d' & B' & L' & E & Hok & Hsz' & HB' & HL' & Hst & _ & Hpre & Hpl).
    cbn [op_batch] in *. cbn [files_op] in E. cbn [pop_apply]. rewrite Htorn, take_0 in Hpl. cbn [place] in Hpl. rewrite app_nil_r in Hpl. subst L'.
    destruct (crash_good k s B L T n recs Hk H HB HL p) as (df & xf & m & Ecf & Gd & Gx & Hm). rewrite Ecf in E |- *.
    rewrite Htorn, take_0 in Hm. rewrite (kept_none _ _ m Hm), app_nil_r in Gd, Gx.
    assert (Hkill : Forall (dgood L (T + min_mmap k)) (fst (contents_killed k dk s recs p)) /\
                    Forall (xgood L (16 * n + min_mmap k)) (snd (contents_killed k dk s recs p))).
    { assert (Hcd : forall mm, Forall (dgood L (T + min_mmap k)) (fst (contents_at k dk s recs mm))).
      { intro mm. destruct (contents_good k dk s B L T n recs Hk Hpg H HB HL mm) as [G _]. eapply Forall_impl; [exact G|]. intros v Hv. eapply dgood_app. exact Hv. }
      assert (Hcx : forall mm, mm <> MIndex -> Forall (xgood L (16 * n + min_mmap k)) (snd (contents_at k dk s recs mm))).
      { intros mm Hmm. destruct (contents_good k dk s B L T n recs Hk Hpg H HB HL mm) as [_ G]. eapply Forall_impl; [exact G|]. intros v (q & Hv).
        assert (Hp0 : pending (length B) recs mm = []) by (unfold pending; destruct (refused recs), mm; congruence).
        rewrite Hp0, take_nil_any, app_nil_r in Hv. exact Hv. }
      assert (Hix := pi_idx _ _ _ _ _ _ H).
      destruct p as [gp| | |w|]; cbn [contents_killed fst snd].
      - split; [apply Hcd|apply Hcx; discriminate].
      - split; [apply Hcd|exact Hix].
      - split; [apply Hcd|exact Hix].
      - split; [apply Hcd|]. destruct (refused recs); [exact Hix|]. apply Forall_app. split; [exact Hix|]. eapply index_contents_none; eauto.
      - split; [apply Hcd|apply Hcx; discriminate]. }
    destruct Hkill as [Hkd Hkx]. destruct (contents_killed k dk s recs p) as [dv xv]. simpl in Hkd, Hkx. rewrite E.
    eexists _, B', L. split; [reflexivity|]. split; [|split; [exact HB'|split; [exact HL'|split; [constructor|reflexivity]]]].
    split; auto; cbn [ps_data ps_idx opt_list]; apply Forall_app; (split; [assumption|]); (constructor; [assumption|constructor]).
  - (* the power fails *)
    cbn [left_on_disk torn_free] in *. destruct Hleft as [Hld Hlx].
    destruct (contents_good k dk s B L T n recs Hk Hpg H HB HL m) as [Hcd Hcx].
    assert (Gd := surv_d _ _ _ _ _ Hcd Hld).
    destruct (surv_batch (dk_sector dk) L (pending (length B) recs m) (16 * n + min_mmap k) _ xf Hs1 Hcx Hlx) as (q & Gx).
    { unfold pending. destruct (refused recs) eqn:Er; [congruence|]. destruct m; try congruence. intros _.
      apply refused_spec in Er as [Hne Hall]. apply has_empty_false in Hall. destruct Htorn as [G|[G|Htorn]]; [congruence..|].
      unfold one_sector in Htorn. rewrite (db_len_ok _ _ _ Hdb) in Htorn. rewrite place_length. exact Htorn. }
    set (P := take q (pending (length B) recs m)) in *.
    assert (HP : exists kept, P = place (length B) kept /\ kept `prefix_of` recs /\ (kept = [] \/ (m = MIndex /\ has_empty recs = false))).
    { unfold P, pending. destruct (refused recs) eqn:Er; [exists []; rewrite take_nil_any; split; [reflexivity|]; split; [apply prefix_nil|auto]|].
      destruct m; try (exists []; rewrite take_nil_any; split; [reflexivity|]; split; [apply prefix_nil|auto]; fail).
      exists (take q recs). rewrite place_take. split; [reflexivity|]. split; [exists (drop q recs); symmetry; apply take_drop|]. right. split; [reflexivity|].
      apply refused_spec in Er as [_ Hall]. apply has_empty_false. exact Hall. }
    destruct HP as (kept & HPk & Hkp & Hkm).
    assert (Hkl : length kept <= length recs) by (apply prefix_length; exact Hkp).
    assert (Hkc : length (concat kept) <= length (concat recs)).
    { destruct Hkp as [rest ->]. rewrite concat_app, app_length. lia. }
    assert (Hfo : files_ok df xf (L ++ P)).
    { split; [apply (xg_idx _ _ _ Gx)|apply (xg_len _ _ _ Gx)|apply (xg_tail _ _ _ Gx)| |].
      - destruct Gd as [Gd _]. apply Forall_app in Gd as [Gd1 Gd2]. apply Forall_app. split; [exact Gd1|]. unfold P.
        rewrite <- (take_drop q (pending (length B) recs m)) in Gd2. apply Forall_app in Gd2 as [Gd2 _]. exact Gd2.
      - rewrite HPk. apply ordered_place; [apply (do_in _ _ _ Hdb)|apply (do_ord _ _ _ Hdb)]. }
    assert (Sd : length df <= T + min_mmap k) by apply Gd. assert (Sx := xg_max _ _ _ Gx).
    destruct (db_new_ok df xf (L ++ P) Hfo ltac:(split; lia)) as (d' & E & Hok & Hfi).
    cbn [pop_apply]. rewrite E. eexists _, (take (log_end (L ++ P)) df), (L ++ P). split; [reflexivity|]. split; [|split; [|split; [|split]]].
    + split; cbn [ps_db ps_data ps_idx].
      * exact Hok.
      * exists df, xf. auto.
      * constructor; [|constructor]. split; [apply (fo_in _ _ _ Hfo)|exact Sd].
      * constructor; [exact Gx|constructor].
    + rewrite take_length. assert (log_end (L ++ P) <= length B + length (concat recs)); [|lia].
      unfold log_end. destruct (last (L ++ P)) as [p0|] eqn:Ep; [|lia]. apply last_Some_elem_of in Ep. apply elem_of_app in Ep as [Ep|Ep].
      * pose proof (do_in _ _ _ Hdb) as G. rewrite Forall_forall in G. destruct (G _ Ep) as (_ & G1 & _). lia.
      * rewrite HPk in Ep. apply place_ge in Ep. lia.
    + rewrite app_length, HPk, place_length. lia.
    + rewrite map_app, HPk, place_snd. destruct Hkm as [->|[-> Hem]]; [rewrite app_nil_r; constructor|]. apply pl_power_some; assumption.
    + apply prefix_app_r. reflexivity.
Qed.

(** ** whole histories *)
Definition pbatches (h : list pop) : list (list N) := concat (map pop_batch h).

Lemma prun_ok k dk T n : cfg_ok k -> sector_aligned dk -> (N.of_nat (T + min_mmap k) < 2 ^ 64)%N -> (N.of_nat (16 * n + min_mmap k) < 2 ^ 64)%N ->
  forall h s B L, pinv k s B L T n -> along k dk (left_on_disk k dk) s h -> along k dk (torn_free dk) s h ->
  length B + length (concat (pbatches h)) <= T -> length L + length (pbatches h) <= n ->
  exists s' B' L', prun k dk s h = Ok s' /\ pinv k s' B' L' T n /\
    length B' <= length B + length (concat (pbatches h)) /\ length L' <= length L + length (pbatches h) /\
    plog_after (map snd L) h (map snd L') /\ L `prefix_of` L'.
Proof.
  intros Hk Hdk FT Fn. induction h as [|o h IH]; intros s B L H Hl Ht HB HL.
  - exists s, B, L. unfold pbatches. simpl. split; [reflexivity|]. split; [exact H|]. split; [lia|]. split; [lia|]. split; [constructor|reflexivity].
  - unfold pbatches in *. cbn [map concat] in *. rewrite concat_app, !app_length in *. destruct Hl as [Hl1 Hl2]. destruct Ht as [Ht1 Ht2].
    destruct (pop_ok k dk s o B L T n Hk Hdk H FT Fn) as (s1 & B1 & L1 & E1 & H1 & LB1 & LL1 & St1 & P1); try lia; auto.
    rewrite E1 in Hl2, Ht2.
    destruct (IH s1 B1 L1 H1 Hl2 Ht2) as (s2 & B2 & L2 & E2 & H2 & LB2 & LL2 & St2 & P2); try lia.
    exists s2, B2, L2. cbn [prun]. rewrite E1. split; [exact E2|]. split; [exact H2|]. split; [lia|]. split; [lia|].
    split; [econstructor; eauto|]. etrans; eauto.
Qed.

Lemma pinv_empty k T n : exists d, db_new (Some []) (Some []) = Ok d /\ pinv k (PState d [[]] [[]]) [] [] T n.
Proof.
  destruct (open_empty k T n) as (d & E & H & S). exists d. split; [exact E|]. split; auto; cbn [ps_data ps_idx]; (constructor; [|constructor]).
  - split; [constructor|simpl; lia].
  - apply xgood_intro; simpl; lia.
Qed.

(** ** a batch over several sectors *)
Lemma idx_new_any f : length f mod 16 = 0 -> (N.of_nat (length f) < 2 ^ 64)%N ->
  exists ap m, idx_new (Some f) = Ok ap /\ ap_ok ap (take (16 * m) f) /\ aligned (ap_mmap ap) /\ g_file (ap_mmap ap) = Some f /\ 16 * m <= length f /\
    (0 < m -> from_le (sub f (16 * (m - 1) + 8) 8) <> 0%N) /\ (16 * m < length f -> from_le (sub f (16 * m + 8) 8) = 0%N).
Proof.
  intros Hal Hfit. apply Nat.mod_divides in Hal as [len Hlen]; [|lia].
  unfold idx_new, appender_new. rewrite gmm_new_none_ok.
  destruct (gmm_new_ok f (length f)) as (g & -> & Hg & Hgf & Hgb); [lia|]. rewrite firstn_all in Hg.
  set (ap := Appender g (gmm_len g)).
  assert (Hap : ap_ok ap f) by (split; [exact Hg|apply (gmm_len_ok _ _ Hg)]).
  assert (Hala : aligned (ap_mmap ap)) by (intros x Hx; apply Hgb in Hx as ->; rewrite Hlen; apply mod16_mul).
  assert (Hil : idx_len ap = len).
  { unfold idx_len. rewrite (ap_sz _ _ Hap), Hlen, Nat.div_div by lia. change (8 * 2) with 16. rewrite Nat.mul_comm. apply Nat.div_mul. lia. }
  assert (Hat : forall i, i < len -> idx_length_at ap i = Ok (from_le (sub f (16 * i + 8) 8))).
  { intros i Hi. unfold idx_length_at. destruct (idx_get_raw ap f i Hg Hala) as [-> _]; [lia|lia|reflexivity]. }
  unfold idx_last. rewrite Hil. destruct (len =? 0) eqn:E0.
  { apply Nat.eqb_eq in E0. exists ap, 0. split; [reflexivity|]. rewrite E0, Nat.mul_0_r in Hlen. apply nil_length_inv in Hlen as ->. split; [exact Hap|]. split; [exact Hala|].
    split; [exact Hgf|]. split; [simpl; lia|]. split; simpl; lia. }
  apply Nat.eqb_neq in E0. destruct (idx_get_raw ap f (len - 1) Hg Hala) as [-> _]; [lia|lia|].
  destruct (N.eqb (from_le (sub f (16 * (len - 1) + 8) 8)) 0) eqn:El.
  - apply N.eqb_eq in El. unfold idx_find_end. rewrite Hil.
    destruct (find_end_spec (idx_length_at ap) (fun i => from_le (sub f (16 * i + 8) 8)) len ltac:(lia) Hat) as (m & r & -> & Hm & H1 & H2 & _).
    replace (2 * 8 * m) with (16 * m) by lia.
    destruct (gmm_new_ok f (16 * m)) as (g2 & -> & Hg2 & Hgf2 & Hgb2); [lia|]. exists (Appender g2 (gmm_len g2)), m. split; [reflexivity|].
    split; [split; [exact Hg2|apply (gmm_len_ok _ _ Hg2)]|]. split; [intros x Hx; apply Hgb2 in Hx as ->; apply mod16_mul|].
    split; [exact Hgf2|]. split; [lia|]. split; [exact H1|]. intro Hlt. apply H2. lia.
  - apply N.eqb_neq in El. exists ap, len. split; [reflexivity|]. rewrite take_ge by lia. split; [exact Hap|]. split; [exact Hala|].
    split; [exact Hgf|]. split; [lia|]. split; [intros _; exact El|lia].
Qed.

(** entry [j] of the file is that of the record [p] *)
Definition entry_of (f : list N) (j : nat) (p : placed) : Prop :=
  sub f (16 * j) 8 = to_le 8 (N.of_nat p.1) /\ sub f (16 * j + 8) 8 = to_le 8 (N.of_nat (length p.2)).

Lemma ibytes_entry Q j p : Q !! j = Some p -> entry_of (ibytes Q) j p.
Proof.
  intro Hj. assert (He : ents Q !! j = Some (p.1, length p.2)) by (unfold ents; rewrite list_lookup_fmap, Hj; reflexivity).
  destruct (entries_lookup _ _ _ He) as [E1 E2]. split; assumption.
Qed.

Lemma torn_open df xf L Q :
  length xf mod 16 = 0 -> files_fit df xf -> Forall (in_data df) Q -> ordered_from 0 Q -> L `prefix_of` Q -> 16 * length L <= length xf ->
  (forall j p, L !! j = Some p -> entry_of xf j p) ->
  (forall j, length L <= j -> 16 * j + 16 <= length xf -> from_le (sub xf (16 * j + 8) 8) = 0%N \/ exists p, Q !! j = Some p /\ entry_of xf j p) ->
  exists d, db_new (Some df) (Some xf) = Ok d /\ length L <= db_len d <= length Q /\
    (forall s p, L !! N.to_nat s = Some p -> db_get d s = Ok (Some p.2)) /\
    (forall s, (s < N.of_nat (db_len d))%N -> db_get d s = Ok (snd <$> Q !! N.to_nat s) \/ db_get d s = Ok (Some []) \/ db_get d s = Ok None).
Proof.
  intros Hmod [Fd Fx] Hin Hord Hpre Hlen HL Hrest. unfold db_new.
  destruct (idx_new_any xf Hmod Fx) as (ap & m & -> & [Hg Hs] & Hal & Hf & Hm & Hm1 & Hm2).
  apply Nat.mod_divides in Hmod as [c Hc]; [|lia].
  assert (Htl : length (take (16 * m) xf) = 16 * m) by (rewrite take_length; lia).
  unfold idx_is_correct. rewrite Hs, Htl, mod16_mul. simpl (0 =? 0). cbn iota.
  assert (Hil : idx_len ap = m).
  { unfold idx_len. rewrite Hs, Htl, Nat.div_div by lia. change (8 * 2) with 16. rewrite Nat.mul_comm. apply Nat.div_mul. lia. }
  assert (Hword : forall j p, Q !! j = Some p -> entry_of xf j p ->
     from_le (sub xf (16 * j) 8) = N.of_nat p.1 /\ from_le (sub xf (16 * j + 8) 8) = N.of_nat (length p.2) /\ p.2 <> []).
  { intros j p Hj [E1 E2]. rewrite E1, E2. rewrite Forall_forall in Hin. destruct (Hin p (elem_of_list_lookup_2 _ _ _ Hj)) as (G1 & G2 & _).
    unfold p_end in G2. rewrite !from_to_le_8 by lia. auto. }
  assert (HLQ : forall j p, L !! j = Some p -> Q !! j = Some p) by (intros j p Hj; eapply prefix_lookup; eauto).
  assert (Hge : length L <= m).
  { destruct (decide (length L <= m)); [assumption|exfalso]. destruct (lookup_lt_is_Some_2 L m) as [p Hp]; [lia|].
    destruct (Hword m p (HLQ _ _ Hp) (HL _ _ Hp)) as (_ & G & Hne). rewrite Hm2 in G by lia. destruct (p.2); [congruence|simpl in G; lia]. }
  (* the entry at the end is complete *)
  assert (Hlast : forall j, j + 1 = m -> exists p, Q !! j = Some p /\ entry_of xf j p).
  { intros j Hj. destruct (decide (j < length L)) as [Hlt|Hnlt].
    - destruct (lookup_lt_is_Some_2 L j Hlt) as [p Hp]. exists p. auto.
    - destruct (Hrest j ltac:(lia) ltac:(lia)) as [G|G]; [|exact G]. exfalso. apply Hm1; [lia|]. replace (m - 1) with j by lia. exact G. }
  assert (Hex : exists l e, idx_last ap = Ok l /\ N.to_nat (match l with None => 0%N | Some (o, n) => (o + n)%N end) = e /\ e <= length df /\
      (forall i q, i < m -> Q !! i = Some q -> p_end q <= e)).
  { unfold idx_last. rewrite Hil. destruct (m =? 0) eqn:E.
    - apply Nat.eqb_eq in E. exists None, 0. split; [reflexivity|]. split; [reflexivity|]. split; [lia|]. intros i q Hi. lia.
    - apply Nat.eqb_neq in E. destruct (Hlast (m - 1) ltac:(lia)) as (p & Hp & He).
      destruct (idx_get_raw ap (take (16 * m) xf) (m - 1) Hg Hal) as [-> _]; [rewrite Htl; lia|lia|].
      rewrite !sub_take by lia. destruct (Hword _ _ Hp He) as (-> & -> & _).
      eexists _, (p_end p). split; [reflexivity|]. split; [unfold p_end; lia|].
      rewrite Forall_forall in Hin. destruct (Hin p (elem_of_list_lookup_2 _ _ _ Hp)) as (_ & G & _). split; [exact G|].
      intros i q Hlt Hi2.
      (* entries are in order *)
      assert (Hpq : take m Q !! i = Some q) by (rewrite lookup_take by lia; exact Hi2).
      assert (Hordm : ordered_from 0 (take m Q)).
      { rewrite <- (take_drop m Q) in Hord. apply ordered_app in Hord as [G1 _]. exact G1. }
      assert (Hle := ordered_le_end 0 _ Hordm q (elem_of_list_lookup_2 _ _ _ Hpq)). unfold log_end in Hle. rewrite last_lookup, take_length in Hle.
      assert (Hmq := lookup_lt_Some _ _ _ Hp). rewrite lookup_take in Hle by lia.
      replace (Nat.pred (Nat.min m (length Q))) with (m - 1) in Hle by lia. rewrite Hp in Hle. exact Hle. }
  destruct Hex as (l & e & -> & -> & He & HLe). unfold appender_new.
  destruct (gmm_new_ok df e He) as (g & -> & Hg2 & Hgf & Hgb).
  eexists. split; [reflexivity|]. unfold db_len. cbn [d_idx]. rewrite Hil.
  assert (HmQ : m <= length Q).
  { destruct m; [lia|]. destruct (Hlast m ltac:(lia)) as (p & Hp & _). apply lookup_lt_Some in Hp. lia. }
  split; [lia|].
  assert (Hget : forall s, (s < N.of_nat m)%N -> idx_get ap s = Ok (Some (from_le (sub xf (16 * N.to_nat s) 8), from_le (sub xf (16 * N.to_nat s + 8) 8)))).
  { intros s Hss. rewrite <- (N2Nat.id s) at 1. destruct (idx_get_raw ap (take (16 * m) xf) (N.to_nat s) Hg Hal) as [-> _]; [rewrite Htl; lia|lia|].
    rewrite !sub_take by lia. reflexivity. }
  assert (Hdata : forall p, in_data df p -> p_end p <= e -> 
     flat_get (Appender g (gmm_len g)) (N.of_nat p.1) (N.of_nat (length p.2)) = Ok (Some p.2)).
  { intros p (Hne & Hle & Hsub) Hpe. unfold flat_get. cbn [ap_mmap]. rewrite Nat2N.id. unfold p_end in *.
    assert (0 < length p.2) by (destruct (p.2); [congruence|simpl; lia]).
    assert (Hte : length (take e df) = e) by (rewrite take_length; lia).
    destruct (get_ref_in g (take e df) p.1 Hg2) as (n & Hn & Hl & Hb & ->); [lia|].
    apply Hgb in Hb. rewrite Hb in *. rewrite sub_length by lia.
    destruct (N.of_nat n <? N.of_nat (length p.2))%N eqn:E; [apply N.ltb_lt in E; lia|].
    rewrite Nat2N.id, take_sub, Nat.min_l by lia. rewrite sub_take by lia. rewrite Hsub. reflexivity. }
  split.
  - intros s p Hp. assert (Hlt := lookup_lt_Some _ _ _ Hp). unfold db_get. cbn [d_idx d_data]. rewrite Hget by lia.
    destruct (Hword _ _ (HLQ _ _ Hp) (HL _ _ Hp)) as (-> & -> & _). apply Hdata; [|eapply HLe; [|apply HLQ; exact Hp]; lia].
    rewrite Forall_forall in Hin. apply Hin. eapply elem_of_list_lookup_2; eauto.
  - intros s Hss. unfold db_get. cbn [d_idx d_data]. rewrite Hget by exact Hss.
    assert (Hcase : from_le (sub xf (16 * N.to_nat s + 8) 8) = 0%N \/ exists p, Q !! N.to_nat s = Some p /\ entry_of xf (N.to_nat s) p).
    { destruct (decide (N.to_nat s < length L)) as [Hlt|Hnlt]; [|apply Hrest; lia].
      destruct (lookup_lt_is_Some_2 L _ Hlt) as [p Hp]. right. exists p. auto. }
    destruct Hcase as [Hz|(p & Hp & Hent)].
    + rewrite Hz. right. unfold flat_get. cbn [ap_mmap]. set (o := N.to_nat (from_le (sub xf (16 * N.to_nat s) 8))).
      destruct (decide (o < length (take e df))) as [Ho|Ho].
      * left. destruct (get_ref_in g _ o Hg2 Ho) as (n & Hn & Hl & Hb & ->). destruct (N.of_nat _ <? 0)%N eqn:E; [apply N.ltb_lt in E; lia|reflexivity].
      * right. rewrite (get_ref_out g _ o Hg2) by lia. reflexivity.
    + left. destruct (Hword _ _ Hp Hent) as (-> & -> & _). rewrite Hp. cbn [fmap option_fmap option_map].
      rewrite Forall_forall in Hin. assert (Hinp := Hin p (elem_of_list_lookup_2 _ _ _ Hp)). apply Hdata; [exact Hinp|].
      eapply HLe; [|exact Hp]. lia.
Qed.

Lemma sector_entry sec j t : 0 < sec -> sec mod 16 = 0 -> t < 16 -> (16 * j + t) / sec = 16 * j / sec.
Proof.
  intros Hs Hm Ht. apply Nat.mod_divides in Hm as [c ->]; [|lia].
  rewrite <- !Nat.div_div by lia. f_equal.
  rewrite !(Nat.mul_comm 16 j), Nat.div_add_l, Nat.div_mul, (Nat.div_small t) by lia. lia.
Qed.

(** what the index file may hold after a power failure, entry by entry *)
Lemma surv_entries sec L P X vs f : 0 < sec -> sec mod 16 = 0 ->
  Forall (fun v => exists q, xgood (L ++ take q P) X v) vs -> survives sec vs f ->
  length f mod 16 = 0 /\ length f <= X /\ 16 * length L <= length f /\
  (forall j p, L !! j = Some p -> entry_of f j p) /\
  (forall j, length L <= j -> 16 * j + 16 <= length f -> from_le (sub f (16 * j + 8) 8) = 0%N \/ exists p, (L ++ P) !! j = Some p /\ entry_of f j p).
Proof.
  intros Hsec Hs16 Hvs [(v0 & Hv0 & Hl) Hb]. rewrite Forall_forall in Hvs. destruct (Hvs v0 Hv0) as (q1 & Hg1).
  assert (Hmod : length f mod 16 = 0) by (rewrite Hl; apply (xg_tail _ _ _ Hg1)).
  assert (Hmin : 16 * length L <= length f).
  { rewrite Hl. pose proof (xg_len _ _ _ Hg1) as G. rewrite app_length in G. lia. }
  split; [exact Hmod|]. split; [rewrite Hl; apply (xg_max _ _ _ Hg1)|]. split; [exact Hmin|].
  (* an entry comes whole from one content *)
  assert (Hent : forall j, 16 * j + 16 <= length f -> exists v q, xgood (L ++ take q P) X v /\
     forall t, t < 16 -> f !! (16 * j + t) = Some (default 0%N (v !! (16 * j + t)))).
  { intros j Hj. destruct (Hb (16 * j / sec)) as (v & Hv & Hvb). destruct (Hvs v Hv) as (q & Hg). exists v, q. split; [exact Hg|].
    intros t Ht. destruct (lookup_lt_is_Some_2 f (16 * j + t)) as [b Eb]; [lia|]. rewrite Eb. f_equal. symmetry. eapply Hvb; [|exact Eb]. apply sector_entry; assumption. }
  assert (Hcopy : forall j v q p, xgood (L ++ take q P) X v -> (L ++ take q P) !! j = Some p ->
     (forall t, t < 16 -> f !! (16 * j + t) = Some (default 0%N (v !! (16 * j + t)))) -> entry_of f j p).
  { intros j v q p Hg Hp Ht. assert (Hlt := lookup_lt_Some _ _ _ Hp).
    assert (Hbyte : forall t, t < 16 -> f !! (16 * j + t) = ibytes (L ++ take q P) !! (16 * j + t)).
    { intros t Hlt2. rewrite (Ht t Hlt2), (xgood_byte _ _ _ _ Hg) by lia.
      destruct (lookup_lt_is_Some_2 (ibytes (L ++ take q P)) (16 * j + t)) as [x ->]; [rewrite ibytes_length; lia|reflexivity]. }
    destruct (ibytes_entry _ _ _ Hp) as [E1 E2]. 
    assert (Hsub : forall o, o + 8 <= 16 -> sub f (16 * j + o) 8 = sub (ibytes (L ++ take q P)) (16 * j + o) 8).
    { intros o Ho. apply list_eq. intro i. destruct (decide (i < 8)) as [Hi|Hi].
      - rewrite !sub_lookup by exact Hi. replace (16 * j + o + i) with (16 * j + (o + i)) by lia. apply Hbyte. lia.
      - unfold sub. rewrite !lookup_take_ge by lia. reflexivity. }
    split; [specialize (Hsub 0 ltac:(lia)); rewrite Nat.add_0_r in Hsub; rewrite Hsub; exact E1|rewrite (Hsub 8) by lia; exact E2]. }
  split.
  - intros j p Hp. assert (Hlt := lookup_lt_Some _ _ _ Hp). destruct (Hent j ltac:(lia)) as (v & q & Hg & Ht).
    eapply Hcopy; [exact Hg| |exact Ht]. apply lookup_app_l_Some. exact Hp.
  - intros j Hj Hjl. destruct (Hent j Hjl) as (v & q & Hg & Ht). destruct ((L ++ take q P) !! j) as [p|] eqn:Ep.
    + right. exists p. split; [|eapply Hcopy; eauto]. rewrite lookup_app_r in Ep |- * by exact Hj. apply lookup_take_Some in Ep. apply Ep.
    + left. apply from_le_zero. intros r x Hx. assert (Hr := lookup_lt_Some _ _ _ Hx). rewrite sub_length in Hr by lia.
      rewrite sub_lookup in Hx by exact Hr. replace (16 * j + 8 + r) with (16 * j + (8 + r)) in Hx by lia. rewrite (Ht (8 + r)) in Hx by lia. apply (inj Some) in Hx as <-.
      replace (16 * j + (8 + r)) with (16 * j + 8 + r) by lia. apply lookup_ge_None in Ep.
      apply (tail_zero v (length (L ++ take q P))); [apply (xg_tail _ _ _ Hg)|exact Ep|exact Hr].
Qed.

Lemma any_batch_ok k dk s recs m df xf B L T n :
  cfg_ok k -> sector_aligned dk -> pinv k s B L T n ->
  (N.of_nat (T + min_mmap k) < 2 ^ 64)%N -> (N.of_nat (16 * n + min_mmap k) < 2 ^ 64)%N ->
  length B + length (concat recs) <= T -> length L + length recs <= n ->
  left_on_disk k dk s (PPower recs m df xf) ->
  exists d, db_new (Some df) (Some xf) = Ok d /\ length L <= db_len d <= length L + length recs /\
    (forall i r, map snd L !! N.to_nat i = Some r -> db_get d i = Ok (Some r)) /\
    (forall i, (i < N.of_nat (db_len d))%N -> db_get d i = Ok ((map snd L ++ recs) !! N.to_nat i) \/ db_get d i = Ok (Some []) \/ db_get d i = Ok None).
Proof.
  intros Hk (Hs1 & Hs2 & Hpg) H FT Fn HB HL [Hld Hlx]. assert (Hdb := pi_db _ _ _ _ _ _ H).
  destruct (contents_good k dk s B L T n recs Hk Hpg H HB HL m) as [Hcd Hcx].
  destruct (surv_d _ _ _ _ _ Hcd Hld) as [Gd Sd].
  destruct (surv_entries _ _ _ _ _ _ Hs1 Hs2 Hcx Hlx) as (Xm & Sx & Xl & Xe & Xr).
  set (P := pending (length B) recs m) in *.
  assert (HP : exists kept, P = place (length B) kept /\ kept `prefix_of` recs).
  { unfold P, pending. destruct (refused recs); [exists []; split; [reflexivity|apply prefix_nil]|].
    destruct m; try (exists []; split; [reflexivity|apply prefix_nil]). exists recs. split; reflexivity. }
  destruct HP as (kept & HPk & Hkp).
  destruct (torn_open df xf L (L ++ P)) as (d & E & [Hlen1 Hlen2] & Hread & Hextra); auto.
  - split; lia.
  - rewrite HPk. apply ordered_place; [apply (do_in _ _ _ Hdb)|apply (do_ord _ _ _ Hdb)].
  - apply prefix_app_r. reflexivity.
  - exists d. split; [exact E|]. split; [|split].
    + rewrite app_length, HPk, place_length in Hlen2. apply prefix_length in Hkp. lia.
    + intros i r Hr. rewrite list_lookup_fmap in Hr. destruct (L !! N.to_nat i) as [p|] eqn:Ep; [|discriminate]. injection Hr as <-. apply Hread. exact Ep.
    + intros i Hi. destruct (Hextra i Hi) as [G|G]; [left|auto]. rewrite G. f_equal. rewrite <- list_lookup_fmap. rewrite fmap_app, HPk.
      change (snd <$> place (length B) kept) with (map snd (place (length B) kept)). rewrite place_snd.
      change (snd <$> L) with (map snd L).
      assert (Hlt : N.to_nat i < length (map snd L ++ kept)).
      { rewrite app_length, map_length. rewrite app_length, HPk, place_length in Hlen2. lia. }
      destruct (lookup_lt_is_Some_2 _ _ Hlt) as [x Ex]. rewrite Ex. symmetry. eapply prefix_lookup; [exact Ex|]. apply prefix_app. exact Hkp.
Qed.
