From Coq Require Import Lia ZArith.
From stdpp Require Import numbers list.
From Verif Require Import FraosModel FraosSpec FraosProofs FraosLogProofs FraosCrashProofs.

Lemma has_empty_false recs : has_empty recs = false <-> Forall (fun r => r <> []) recs.
Proof.
  unfold has_empty. induction recs as [|r recs IH]; simpl; [split; [constructor|reflexivity]|].
  rewrite orb_false_iff, IH, Forall_cons. destruct r; split; intros [? ?]; split; try assumption; try discriminate; congruence.
Qed.

(** the invariant gives the observable contents *)
Lemma iter_ok d B L : db_ok d B L -> forall n s, N.to_nat s <= length L \/ (s < 2 ^ 60)%N ->
  iter_collect n d s = (map Ok (take n (drop (N.to_nat s) (map snd L))), length (drop (N.to_nat s) (map snd L)) <? n).
Proof.
  intros H. assert (HL : (N.of_nat (16 * length L) < 2 ^ 64)%N) by apply (do_fits _ _ _ H).
  change (2 ^ 64)%N with (16 * 2 ^ 60)%N in HL. induction n as [|n IH]; intros s Hs.
  - reflexivity.
  - cbn [iter_collect]. unfold iter_next. assert (Hs' : (s < 2 ^ 60)%N) by lia.
    destruct (L !! N.to_nat s) as [p|] eqn:E.
    + assert (G := idx_get_ok d B L _ p H E). rewrite N2Nat.id in G. rewrite G.
      rewrite (flat_get_ok d B L p H (elem_of_list_lookup_2 _ _ _ E)).
      assert (Hlt := lookup_lt_Some _ _ _ E).
      rewrite IH by lia. replace (N.to_nat (s + 1)) with (S (N.to_nat s)) by lia.
      assert (Em : map snd L !! N.to_nat s = Some p.2) by (rewrite list_lookup_fmap, E; reflexivity).
      rewrite (drop_S _ _ _ Em). simpl. reflexivity.
    + rewrite (idx_get_none (d_idx d) (ibytes L)); [|apply (do_idx _ _ _ H)| |].
      * apply lookup_ge_None in E. rewrite drop_ge by (rewrite map_length; exact E). reflexivity.
      * change (2 ^ 64)%N with (2 ^ 60 * 16)%N. lia.
      * rewrite ibytes_length. apply lookup_ge_None in E. lia.
Qed.

Lemma reads_ok d B L : db_ok d B L -> reads_as d (map snd L).
Proof.
  intro H. assert (HL : (N.of_nat (16 * length L) < 2 ^ 64)%N) by apply (do_fits _ _ _ H).
  change (2 ^ 64)%N with (16 * 2 ^ 60)%N in HL.
  assert (Hlen := db_len_ok _ _ _ H).
  assert (Hget : forall s, (s < 2 ^ 60)%N -> db_get d s = Ok (map snd L !! N.to_nat s)).
  { intros s Hs. rewrite (db_get_ok d B L s H Hs), list_lookup_fmap. reflexivity. }
  split; [rewrite map_length; exact Hlen|]. split; [unfold db_is_empty; rewrite Hlen; destruct L; reflexivity|].
  split; [exact Hget|]. split.
  - unfold db_last, db_is_empty. rewrite Hlen. destruct (length L =? 0) eqn:E0; [apply Nat.eqb_eq, nil_length_inv in E0 as ->; reflexivity|]. apply Nat.eqb_neq in E0.
    rewrite Hget by lia. rewrite last_lookup, map_length, Nat2N.id. do 2 f_equal. lia.
  - intros s n Hs. apply (iter_ok d B L H). lia.
Qed.

Lemma reads_length d R1 R2 : reads_as d R1 -> reads_as d R2 -> (N.of_nat (length R1) < 2 ^ 60)%N -> R1 = R2.
Proof.
  intros (H1 & _ & G1 & _) (H2 & _ & G2 & _) Hf. apply list_eq. intro i. destruct (decide (i < length R1)) as [Hi|Hi].
  - specialize (G1 (N.of_nat i) ltac:(lia)). rewrite (G2 (N.of_nat i) ltac:(lia)), Nat2N.id in G1. congruence.
  - rewrite !(proj2 (lookup_ge_None _ _)) by lia. reflexivity.
Qed.

(** without a failing append the records lie one after the other *)
Definition contig (B : list N) (L : list placed) : Prop := L = place 0 (map snd L) /\ B = concat (map snd L).

Lemma contig_append B L recs : contig B L -> contig (B ++ concat recs) (L ++ place (length B) recs).
Proof.
  intros [H1 H2]. unfold contig. rewrite map_app, place_snd, place_app, concat_app, <- H1, <- H2. auto.
Qed.

Lemma place_concat f R : Forall (in_data f) (place 0 R) -> take (length (concat R)) f = concat R.
Proof.
  enough (G : forall R o, o <= length f -> Forall (in_data f) (place o R) -> sub f o (length (concat R)) = concat R).
  { intro H. specialize (G R 0 ltac:(lia) H). unfold sub in G. rewrite drop_0 in G. exact G. }
  clear R. induction R as [|r R IH]; intros o Ho H; [apply sub_0|]. simpl in H. apply Forall_cons in H as [(_ & H1 & H2) H].
  unfold p_end in H1. simpl in *. specialize (IH (o + length r) H1 H). rewrite app_length.
  unfold sub in *. rewrite <- take_take_drop, H2, drop_drop, IH. reflexivity.
Qed.

Lemma place_log_end R : forall o, (match last (place o R) with Some p => p_end p | None => o end) = o + length (concat R).
Proof.
  induction R as [|r R IH]; intro o; [simpl; lia|]. cbn [place concat]. rewrite app_length. specialize (IH (o + length r)).
  destruct R as [|r' R]; [simpl in *; unfold p_end; simpl; lia|]. cbn [place] in *. rewrite last_cons_cons.
  destruct (last _) eqn:E; [lia|]. apply last_None in E. discriminate.
Qed.

Lemma log_end_place R : log_end (place 0 R) = length (concat R).
Proof. unfold log_end. exact (place_log_end R 0). Qed.

Lemma map_snd_take (L : list placed) m : map snd (take m L) = take m (map snd L).
Proof. apply fmap_take. Qed.

(** ** one operation *)
(** where an operation puts its records: those before stay where they are *)
Definition placed_step (b : nat) (L : list (nat * list N)) (o : fop) (L' : list (nat * list N)) : Prop :=
  L `prefix_of` L' /\
  match o with
  | FAppend recs => has_empty recs = false -> L' = L ++ place b recs
  | FCrash recs p => L' = L ++ place b (take (crash_kept recs p) recs)
  | _ => True
  end.

Lemma files_op_ok k d B L o T n :
  cfg_ok k -> db_ok d B L -> sized k d T n ->
  (N.of_nat (T + min_mmap k) < 2 ^ 64)%N -> (N.of_nat (16 * n + min_mmap k) < 2 ^ 64)%N ->
  length B + length (concat (op_batch o)) <= T -> length L + length (op_batch o) <= n ->
  (forall fd fi recs, o = FAppendFail fd fi recs -> no_late_faults fd /\ no_late_faults fi) ->
  exists d' B' L', files_op k d o = Ok d' /\ db_ok d' B' L' /\ sized k d' T n /\
    length B' <= length B + length (concat (op_batch o)) /\ length L' <= length L + length (op_batch o) /\
    log_step (map snd L) o (map snd L') /\
    ((forall fd fi recs, o <> FAppendFail fd fi recs) -> contig B L -> contig B' L') /\
    placed_step (length B) L o L'.
Proof.
  intros Hk H Hs FT Fn HB HL Hfl.
  assert (Happ : forall fd fi recs d' r, o = FAppend recs /\ fd = no_faults /\ fi = no_faults \/ o = FAppendFail fd fi recs ->
    db_append k fd fi d recs = (d', r) -> exists d' B' L', match db_append k fd fi d recs with (_, Panic) => Panic | (d', _) => Ok d' end = Ok d' /\ db_ok d' B' L' /\ sized k d' T n /\
    length B' <= length B + length (concat (op_batch o)) /\ length L' <= length L + length (op_batch o) /\
    log_step (map snd L) o (map snd L') /\
    ((forall fd fi recs, o <> FAppendFail fd fi recs) -> contig B L -> contig B' L') /\ placed_step (length B) L o L').
  { intros fd fi recs d' r Ho E. assert (Hb : op_batch o = recs) by (destruct Ho as [(-> & _)| ->]; reflexivity). rewrite Hb in *.
    assert (Hff : no_late_faults fd /\ no_late_faults fi).
    { destruct Ho as [(_ & -> & ->)|Ho]; [split; repeat split|eauto]. }
    destruct Hff as [Hfd Hfi]. rewrite E.
    assert (Hsz := append_sized k fd fi d B L recs d' r T n H Hfd Hfi Hs HB HL E).
    assert (Hfit : fits (B ++ concat recs) (L ++ place (length B) recs)).
    { split; rewrite app_length; rewrite ?place_length; lia. }
    assert (Hplus : length (L ++ place (length B) recs) <= length L + length recs) by (rewrite app_length, place_length; lia).
    assert (HplusB : length (B ++ concat recs) <= length B + length (concat recs)) by (rewrite app_length; lia).
    destruct (db_append_ok k fd fi d B L recs d' r Hk H Hfd Hfi Hfit E) as
      [(-> & -> & ->)|[(_ & Hem & -> & ->)|[(_ & Hne & -> & Hok)|(_ & Hne & -> & Hok & Hnf)]]].
    - exists d, B, L. split; [reflexivity|]. split; [exact H|]. split; [exact Hs|]. split; [lia|]. split; [lia|]. split; [|split; [auto|split; [reflexivity|]]].
      2:{ destruct Ho as [(-> & _)| ->]; [|exact I]. intros _. simpl. symmetry. apply app_nil_r. }
      destruct Ho as [(-> & _)| ->]; [|constructor]. replace (map snd L) with (map snd L ++ []) at 2 by apply app_nil_r. constructor. reflexivity.
    - exists d, B, L. split; [reflexivity|]. split; [exact H|]. split; [exact Hs|]. split; [lia|]. split; [lia|].
      assert (Hee : has_empty recs = true) by (destruct (has_empty recs) eqn:Ee; [reflexivity|]; apply has_empty_false in Ee; tauto).
      split; [|split; [auto|split; [reflexivity|]]].
      2:{ destruct Ho as [(-> & _)| ->]; [|exact I]. congruence. }
      destruct Ho as [(-> & _)| ->]; [|constructor]. apply ls_refused. exact Hee.
    - exists d', (B ++ concat recs), (L ++ place (length B) recs). split; [reflexivity|]. split; [exact Hok|]. split; [exact Hsz|].
      split; [exact HplusB|]. split; [exact Hplus|]. split; [|split; [intros _; apply contig_append|split; [apply prefix_app_r; reflexivity|destruct Ho as [(-> & _)| ->]; [reflexivity|exact I]]]].
      rewrite map_app, place_snd. apply has_empty_false in Hne. destruct Ho as [(-> & _)| ->]; constructor; exact Hne.
    - destruct Ho as [(-> & -> & ->)| ->]; [tauto|].
      destruct Hok as [Hok|Hok]; [exists d', B, L|exists d', (B ++ concat recs), L]; (split; [reflexivity|]); (split; [exact Hok|]); (split; [exact Hsz|]);
        (split; [lia|]); (split; [lia|]); (split; [constructor|]); (split; [|split; [reflexivity|exact I]]); intro G; exfalso; eapply G; reflexivity. }
  assert (Hnew : forall df xf L', (N.of_nat (length df) < 2 ^ 64)%N -> (N.of_nat (length xf) < 2 ^ 64)%N -> files_ok df xf L' ->
     length df <= T + min_mmap k -> length xf <= 16 * n + min_mmap k -> L' = place 0 (map snd L') \/ True ->
     exists d', db_new (Some df) (Some xf) = Ok d' /\ db_ok d' (take (log_end L') df) L' /\ sized k d' T n /\
       (L' = place 0 (map snd L') -> contig (take (log_end L') df) L')).
  { intros df xf L' F1 F2 Hfo S1 S2 _. destruct (db_new_ok df xf L' Hfo (conj F1 F2)) as (d' & E & Hok & Hfi). exists d'. split; [exact E|]. split; [exact Hok|].
    split; [exists df, xf; auto|]. intro HL'. split; [exact HL'|]. rewrite HL' at 1. rewrite log_end_place. apply place_concat. rewrite <- HL'. apply (fo_in _ _ _ Hfo). }
  destruct o as [recs|fd fi recs| |recs p].
  - cbn [files_op]. destruct (db_append k no_faults no_faults d recs) as [d' r] eqn:E.
    specialize (Happ no_faults no_faults recs d' r (or_introl (conj eq_refl (conj eq_refl eq_refl))) E). rewrite E in Happ. exact Happ.
  - cbn [files_op]. destruct (db_append k fd fi d recs) as [d' r] eqn:E.
    specialize (Happ fd fi recs d' r (or_intror eq_refl) E). rewrite E in Happ. exact Happ.
  - cbn [files_op op_batch] in *. destruct Hs as (df & xf & Hf & S1 & S2). rewrite (drop_files _ _ _ _ _ H Hf).
    destruct (db_files_ok _ _ _ _ _ H Hf) as (Hfo & D1 & D2).
    destruct (Hnew B (ibytes L) L) as (d' & E & Hok & Hs' & Hc); rewrite ?ibytes_length; simpl in *; try lia; auto.
    { eapply drop_files_ok; eauto. }
    exists d', (take (log_end L) B), L. split; [exact E|]. split; [exact Hok|]. split; [exact Hs'|]. split; [rewrite take_length; lia|]. split; [lia|].
    split; [constructor|]. split; [|split; [reflexivity|exact I]]. intros _ [Hc1 _]. auto.
  - cbn [files_op op_batch] in *. destruct (crash_ok k d B L recs p T n Hk H Hs HB HL) as (df & xf & m & -> & Hfo & S1 & S2 & Hm).
    destruct (Hnew df xf (L ++ take m (place (length B) recs))) as (d' & E & Hok & Hs' & Hc); auto; try lia.
    exists d', (take (log_end (L ++ take m (place (length B) recs))) df), (L ++ take m (place (length B) recs)).
    split; [exact E|]. split; [exact Hok|]. split; [exact Hs'|].
    assert (Hend : log_end (L ++ take m (place (length B) recs)) <= length B + length (concat recs)).
    { unfold log_end. destruct (last _) as [q|] eqn:Eq; [|lia]. apply last_Some_elem_of in Eq. apply elem_of_app in Eq as [Eq|Eq].
      - pose proof (do_in _ _ _ H) as G. rewrite Forall_forall in G. destruct (G _ Eq) as (_ & G1 & _). lia.
      - apply elem_of_take in Eq as (i & Hi & _). apply elem_of_list_lookup_2, place_ge in Hi. lia. }
    split; [rewrite take_length; lia|]. split; [rewrite app_length, take_length, place_length; lia|].
    split; [|split].
    + rewrite map_app, map_snd_take, place_snd, Hm. constructor.
    + intros _ [Hc1 Hc2]. apply Hc. rewrite map_app, map_snd_take, place_snd, place_app, <- Hc1. rewrite place_take. rewrite Hc2. reflexivity.
    + split; [apply prefix_app_r; reflexivity|]. rewrite <- place_take, Hm. reflexivity.
Qed.

(** ** whole histories *)
Definition batches (h : list fop) : list (list N) := concat (map op_batch h).

Lemma files_run_ok k T n : cfg_ok k -> (N.of_nat (T + min_mmap k) < 2 ^ 64)%N -> (N.of_nat (16 * n + min_mmap k) < 2 ^ 64)%N ->
  forall h d B L, db_ok d B L -> sized k d T n -> history_faults_early h ->
  length B + length (concat (batches h)) <= T -> length L + length (batches h) <= n ->
  exists d' B' L', files_run k d h = Ok d' /\ db_ok d' B' L' /\ sized k d' T n /\
    length B' <= length B + length (concat (batches h)) /\ length L' <= length L + length (batches h) /\
    log_after (map snd L) h (map snd L') /\
    ((forall fd fi recs, FAppendFail fd fi recs ∉ h) -> contig B L -> contig B' L') /\ L `prefix_of` L'.
Proof.
  intros Hk FT Fn. induction h as [|o h IH]; intros d B L H Hs He HB HL.
  - exists d, B, L. unfold batches. simpl. split; [reflexivity|]. split; [exact H|]. split; [exact Hs|]. split; [lia|]. split; [lia|]. split; [constructor|]. split; [auto|reflexivity].
  - unfold batches in *. cbn [map concat] in *. rewrite concat_app, !app_length in *.
    destruct (files_op_ok k d B L o T n Hk H Hs FT Fn) as (d1 & B1 & L1 & E1 & H1 & S1 & LB1 & LL1 & St1 & C1 & P1 & _); try lia.
    { intros fd fi recs ->. apply (He fd fi recs). left. }
    destruct (IH d1 B1 L1 H1 S1) as (d2 & B2 & L2 & E2 & H2 & S2 & LB2 & LL2 & St2 & C2 & P2); try lia.
    { intros fd fi recs Hi. apply (He fd fi recs). right. exact Hi. }
    exists d2, B2, L2. cbn [files_run]. rewrite E1. split; [exact E2|]. split; [exact H2|]. split; [exact S2|]. split; [lia|]. split; [lia|].
    split; [econstructor; eauto|]. split; [|etrans; eauto]. intros Hn Hc. apply C2; [intros fd fi recs Hi; apply (Hn fd fi recs); right; exact Hi|].
    apply C1; [|exact Hc]. intros fd fi recs ->. apply (Hn fd fi recs). left.
Qed.

Lemma open_empty k T n : exists d, db_new (Some []) (Some []) = Ok d /\ db_ok d [] [] /\ sized k d T n.
Proof.
  destruct (db_new_ok [] [] []) as (d & E & H & Hf).
  - split; simpl; auto. split; [reflexivity|]. simpl. lia.
  - split; simpl; lia.
  - exists d. split; [exact E|]. split; [exact H|]. exists [], []. rewrite Hf. simpl. repeat split; lia.
Qed.

Lemma files_run_app k h1 h2 : forall d, files_run k d (h1 ++ h2) = match files_run k d h1 with Ok d1 => files_run k d1 h2 | Err e => Err e | Panic => Panic end.
Proof. induction h1 as [|o h1 IH]; intro d; simpl; [destruct (files_run k d h2); reflexivity|]. destruct (files_op k d o); auto. Qed.

Lemma batches_app h1 h2 : batches (h1 ++ h2) = batches h1 ++ batches h2.
Proof. unfold batches. rewrite map_app, concat_app. reflexivity. Qed.

(** the state after a history, with room for the rest *)
Lemma files_open_ok k h rest : cfg_ok k -> history_fits k (h ++ rest) -> history_faults_early h ->
  exists d B L, files_open k h = Ok d /\ db_ok d B L /\
    sized k d (length (concat (batches (h ++ rest)))) (length (batches (h ++ rest))) /\
    length B + length (concat (batches rest)) <= length (concat (batches (h ++ rest))) /\
    length L + length (batches rest) <= length (batches (h ++ rest)) /\
    log_after [] h (map snd L) /\
    ((forall fd fi recs, FAppendFail fd fi recs ∉ h) -> contig B L).
Proof.
  intros Hk [F1 F2] He. fold (batches (h ++ rest)) in F1, F2.
  destruct (open_empty k (length (concat (batches (h ++ rest)))) (length (batches (h ++ rest)))) as (d & E & H & S).
  unfold files_open. rewrite E.
  assert (Hb : length (concat (batches (h ++ rest))) = length (concat (batches h)) + length (concat (batches rest))) by (rewrite batches_app, concat_app, app_length; lia).
  assert (Hl : length (batches (h ++ rest)) = length (batches h) + length (batches rest)) by (rewrite batches_app, app_length; lia).
  destruct (files_run_ok k _ _ Hk F1 F2 h d [] [] H S He) as (d' & B & L & E' & H' & S' & LB & LL & St & C & _); simpl; try lia.
  exists d', B, L. simpl in *. split; [exact E'|]. split; [exact H'|]. split; [exact S'|]. split; [lia|]. split; [lia|]. split; [exact St|].
  intro Hn. apply C; [exact Hn|]. split; reflexivity.
Qed.

(** an in-memory log *)
Lemma mem_run_ok k : cfg_ok k -> forall h d B L, db_ok d B L ->
  (N.of_nat (length B + length (concat (concat h))) < 2 ^ 64)%N -> (N.of_nat (16 * (length L + length (concat h))) < 2 ^ 64)%N ->
  exists d' B' L', mem_run k d h = Ok d' /\ db_ok d' B' L' /\ map snd L' = map snd L ++ log_plain (map FAppend h) /\
    length B' <= length B + length (concat (concat h)) /\ length L' <= length L + length (concat h).
Proof.
  intro Hk. induction h as [|recs h IH]; intros d B L H F1 F2.
  - exists d, B, L. unfold log_plain. simpl. rewrite app_nil_r. split; [reflexivity|]. split; [exact H|]. split; [reflexivity|]. lia.
  - cbn [concat mem_run] in *. rewrite concat_app, !app_length in *.
    destruct (db_append k no_faults no_faults d recs) as [d1 r] eqn:E.
    assert (Hfit : fits (B ++ concat recs) (L ++ place (length B) recs)).
    { split; rewrite app_length; rewrite ?place_length; lia. }
    unfold log_plain. cbn [map concat]. fold (log_plain (map FAppend h)).
    destruct (db_append_ok k no_faults no_faults d B L recs d1 r Hk H ltac:(repeat split) ltac:(repeat split) Hfit E) as
      [(-> & -> & ->)|[(_ & Hem & -> & ->)|[(_ & Hne & -> & Hok)|(_ & Hne & -> & Hok & Hnf)]]].
    + simpl in *. destruct (IH d B L H) as (d' & B' & L' & E' & H' & Hl & S1 & S2); try lia. exists d', B', L'. auto.
    + assert (has_empty recs = true) as ->.
      { destruct (has_empty recs) eqn:Ee; [reflexivity|]. apply has_empty_false in Ee. tauto. }
      destruct (IH d B L H) as (d' & B' & L' & E' & H' & Hl & S1 & S2); try lia. exists d', B', L'. split; [exact E'|]. split; [exact H'|]. split; [exact Hl|]. lia.
    + apply has_empty_false in Hne. rewrite Hne. destruct (IH d1 _ _ Hok) as (d' & B' & L' & E' & H' & Hl & S1 & S2); rewrite ?app_length, ?place_length in *; try lia.
      exists d', B', L'. split; [exact E'|]. split; [exact H'|]. rewrite Hl, map_app, place_snd, <- app_assoc. split; [reflexivity|]. lia.
    + tauto.
Qed.

Lemma mem_empty : exists d, db_new None None = Ok d /\ db_ok d [] [].
Proof.
  destruct (gmm_new_mem None) as (g & E & Hg & Hf & Hb). vm_compute in E. injection E as <-.
  eexists. split; [vm_compute; reflexivity|]. split; try exact Hg; try exact Hf; try reflexivity; try exact I.
  - intros x Hx. inversion Hx.
  - constructor.
  - intros x p Hx. inversion Hx.
  - split; reflexivity.
  - discriminate.
Qed.

Lemma mem_open_ok k h : cfg_ok k -> history_fits k (map FAppend h) ->
  exists d B L, mem_open k h = Ok d /\ db_ok d B L /\ map snd L = log_plain (map FAppend h).
Proof.
  intros Hk [F1 F2]. assert (Hm : map op_batch (map FAppend h) = h) by (rewrite map_map; apply map_id). rewrite Hm in *.
  destruct mem_empty as (d & E & H). unfold mem_open. rewrite E.
  destruct (mem_run_ok k Hk h d [] [] H) as (d' & B & L & E' & H' & Hl & _); simpl; try lia. exists d', B, L. auto.
Qed.

Lemma log_after_plain h : forall R R', (forall o, o ∈ h -> plain_op o = true) -> log_after R h R' -> R' = R ++ log_plain h.
Proof.
  induction h as [|o h IH]; intros R R' Hp H; inversion H; subst; [symmetry; apply app_nil_r|].
  apply IH in H5; [|intros o' Ho'; apply Hp; right; exact Ho']. subst R'. unfold log_plain. cbn [map concat]. fold (log_plain h).
  assert (Ho : plain_op o = true) by (apply Hp; left).
  inversion H3; subst; try discriminate Ho; rewrite ?H0; simpl; rewrite ?app_assoc; reflexivity.
Qed.

Lemma log_step_prefix R o R' : log_step R o R' -> R `prefix_of` R'.
Proof. intro H. inversion H; subst; try reflexivity; apply prefix_app_r; reflexivity. Qed.
Lemma log_after_prefix R h R' : log_after R h R' -> R `prefix_of` R'.
Proof. induction 1; [reflexivity|]. etransitivity; [eapply log_step_prefix; eauto|assumption]. Qed.
