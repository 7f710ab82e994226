From Coq Require Import Lia ZArith DecimalN DecimalPos.
From stdpp Require Import numbers list gmap.
From Verif Require Import FraosModel FraosSpec FraosProofs FraosLogProofs FraosCrashProofs FraosHistProofs ILogMapModel ILogMapSpec.

(** ** positions written as JSON *)
Lemma of_digits_of u : of_digits (digits_of u) = Some u.
Proof. induction u as [|u IH|u IH|u IH|u IH|u IH|u IH|u IH|u IH|u IH|u IH]; simpl; rewrite ?IH; reflexivity. Qed.
Lemma digits_nonnil u : u <> Decimal.Nil -> digits_of u <> [].
Proof. destruct u; [congruence|discriminate..]. Qed.
Lemma to_uint_nonnil n : N.to_uint n <> Decimal.Nil.
Proof. destruct n; [discriminate|]. apply DecimalPos.Unsigned.to_uint_nonnil. Qed.
Lemma json_pos n : (n < 2 ^ 64)%N -> pos_of_json (json_of_pos n) = Some n.
Proof.
  intro H. unfold pos_of_json, json_of_pos. assert (Hn := digits_nonnil _ (to_uint_nonnil n)).
  destruct (digits_of (N.to_uint n)) eqn:E; [congruence|]. rewrite <- E, of_digits_of, DecimalN.Unsigned.of_to.
  apply N.ltb_lt in H. rewrite H. reflexivity.
Qed.

(** ** the iterator *)
Lemma iter_next_ok d B L s : db_ok d B L -> N.to_nat s <= length L ->
  iter_next d s = match L !! N.to_nat s with Some p => (Ok (Some p.2), (s + 1)%N) | None => (Ok None, s) end.
Proof.
  intros H Hs. assert (HL : (N.of_nat (16 * length L) < 2 ^ 64)%N) by apply (do_fits _ _ _ H).
  change (2 ^ 64)%N with (16 * 2 ^ 60)%N in HL. unfold iter_next.
  destruct (L !! N.to_nat s) as [p|] eqn:E.
  - assert (G := idx_get_ok d B L _ p H E). rewrite N2Nat.id in G. rewrite G.
    rewrite (flat_get_ok d B L p H (elem_of_list_lookup_2 _ _ _ E)). reflexivity.
  - rewrite (idx_get_none (d_idx d) (ibytes L)); [reflexivity|apply (do_idx _ _ _ H)| |].
    + change (2 ^ 64)%N with (2 ^ 60 * 16)%N. lia.
    + rewrite ibytes_length. apply lookup_ge_None in E. lia.
Qed.

Lemma sled_get_app a b key : sled_get (a ++ b) key = match sled_get b key with Some x => Some x | None => sled_get a key end.
Proof.
  induction a as [|[k v] a IH]; simpl; [destruct (sled_get b key); reflexivity|]. rewrite IH. destruct (sled_get b key); reflexivity.
Qed.

Section Proofs.
Context {K V : Type} (c : codec K V).
Hypothesis Hc : codec_ok c.
Notation W := (written K V).

Fixpoint index_from (i : nat) (E : list W) : sled_index :=
  match E with
  | [] => []
  | w :: E => (if w_indexed w then [(enc_key c (w_key w), json_of_pos (N.of_nat i))] else []) ++ index_from (S i) E
  end.

Lemma index_from_app E1 : forall i E2, index_from i (E1 ++ E2) = index_from i E1 ++ index_from (i + length E1) E2.
Proof.
  induction E1 as [|w E1 IH]; intros i E2; simpl; [f_equal; lia|]. rewrite IH, app_assoc. do 2 f_equal. lia.
Qed.
Lemma index_from_none E k : (forall v, Written k v true ∉ E) -> forall i, sled_get (index_from i E) (enc_key c k) = None.
Proof.
  destruct Hc as [Hk _]. induction E as [|w E IH]; intros H i; simpl; [reflexivity|]. rewrite sled_get_app, IH.
  - destruct w as [k' v' []]; simpl; [|reflexivity]. destruct (decide _) as [He|]; [|reflexivity]. apply Hk in He as ->.
    exfalso. apply (H v'). left.
  - intros v Hi. apply (H v). right. exact Hi.
Qed.
Lemma index_from_some E1 k v E2 i : (forall v', Written k v' true ∉ E2) ->
  sled_get (index_from i (E1 ++ Written k v true :: E2)) (enc_key c k) = Some (json_of_pos (N.of_nat (i + length E1))).
Proof.
  intro H. rewrite index_from_app. cbn [index_from]. cbn [w_indexed w_key]. rewrite !sled_get_app, index_from_none by exact H. simpl.
  destruct (decide _); [reflexivity|congruence].
Qed.
Lemma index_from_length E : forall i, length (index_from i E) = indexed_count E.
Proof.
  unfold indexed_count. induction E as [|[k v []] E IH]; intro i; cbn [index_from w_indexed app length]; [reflexivity| |].
  - rewrite IH, filter_cons_True by reflexivity. reflexivity.
  - rewrite IH, filter_cons_False by discriminate. reflexivity.
Qed.
Lemma index_from_keep E : forall m i, index_from i (keep_indexed m E) = take m (index_from i E).
Proof.
  induction E as [|[k v []] E IH]; intros m i; simpl; [rewrite take_nil; reflexivity| |].
  - destruct m; simpl; rewrite IH; reflexivity.
  - rewrite IH. reflexivity.
Qed.
Lemma keep_vals (E : list W) : forall m, map w_val (keep_indexed m E) = map w_val E.
Proof. induction E as [|[k v []] E IH]; intros m; simpl; [reflexivity| |]; [destruct m; simpl; rewrite IH|rewrite IH]; reflexivity. Qed.
Lemma index_empty E i : sled_is_empty (index_from i E) = forallb (fun w => negb (w_indexed w)) E.
Proof. revert i. induction E as [|[k v []] E IH]; intro i; simpl; [reflexivity|reflexivity|apply IH]. Qed.

Record state_ok (st : ilm) (B : list N) (L : list placed) (E : list W) : Prop := StateOk {
  so_db : db_ok (storage st) B L;
  so_log : map snd L = map (fun w => enc_val c (w_val w)) E;
  so_idx : key_to_seqno st = Some (index_from 0 E) }.

Lemma so_len st B L E : state_ok st B L E -> length L = length E.
Proof. intro H. rewrite <- (map_length snd), (so_log _ _ _ _ H), map_length. reflexivity. Qed.
Lemma so_small st B L E : state_ok st B L E -> (N.of_nat (length E) < 2 ^ 60)%N.
Proof.
  intro H. rewrite <- (so_len _ _ _ _ H). assert (HL : (N.of_nat (16 * length L) < 2 ^ 64)%N) by apply (do_fits _ _ _ (so_db _ _ _ _ H)).
  change (2 ^ 64)%N with (16 * 2 ^ 60)%N in HL. lia.
Qed.
Lemma item_next_ok st B L E i : state_ok st B L E -> i <= length E ->
  item_next c (storage st) (N.of_nat i) =
    match E !! i with Some w => (Some (IOk (w_val w)), N.of_nat (S i)) | None => (None, N.of_nat i) end.
Proof.
  intros H Hi. unfold item_next. rewrite (iter_next_ok _ B L) by (try apply (so_db _ _ _ _ H); rewrite (so_len _ _ _ _ H); lia).
  rewrite Nat2N.id. destruct (E !! i) as [w|] eqn:Ee.
  - assert (G : map snd L !! i = Some (enc_val c (w_val w))) by (rewrite (so_log _ _ _ _ H), list_lookup_fmap, Ee; reflexivity).
    rewrite list_lookup_fmap in G. destruct (L !! i) as [p|]; [|discriminate]. injection G as ->.
    destruct Hc as (_ & -> & _). f_equal. lia.
  - rewrite (proj2 (lookup_ge_None _ _)); [reflexivity|]. rewrite (so_len _ _ _ _ H). apply lookup_ge_None. exact Ee.
Qed.
Lemma iter_items_ok st B L E n i : state_ok st B L E -> i <= length E ->
  (let (l, e) := iter_collect n (storage st) (N.of_nat i) in (map (decode_item c) l, e)) =
    (map IOk (take n (map w_val (drop i E))), length (drop i E) <? n).
Proof.
  intros H Hi. rewrite (iter_ok _ _ _ (so_db _ _ _ _ H)) by (left; rewrite (so_len _ _ _ _ H); lia).
  rewrite Nat2N.id, (so_log _ _ _ _ H).
  assert (Hd : drop i (map (fun w => enc_val c (w_val w)) E) = map (fun w => enc_val c (w_val w)) (drop i E)) by (symmetry; apply fmap_drop).
  rewrite Hd, map_length. f_equal.
  generalize (drop i E) as F. intro F. revert n. induction F as [|w F IH]; intros [|n]; simpl; try reflexivity.
  destruct Hc as (_ & -> & _). f_equal. apply IH.
Qed.

Lemma shows_ok st B L E : state_ok st B L E -> shows c st E.
Proof.
  intro H. assert (Hsm := so_small _ _ _ _ H).
  assert (Hfrom : forall E1 k v E2, E = E1 ++ Written k v true :: E2 -> (forall v', Written k v' true ∉ E2) ->
     ilm_iter_from c st k = IOk (Some (N.of_nat (length E1)))).
  { intros E1 k v E2 -> Hn. unfold ilm_iter_from. rewrite (so_idx _ _ _ _ H), index_from_some by exact Hn. rewrite json_pos; [reflexivity|].
    rewrite app_length in Hsm. simpl in *. lia. }
  assert (Hnone : forall k, (forall v, Written k v true ∉ E) -> ilm_iter_from c st k = IOk None).
  { intros k Hn. unfold ilm_iter_from. rewrite (so_idx _ _ _ _ H), index_from_none by exact Hn. reflexivity. }
  split; [|split; [|split; [|split; [|split]]]].
  - intros E1 k v E2 He Hn. assert (Hf := Hfrom _ _ _ _ He Hn).
    assert (Hlen : length E = length E1 + S (length E2)) by (rewrite He, app_length; reflexivity).
    assert (Hat : E !! length E1 = Some (Written k v true)) by (rewrite He, list_lookup_middle; reflexivity).
    assert (Hnext := item_next_ok st B L E (length E1) H ltac:(lia)). rewrite Hat in Hnext. simpl in Hnext.
    assert (Hget : ilm_get c st k = IOk (Some v)) by (unfold ilm_get; rewrite Hf, Hnext; reflexivity).
    split; [exact Hget|]. split; [unfold ilm_contains; rewrite Hget; reflexivity|]. split.
    + unfold ilm_get_next. rewrite Hf, Hnext. pose proof (item_next_ok st B L E (S (length E1)) H ltac:(lia)) as G. simpl in G. rewrite G.
      rewrite He, lookup_app_r by lia. replace (S (length E1) - length E1) with 1 by lia. simpl. destruct E2; reflexivity.
    + intro n. unfold ilm_iter_from_items. rewrite Hf. rewrite (iter_items_ok st B L E) by (try exact H; lia).
      rewrite He, drop_app. simpl. do 3 f_equal. f_equal. lia.
  - intros k Hn. assert (Hf := Hnone _ Hn). unfold ilm_contains, ilm_get, ilm_get_next, ilm_iter_from_items. rewrite Hf. auto.
  - unfold ilm_is_empty. rewrite (so_idx _ _ _ _ H), index_empty. reflexivity.
  - intro n. unfold ilm_iter. apply (iter_items_ok st B L E n 0 H). lia.
  - unfold ilm_last. destruct (reads_ok _ _ _ (so_db _ _ _ _ H)) as (_ & _ & _ & -> & _). rewrite (so_log _ _ _ _ H).
    change (map (fun w => enc_val c (w_val w)) E) with ((fun w => enc_val c (w_val w)) <$> E). rewrite fmap_last.
    destruct (last E); [|reflexivity]. simpl. destruct Hc as (_ & -> & _). reflexivity.
  - unfold ilm_get_next. pose proof (item_next_ok st B L E 0 H ltac:(lia)) as G. simpl in G. rewrite G. destruct E; reflexivity.
Qed.

(** ** one append *)
Lemma ilm_append_ok k st B L E key v : cfg_ok k -> state_ok st B L E ->
  fits (B ++ enc_val c v) (L ++ place (length B) [enc_val c v]) ->
  exists d, db_append k no_faults no_faults (storage st) [enc_val c v] = (d, Ok (Some (length E))) /\
    ilm_append c k st key v = (Ilm d (Some (index_from 0 (E ++ [Written key v true]))), IOk tt) /\
    db_ok d (B ++ enc_val c v) (L ++ place (length B) [enc_val c v]).
Proof.
  intros Hk H Hfit. unfold ilm_append. rewrite (so_idx _ _ _ _ H).
  destruct (db_append k no_faults no_faults (storage st) [enc_val c v]) as [d r] eqn:Ea.
  assert (Hcc : concat [enc_val c v] = enc_val c v) by (simpl; apply app_nil_r).
  destruct (db_append_ok k no_faults no_faults (storage st) B L [enc_val c v] d r Hk (so_db _ _ _ _ H) ltac:(repeat split) ltac:(repeat split)
     ltac:(rewrite Hcc; exact Hfit) Ea) as [(G & _)|[(_ & G & _)|[(_ & Hne & -> & Hok)|(_ & Hne & _ & _ & G)]]]; try discriminate.
  - exfalso. apply G. constructor; [apply Hc|constructor].
  - rewrite (so_len _ _ _ _ H). exists d. split; [reflexivity|]. rewrite Hcc in Hok. split; [|exact Hok].
    unfold sled_insert. rewrite index_from_app. simpl. reflexivity.
  - tauto.
Qed.
(** ** histories of a map kept in files *)
Lemma forget_ok E lost : index_from 0 (forget lost E) = take (length (index_from 0 E) - lost) (index_from 0 E) /\ map w_val (forget lost E) = map w_val E.
Proof. unfold forget. rewrite index_from_keep, index_from_length, keep_vals. auto. Qed.

Lemma log_map E : map (fun w => enc_val c (w_val w)) E = map (enc_val c) (map w_val (E : list W)).
Proof. rewrite map_map. reflexivity. Qed.

Lemma ilm_op_ok k st B L E o T n :
  cfg_ok k -> state_ok st B L E -> sized k (storage st) T n ->
  (N.of_nat (T + min_mmap k) < 2 ^ 64)%N -> (N.of_nat (16 * n + min_mmap k) < 2 ^ 64)%N ->
  length B + length (concat (op_batch (log_op c o))) <= T -> length L + length (op_batch (log_op c o)) <= n ->
  exists st' B' L', ilm_op c k st o = IOk st' /\ state_ok st' B' L' (map_op E o) /\ sized k (storage st') T n /\
    length B' <= length B + length (concat (op_batch (log_op c o))) /\ length L' <= length L + length (op_batch (log_op c o)).
Proof.
  intros Hk H Hs FT Fn HB HL. assert (Hcc : forall v, concat [enc_val c v] = enc_val c v) by (intro; simpl; apply app_nil_r).
  assert (Hne : forall v, has_empty [enc_val c v] = false).
  { intro v. apply has_empty_false. constructor; [apply Hc|constructor]. }
  destruct o as [key v| |key v p lost].
  - cbn [ilm_op log_op op_batch] in *. rewrite Hcc in *. simpl length in HL.
    destruct (ilm_append_ok k st B L E key v Hk H) as (d & Ed & Ea & Hok).
    { split; rewrite app_length, ?place_length; simpl; lia. }
    rewrite Ea. eexists _, _, _. split; [reflexivity|]. split; [|split; [|split]].
    + split; [exact Hok| |reflexivity]. rewrite map_app, (so_log _ _ _ _ H), place_snd. cbn [map_op]. rewrite map_app. reflexivity.
    + eapply append_sized; [apply (so_db _ _ _ _ H)| | |exact Hs| | |exact Ed]; try (repeat split); rewrite ?Hcc; simpl; lia.
    + rewrite app_length. lia.
    + rewrite app_length, place_length. simpl. lia.
  - cbn [ilm_op log_op] in *.
    destruct (files_op_ok k (storage st) B L FReopen T n Hk (so_db _ _ _ _ H) Hs FT Fn HB HL) as (d' & B' & L' & -> & Hok & Hs' & HB' & HL' & St & _); [discriminate|].
    eexists _, B', L'. split; [reflexivity|]. split; [|split; [exact Hs'|auto]]. split; [exact Hok| |apply (so_idx _ _ _ _ H)].
    inversion St; subst. cbn [map_op]. rewrite <- (so_log _ _ _ _ H). congruence.
  - cbn [ilm_op log_op] in *.
    destruct (files_op_ok k (storage st) B L (FCrash [enc_val c v] (crash_log_point p)) T n Hk (so_db _ _ _ _ H) Hs FT Fn HB HL)
      as (d' & B' & L' & -> & Hok & Hs' & HB' & HL' & St & _); [discriminate|].
    eexists _, B', L'. split; [reflexivity|]. split; [|split; [exact Hs'|auto]].
    assert (HL'' : map snd L' = map (enc_val c) (map w_val E) ++ take (crash_kept [enc_val c v] (crash_log_point p)) [enc_val c v]).
    { inversion St; subst. rewrite <- log_map, <- (so_log _ _ _ _ H). congruence. }
    unfold crash_kept in HL''. rewrite Hne in HL''. rewrite (so_idx _ _ _ _ H). cbn [default].
    assert (Hlen : db_len (storage st) = length E) by (rewrite (db_len_ok _ _ _ (so_db _ _ _ _ H)); eapply so_len; eauto).
    destruct (forget_ok E lost) as [F1 F2]. split; [exact Hok| |].
    + rewrite HL'', log_map. destruct p as [p| |]; cbn [crash_log_point map_op].
      * destruct p as [gp| | |q|]; cbn [take]; rewrite ?F2, ?app_nil_r; try reflexivity.
        destruct (Nat.ltb_spec q 2).
        -- rewrite (Nat.div_small q 2) by lia. rewrite F2, app_nil_r. reflexivity.
        -- rewrite take_ge. { rewrite !map_app, F2. reflexivity. } simpl. apply (Nat.div_le_lower_bound q 2 1); lia.
      * rewrite take_ge by (vm_compute; lia). rewrite !map_app, F2. reflexivity.
      * destruct (forget_ok (E ++ [Written key v true]) lost) as [_ ->]. rewrite take_ge by (vm_compute; lia). rewrite !map_app. reflexivity.
    + cbn [key_to_seqno]. f_equal. destruct p as [p| |]; cbn [map_op].
      * destruct p as [gp| | |q|]; rewrite ?F1; try reflexivity. destruct (q <? 2); [rewrite F1; reflexivity|].
        rewrite index_from_app, F1. simpl. rewrite app_nil_r. reflexivity.
      * rewrite index_from_app, F1. simpl. rewrite app_nil_r. reflexivity.
      * destruct (forget_ok (E ++ [Written key v true]) lost) as [-> _]. unfold sled_insert. rewrite Hlen, index_from_app. reflexivity.
Qed.

Lemma ilm_run_ok k T n : cfg_ok k -> (N.of_nat (T + min_mmap k) < 2 ^ 64)%N -> (N.of_nat (16 * n + min_mmap k) < 2 ^ 64)%N ->
  forall h st B L E, state_ok st B L E -> sized k (storage st) T n ->
  length B + length (concat (batches (map (log_op c) h))) <= T -> length L + length (batches (map (log_op c) h)) <= n ->
  exists st' B' L', ilm_run c k st h = IOk st' /\ state_ok st' B' L' (foldl map_op E h) /\ sized k (storage st') T n /\
    length B' <= length B + length (concat (batches (map (log_op c) h))) /\ length L' <= length L + length (batches (map (log_op c) h)).
Proof.
  intros Hk FT Fn. induction h as [|o h IH]; intros st B L E H Hs HB HL.
  - exists st, B, L. unfold batches. simpl. split; [reflexivity|]. split; [exact H|]. split; [exact Hs|]. lia.
  - unfold batches in *. cbn [map concat] in *. rewrite concat_app, !app_length in *.
    destruct (ilm_op_ok k st B L E o T n Hk H Hs FT Fn) as (st1 & B1 & L1 & E1 & H1 & S1 & LB1 & LL1); try lia.
    destruct (IH st1 B1 L1 _ H1 S1) as (st2 & B2 & L2 & E2 & H2 & S2 & LB2 & LL2); try lia.
    exists st2, B2, L2. cbn [ilm_run foldl]. rewrite E1. split; [exact E2|]. split; [exact H2|]. split; [exact S2|]. lia.
Qed.

Lemma ilm_open_ok k h rest : cfg_ok k -> ihistory_fits c k (h ++ rest) ->
  exists st B L, ilm_open c k h = IOk st /\ state_ok st B L (map_after h) /\
    sized k (storage st) (length (concat (batches (map (log_op c) (h ++ rest))))) (length (batches (map (log_op c) (h ++ rest)))) /\
    length B + length (concat (batches (map (log_op c) rest))) <= length (concat (batches (map (log_op c) (h ++ rest)))) /\
    length L + length (batches (map (log_op c) rest)) <= length (batches (map (log_op c) (h ++ rest))).
Proof.
  intros Hk [F1 F2]. fold (batches (map (log_op c) (h ++ rest))) in F1, F2.
  set (T := length (concat (batches (map (log_op c) (h ++ rest))))) in *. set (n := length (batches (map (log_op c) (h ++ rest)))) in *.
  destruct (open_empty k T n) as (d & E & H & S). unfold ilm_open. rewrite E.
  assert (Hb : T = length (concat (batches (map (log_op c) h))) + length (concat (batches (map (log_op c) rest))))
    by (unfold T; rewrite map_app, batches_app, concat_app, app_length; lia).
  assert (Hl : n = length (batches (map (log_op c) h)) + length (batches (map (log_op c) rest))) by (unfold n; rewrite map_app, batches_app, app_length; lia).
  destruct (ilm_run_ok k T n Hk F1 F2 h (Ilm d (Some [])) [] [] []) as (st & B & L & E' & H' & S' & LB & LL); simpl; try lia.
  { split; [exact H|reflexivity|reflexivity]. } { exact S. }
  exists st, B, L. simpl in *. split; [exact E'|]. split; [exact H'|]. split; [exact S'|]. lia.
Qed.

(** in memory *)
Lemma ilm_mem_run_ok k : cfg_ok k -> forall h st B L E, state_ok st B L E ->
  (N.of_nat (length B + length (concat (map (fun p => enc_val c p.2) h))) < 2 ^ 64)%N -> (N.of_nat (16 * (length L + length h)) < 2 ^ 64)%N ->
  exists st' B' L', ilm_mem_run c k st h = IOk st' /\ state_ok st' B' L' (E ++ map (fun p => Written p.1 p.2 true) h).
Proof.
  intro Hk. induction h as [|[key v] h IH]; intros st B L E H F1 F2.
  - exists st, B, L. simpl. rewrite app_nil_r. auto.
  - cbn [ilm_mem_run map concat length] in *. simpl in F1. rewrite app_length in F1.
    destruct (ilm_append_ok k st B L E key v Hk H) as (d & Ed & Ea & Hok).
    { split; rewrite app_length, ?place_length; simpl; lia. }
    rewrite Ea. destruct (IH (Ilm d (Some (index_from 0 (E ++ [Written key v true])))) (B ++ enc_val c v) (L ++ place (length B) [enc_val c v]) (E ++ [Written key v true])) as (st' & B' & L' & Er & H').
    + split; [exact Hok| |reflexivity]. rewrite map_app, (so_log _ _ _ _ H), place_snd, map_app. reflexivity.
    + rewrite app_length. lia.
    + rewrite app_length, place_length. simpl. lia.
    + exists st', B', L'. rewrite <- app_assoc in H'. auto.
Qed.
End Proofs.
