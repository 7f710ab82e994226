(** Properties C24-C26: the indexed log map. *)
From Coq Require Import Lia ZArith Eqdep_dec.
From stdpp Require Import numbers list gmap.
From Verif Require Import FraosModel FraosSpec FraosProofs FraosLogProofs FraosCrashProofs FraosHistProofs ILogMapModel ILogMapSpec ILogMapProofs ILogMapConcProofs FraosProps.

(** ** A serialiser meeting the assumption: 64-bit numbers in CBOR *)
Definition u64 := {n : N | (n <? 2 ^ 64)%N = true}.
Definition cbor_uint (n : N) : list N :=
  if (n <? 24)%N then [n] else if (n <? 2 ^ 8)%N then 24%N :: to_le 1 n else if (n <? 2 ^ 16)%N then 25%N :: rev (to_le 2 n)
  else if (n <? 2 ^ 32)%N then 26%N :: rev (to_le 4 n) else 27%N :: rev (to_le 8 n).
Definition uncbor_uint (l : list N) : option N :=
  match l with
  | [] => None
  | b :: r => if (b <? 24)%N then Some b else if (b =? 24)%N then Some (from_le (take 1 r)) else if (b =? 25)%N then Some (from_le (rev (take 2 r)))
              else if (b =? 26)%N then Some (from_le (rev (take 4 r))) else if (b =? 27)%N then Some (from_le (rev (take 8 r))) else None
  end.
Lemma uncbor n : (n < 2 ^ 64)%N -> uncbor_uint (cbor_uint n) = Some n.
Proof.
  intro H. unfold cbor_uint.
  assert (G : forall k, length (to_le k n) = k) by (intro; apply to_le_length).
  assert (G' : forall k, length (rev (to_le k n)) = k) by (intro; rewrite rev_length; apply G).
  destruct (N.ltb_spec n 24); [unfold uncbor_uint; rewrite (proj2 (N.ltb_lt n 24)) by lia; reflexivity|].
  destruct (N.ltb_spec n (2 ^ 8)).
  { cbn [uncbor_uint]. change ((24 <? 24)%N) with false. change ((24 =? 24)%N) with true. cbn iota. rewrite take_ge by (rewrite G; lia).
    rewrite from_to_le; [reflexivity|]. simpl. lia. }
  destruct (N.ltb_spec n (2 ^ 16)).
  { cbn [uncbor_uint]. change ((25 <? 24)%N) with false. change ((25 =? 24)%N) with false. change ((25 =? 25)%N) with true. cbn iota.
    rewrite take_ge by (rewrite G'; lia). rewrite rev_involutive, from_to_le; [reflexivity|]. simpl. lia. }
  destruct (N.ltb_spec n (2 ^ 32)).
  { cbn [uncbor_uint]. change ((26 <? 24)%N) with false. change ((26 =? 24)%N) with false. change ((26 =? 25)%N) with false. change ((26 =? 26)%N) with true. cbn iota.
    rewrite take_ge by (rewrite G'; lia). rewrite rev_involutive, from_to_le; [reflexivity|]. simpl. lia. }
  cbn [uncbor_uint]. change ((27 <? 24)%N) with false. change ((27 =? 24)%N) with false. change ((27 =? 25)%N) with false. change ((27 =? 26)%N) with false. change ((27 =? 27)%N) with true. cbn iota.
  rewrite take_ge by (rewrite G'; lia). rewrite rev_involutive, from_to_le; [reflexivity|]. simpl. lia.
Qed.
Definition to_u64 (n : N) : option u64 := match decide ((n <? 2 ^ 64)%N = true) with left H => Some (exist _ n H) | right _ => None end.
Definition cbor : codec u64 u64 := Codec u64 u64 (fun n => cbor_uint (proj1_sig n)) (fun n => cbor_uint (proj1_sig n)) (fun l => match uncbor_uint l with Some n => to_u64 n | None => None end).
Lemma u64_eq (a b : u64) : proj1_sig a = proj1_sig b -> a = b.
Proof. destruct a as [a Ha], b as [b Hb]. simpl. intros ->. f_equal. apply UIP_dec. apply bool_dec. Qed.
Lemma to_u64_ok (a : u64) : to_u64 (proj1_sig a) = Some a.
Proof.
  unfold to_u64. destruct (decide _) as [H|H]; [f_equal; apply u64_eq; reflexivity|]. destruct a as [a Ha]. contradiction.
Qed.
Lemma cbor_ok : codec_ok cbor.
Proof.
  assert (Hd : forall a : u64, dec_val cbor (cbor_uint (proj1_sig a)) = Some a).
  { intro a. simpl. rewrite uncbor; [apply to_u64_ok|]. destruct a as [a Ha]. apply N.ltb_lt. exact Ha. }
  split; [|split].
  - intros a b E. change (cbor_uint (proj1_sig a) = cbor_uint (proj1_sig b)) in E. assert (G := Hd a). rewrite E, Hd in G. congruence.
  - exact Hd.
  - intros a. simpl. unfold cbor_uint. repeat destruct (_ <? _)%N; discriminate.
Qed.

(** ** C24 *)
(** the pairs appended by a history without crashes, oldest first *)
Definition appended {K V} (h : list (iop (K := K) (V := V))) : list (K * V) :=
  concat (map (fun o => match o with IAppend k v => [(k, v)] | _ => [] end) h).
Definition no_crash {K V} (h : list (iop (K := K) (V := V))) : Prop := forall key v p lost, ICrash key v p lost ∉ h.

Section C24.
Context {K V : Type} (c : codec K V).
Notation all_indexed := (map (fun p : K * V => Written p.1 p.2 true)).

Lemma map_after_clean h : no_crash h -> forall E : list (K * V), foldl map_op (all_indexed E) h = all_indexed (E ++ appended h).
Proof.
  induction h as [|o h IH]; intros Hn E; simpl; [unfold appended; simpl; rewrite app_nil_r; reflexivity|].
  assert (Hn' : no_crash h) by (intros a b p q Hi; apply (Hn a b p q); right; exact Hi).
  unfold appended. cbn [map concat]. fold (appended h). destruct o as [key v| |key v p lost].
  - simpl. replace (all_indexed E ++ [Written key v true]) with (all_indexed (E ++ [(key, v)])) by (rewrite map_app; reflexivity).
    rewrite IH by exact Hn'. rewrite <- app_assoc. reflexivity.
  - apply IH. exact Hn'.
  - exfalso. apply (Hn key v p lost). left.
Qed.

(** a map can always be opened, and after any history without crashes its answers are those of the list of
    appended pairs *)
Theorem C24_opens k h : codec_ok c -> entry_aligned k -> ihistory_fits c k h -> no_crash h ->
  exists st, ilm_open c k h = IOk st /\ shows c st (all_indexed (appended h)).
Proof.
  intros Hc Hk Hf Hn. destruct (ilm_open_ok c Hc k h [] Hk ltac:(rewrite app_nil_r; exact Hf)) as (st & B & L & E & H & _).
  exists st. split; [exact E|]. unfold map_after in H. change [] with (all_indexed ([] : list (K * V))) in H. rewrite map_after_clean in H by exact Hn.
  eapply shows_ok; eauto.
Qed.
Lemma all_indexed_split (W1 W2 : list (K * V)) key v : all_indexed (W1 ++ (key, v) :: W2) = all_indexed W1 ++ Written key v true :: all_indexed W2.
Proof. rewrite map_app. reflexivity. Qed.
Lemma all_indexed_notin (W : list (K * V)) key : key ∉ map fst W -> forall v, Written key v true ∉ all_indexed W.
Proof. intros H v Hi. apply elem_of_list_fmap in Hi as ([k' v'] & [= -> ->] & Hi). apply H. apply elem_of_list_fmap. exists (k', v'). auto. Qed.

Lemma shows_latest st (W W1 W2 : list (K * V)) key v : shows c st (all_indexed W) -> W = W1 ++ (key, v) :: W2 -> key ∉ map fst W2 ->
  ilm_get c st key = IOk (Some v) /\ ilm_contains c st key = IOk true /\ ilm_get_next c st (Some key) = IOk (snd <$> head W2) /\
  forall n, ilm_iter_from_items c n st key = IOk (Some (map IOk (take n (v :: map snd W2)), length W2 + 1 <? n)).
Proof.
  intros (S1 & _) -> Hn. rewrite all_indexed_split in S1. destruct (S1 _ _ _ _ eq_refl (all_indexed_notin _ _ Hn)) as (G1 & G2 & G3 & G4).
  split; [exact G1|]. split; [exact G2|]. split; [rewrite G3; destruct W2; reflexivity|]. intro n. rewrite G4, map_map, map_length. reflexivity.
Qed.
Theorem C24_latest k h st W1 key v W2 : codec_ok c -> entry_aligned k -> ihistory_fits c k h -> no_crash h -> ilm_open c k h = IOk st ->
  appended h = W1 ++ (key, v) :: W2 -> key ∉ map fst W2 ->
  ilm_get c st key = IOk (Some v) /\ ilm_contains c st key = IOk true /\ ilm_get_next c st (Some key) = IOk (snd <$> head W2) /\
  forall n, ilm_iter_from_items c n st key = IOk (Some (map IOk (take n (v :: map snd W2)), length W2 + 1 <? n)).
Proof.
  intros Hc Hk Hf Hn E. destruct (C24_opens k h Hc Hk Hf Hn) as (st' & E' & S). rewrite E in E'. injection E' as <-. apply shows_latest. exact S.
Qed.
Theorem C24_absent k h st key : codec_ok c -> entry_aligned k -> ihistory_fits c k h -> no_crash h -> ilm_open c k h = IOk st ->
  key ∉ map fst (appended h) ->
  ilm_get c st key = IOk None /\ ilm_contains c st key = IOk false /\ ilm_get_next c st (Some key) = IOk None /\
  forall n, ilm_iter_from_items c n st key = IOk None.
Proof.
  intros Hc Hk Hf Hn E Ha. destruct (C24_opens k h Hc Hk Hf Hn) as (st' & E' & S). rewrite E in E'. injection E' as <-.
  destruct S as (_ & S2 & _). apply S2. apply all_indexed_notin. exact Ha.
Qed.
Theorem C24_whole k h st : codec_ok c -> entry_aligned k -> ihistory_fits c k h -> no_crash h -> ilm_open c k h = IOk st ->
  ilm_is_empty st = IOk (match appended h with [] => true | _ => false end) /\
  (forall n, ilm_iter c n st = (map IOk (take n (map snd (appended h))), length (appended h) <? n)) /\
  ilm_last c st = IOk (snd <$> last (appended h)) /\
  ilm_get_next c st None = IOk (snd <$> head (appended h)).
Proof.
  intros Hc Hk Hf Hn E. destruct (C24_opens k h Hc Hk Hf Hn) as (st' & E' & S). rewrite E in E'. injection E' as <-.
  destruct S as (_ & _ & S3 & S4 & S5 & S6). split; [rewrite S3; destruct (appended h); reflexivity|].
  split; [intro n; rewrite S4, map_map, map_length; reflexivity|].
  split; [rewrite S5; change (all_indexed (appended h)) with ((fun p : K * V => Written p.1 p.2 true) <$> appended h); rewrite fmap_last; destruct (last (appended h)); reflexivity|].
  rewrite S6. destruct (appended h); reflexivity.
Qed.
(** an append always succeeds *)
Theorem C24_append_succeeds k h st key v : codec_ok c -> entry_aligned k -> ihistory_fits c k (h ++ [IAppend key v]) -> ilm_open c k h = IOk st ->
  exists st', ilm_append c k st key v = (st', IOk tt) /\ ilm_open c k (h ++ [IAppend key v]) = IOk st'.
Proof.
  intros Hc Hk Hf E. destruct (ilm_open_ok c Hc k h [IAppend key v] Hk Hf) as (st0 & B & L & E0 & H & Hs & HB & HL). rewrite E in E0. injection E0 as <-.
  destruct Hf as [F1 F2]. fold (batches (map (log_op c) (h ++ [IAppend key v]))) in F1, F2. unfold batches in HB at 1, HL at 1. simpl in HB, HL. rewrite ?app_nil_r in *.
  destruct (ilm_append_ok c Hc k st B L _ key v Hk H) as (d & _ & Ea & _).
  { split; rewrite app_length, ?place_length; simpl; lia. }
  rewrite Ea. eexists. split; [reflexivity|]. unfold ilm_open in *. destruct (db_new (Some []) (Some [])) as [d0| |]; [|discriminate..].
  revert Ea. generalize (Ilm d (Some (index_from c 0 (map_after h ++ [Written key v true])))) as stf. intros stf Ea. clear - E Ea. revert E. generalize (Ilm d0 (Some [])) as s0. induction h as [|o h IH]; intros s0 E; simpl in E; simpl.
  - injection E as ->. rewrite Ea. reflexivity.
  - destruct (ilm_op c k s0 o); try discriminate. apply IH. exact E.
Qed.
(** the same for a map kept in memory *)
Theorem C24_memory k h : codec_ok c -> entry_aligned k ->
  (N.of_nat (length (concat (map (fun p => enc_val c p.2) h))) < 2 ^ 64)%N -> (N.of_nat (16 * length h) < 2 ^ 64)%N ->
  exists st, ilm_mem_open c k h = IOk st /\ shows c st (all_indexed h).
Proof.
  intros Hc Hk F1 F2. destruct mem_empty as (d & E & H). unfold ilm_mem_open. rewrite E.
  destruct (ilm_mem_run_ok c Hc k Hk h (Ilm d (Some [])) [] [] []) as (st & B & L & Er & H'); simpl; try lia.
  { split; [exact H|reflexivity|reflexivity]. }
  exists st. split; [exact Er|]. eapply shows_ok; eauto.
Qed.
(** opened without the key index: nothing is written and keyed reads are refused *)
Theorem C24_no_index k d key v : ilm_append c k (Ilm d None) key v = (Ilm d None, IErr) /\ ilm_get c (Ilm d None) key = IErr /\
  ilm_contains c (Ilm d None) key = IErr /\ ilm_is_empty (Ilm d None) = IErr /\ ilm_get_next c (Ilm d None) (Some key) = IErr.
Proof. repeat split. Qed.

(** ** C25 *)
(** after any history with any number of crashes the map opens and its answers are those of the specification *)
Theorem C25_any_history k h : codec_ok c -> entry_aligned k -> ihistory_fits c k h ->
  exists st, ilm_open c k h = IOk st /\ shows c st (map_after h).
Proof.
  intros Hc Hk Hf. destruct (ilm_open_ok c Hc k h [] Hk ltac:(rewrite app_nil_r; exact Hf)) as (st & B & L & E & H & _).
  exists st. split; [exact E|]. eapply shows_ok; eauto.
Qed.

Lemma keep_in m : forall (E : list (written K V)) key v b, Written key v b ∈ keep_indexed m E -> exists b', Written key v b' ∈ E.
Proof.
  intro E. revert m. induction E as [|[k0 v0 []] E IH]; intros m key v b H; simpl in H.
  - inversion H.
  - destruct m; (apply elem_of_cons in H as [H|H]; [injection H as -> ->; exists true; left|destruct (IH _ _ _ _ H) as [b' Hb]; exists b'; right; exact Hb]).
  - apply elem_of_cons in H as [H|H]; [injection H as -> ->; exists false; left|]. destruct (IH _ _ _ _ H) as [b' Hb]. exists b'. right. exact Hb.
Qed.
Lemma map_op_in (E : list (written K V)) o key v b : Written key v b ∈ map_op E o ->
  (exists b', Written key v b' ∈ E) \/ o = IAppend key v \/ exists p lost, o = ICrash key v p lost.
Proof.
  intro H. destruct o as [k0 v0| |k0 v0 p lost]; simpl in H.
  - apply elem_of_app in H as [H|H]; [left; eauto|]. apply elem_of_list_singleton in H. injection H as -> -> _. auto.
  - left. eauto.
  - assert (Hs : forall E' : list (written K V), (forall b, Written key v b ∈ E' -> (exists b', Written key v b' ∈ E)) ->
      forall b, Written key v b ∈ E' ++ [Written k0 v0 false] -> (exists b', Written key v b' ∈ E) \/ ICrash k0 v0 p lost = IAppend key v \/ exists p' lost', ICrash k0 v0 p lost = ICrash key v p' lost').
    { intros E' HE b' Hb. apply elem_of_app in Hb as [Hb|Hb]; [left; eauto|]. apply elem_of_list_singleton in Hb. injection Hb as -> -> _. right; right; eauto. }
    destruct p as [[gp| | |q|]| |]; try (left; eapply keep_in; exact H).
    + destruct (q <? 2); [left; eapply keep_in; exact H|]. eapply Hs; [|exact H]. intros b' Hb. eapply keep_in; exact Hb.
    + eapply Hs; [|exact H]. intros b' Hb. eapply keep_in; exact Hb.
    + apply keep_in in H as [b' H]. apply elem_of_app in H as [H|H]; [left; eauto|]. apply elem_of_list_singleton in H. injection H as -> -> _. right; right; eauto.
Qed.
Lemma map_after_in h : forall (E : list (written K V)) key v b, Written key v b ∈ foldl map_op E h ->
  (exists b', Written key v b' ∈ E) \/ IAppend key v ∈ h \/ exists p lost, ICrash key v p lost ∈ h.
Proof.
  induction h as [|o h IH]; intros E key v b H; simpl in H; [left; eauto|].
  destruct (IH _ _ _ _ H) as [[b' Hb]|[Hb|(p & lost & Hb)]].
  - apply map_op_in in Hb as [Hb|[->|(p & lost & ->)]]; [auto|right; left; left|right; right; exists p, lost; left].
  - right; left; right; exact Hb.
  - right; right; exists p, lost; right; exact Hb.
Qed.
(** the last indexed value of a key, if any *)
Lemma last_indexed (Hc : codec_ok c) (E : list (written K V)) key : (forall v, Written key v true ∉ E) \/
  exists E1 v E2, E = E1 ++ Written key v true :: E2 /\ forall v', Written key v' true ∉ E2.
Proof.
  induction E as [|[k0 v0 b0] E [IH|(E1 & v & E2 & -> & Hn)]].
  - left. intros v H. inversion H.
  - destruct (decide (enc_key c k0 = enc_key c key)) as [He|He].
    + apply Hc in He as ->. destruct b0.
      * right. exists [], v0, E. auto.
      * left. intros v H. inversion H; subst. eapply IH; eauto.
    + left. intros v H. inversion H; subst; [congruence|]. eapply IH; eauto.
  - right. exists (Written k0 v0 b0 :: E1), v, E2. auto.
Qed.
(** whatever crashed and whatever the key index lost, a value returned for a key was appended for that key, and
    no read fails or panics *)
Theorem C25_never_wrong k h st key : codec_ok c -> entry_aligned k -> ihistory_fits c k h -> ilm_open c k h = IOk st ->
  exists r, ilm_get c st key = IOk r /\ forall v, r = Some v -> IAppend key v ∈ h \/ exists p lost, ICrash key v p lost ∈ h.
Proof.
  intros Hc Hk Hf E. destruct (C25_any_history k h Hc Hk Hf) as (st' & E' & S1 & S2 & _). rewrite E in E'. injection E' as <-.
  destruct (last_indexed Hc (map_after h) key) as [Hn|(E1 & v & E2 & He & Hn)].
  - exists None. split; [apply S2; exact Hn|discriminate].
  - exists (Some v). split; [eapply S1; eauto|]. intros v' [= <-].
    assert (Hi : Written key v true ∈ map_after h) by (rewrite He; apply elem_of_app; right; left).
    apply map_after_in in Hi as [[b H]|H]; [inversion H|exact H].
Qed.

Lemma keep_all (E : list (written K V)) m : indexed_count E <= m -> keep_indexed m E = E.
Proof.
  unfold indexed_count. revert m. induction E as [|[k0 v0 []] E IH]; intros m H; [reflexivity| |].
  - rewrite filter_cons_True in H by reflexivity. simpl in H. destruct m; [lia|]. cbn [keep_indexed]. f_equal. apply IH. lia.
  - rewrite filter_cons_False in H by discriminate. cbn [keep_indexed]. f_equal. apply IH. exact H.
Qed.
Lemma forget_none (E : list (written K V)) : forget 0 E = E.
Proof. apply keep_all. lia. Qed.

Lemma shows_get_same (Hc : codec_ok c) st st' (E E' : list (written K V)) key : shows c st E -> shows c st' (E ++ E') ->
  (forall v, Written key v true ∉ E') -> ilm_get c st' key = ilm_get c st key.
Proof.
  intros (S1 & S2 & _) (T1 & T2 & _) Hn. destruct (last_indexed Hc E key) as [Hm|(E1 & v & E2 & -> & Hm)].
  - destruct (S2 _ Hm) as (-> & _). apply T2. intros v Hi. apply elem_of_app in Hi as [Hi|Hi]; [eapply Hm; eauto|eapply Hn; eauto].
  - destruct (S1 _ _ _ _ eq_refl Hm) as (-> & _). eapply T1; [rewrite <- app_assoc; reflexivity|].
    intros v' Hi. apply elem_of_app in Hi as [Hi|Hi]; [eapply Hm; eauto|eapply Hn; eauto].
Qed.
(** one crash during an append, with a key index that keeps every completed insert: all other keys read as
    before, the key being appended reads as before or has the new value, the history is as before or has the
    new value at its end *)
Theorem C25_crash_in_append k h st key v p st' R : codec_ok c -> entry_aligned k -> ihistory_fits c k (h ++ [ICrash key v p 0]) ->
  ilm_open c k h = IOk st -> ilm_op c k st (ICrash key v p 0) = IOk st' ->
  (forall n, ilm_iter c n st = (map IOk (take n R), length R <? n)) ->
  (forall key', key' <> key -> ilm_get c st' key' = ilm_get c st key') /\
  (ilm_get c st' key = ilm_get c st key \/ ilm_get c st' key = IOk (Some v)) /\
  exists R', (R' = R \/ R' = R ++ [v]) /\ forall n, ilm_iter c n st' = (map IOk (take n R'), length R' <? n).
Proof.
  intros Hc Hk Hf E Eo HR. destruct (ilm_open_ok c Hc k h [ICrash key v p 0] Hk Hf) as (st0 & B & L & E0 & H & Hs & HB & HL). rewrite E in E0. injection E0 as <-.
  destruct Hf as [F1 F2]. destruct (ilm_op_ok c Hc k st B L _ (ICrash key v p 0) _ _ Hk H Hs F1 F2) as (st1 & B' & L' & E1 & H' & _); [unfold batches in *; simpl in *; rewrite ?app_nil_r in *; lia..|].
  rewrite Eo in E1. injection E1 as <-. assert (S := shows_ok c Hc _ _ _ _ H). assert (S' := shows_ok c Hc _ _ _ _ H'). clear - Hc S S' HR.
  set (E := map_after h) in *.
  assert (HRE : R = map w_val E).
  { destruct S as (_ & _ & _ & S4 & _). assert (G := HR (length R + length E)). rewrite S4 in G. injection G as G _.
    rewrite !take_ge in G by (rewrite ?map_length; lia).
    assert (Hinj : forall a b : list V, map (@IOk V) a = map IOk b -> a = b).
    { induction a as [|x a IH]; intros [|y b] Hab; try discriminate; [reflexivity|]. injection Hab as -> Hab. f_equal. auto. }
    symmetry. apply Hinj. exact G. }
  assert (Hcase : exists X, map_op E (ICrash key v p 0) = E ++ X /\ (X = [] \/ exists b, X = [Written key v b])).
  { destruct p as [[gp| | |q|]| |]; cbn [map_op]; rewrite ?forget_none; try (exists []; rewrite app_nil_r; auto; fail); try (eexists; split; [reflexivity|eauto]; fail).
    destruct (q <? 2); [exists []; rewrite app_nil_r; auto|eexists; split; [reflexivity|eauto]]. }
  destruct Hcase as (X & HX & Hcase). rewrite HX in S'. split; [|split].
  - intros key' Hk'. apply (shows_get_same Hc st st' E X key' S S'). intros v' Hi. destruct Hcase as [->|[b ->]]; [inversion Hi|].
    apply elem_of_list_singleton in Hi. congruence.
  - destruct Hcase as [->|[[] ->]].
    + left. apply (shows_get_same Hc st st' E [] key S S'). intros v' Hi. inversion Hi.
    + right. destruct S' as (T1 & _). eapply T1; [reflexivity|]. intros v' Hi. inversion Hi.
    + left. apply (shows_get_same Hc st st' E _ key S S'). intros v' Hi. apply elem_of_list_singleton in Hi. discriminate.
  - exists (R ++ map w_val X). split; [destruct Hcase as [->|[b ->]]; simpl; rewrite ?app_nil_r; auto|].
    destruct S' as (_ & _ & _ & T4 & _). intro n. rewrite T4, map_app, <- HRE, !app_length, HRE, !map_length. reflexivity.
Qed.
End C24.

(** ** C26 *)
Section C26.
Context {K V : Type} (c : codec K V).
(** the map as left by a sequential history, then used by many threads *)
Definition shared (k : cfg) (h : list (iop (K := K) (V := V))) (tr : list (istep_ev (K := K) (V := V))) (s0 s : icst (K := K)) : Prop :=
  exists st, ilm_open c k h = IOk st /\ s0 = Icst st ∅ /\ icrun c k s0 tr s /\ ihistory_fits c k (h ++ trace_appends tr).

Fixpoint positions_of (i : nat) (E : list (written K V)) : list (K * nat) :=
  match E with [] => [] | w :: E => (if w_indexed w then [(w_key w, i)] else []) ++ positions_of (S i) E end.
Lemma positions_index E : forall i, index_from c i E = entries_of c (positions_of i E).
Proof. induction E as [|[k0 v0 []] E IH]; intro i; simpl; [reflexivity| |]; rewrite IH; reflexivity. Qed.
Lemma positions_in (E : list (written K V)) : forall i key p, (key, p) ∈ positions_of i E -> i <= p /\ exists v, map (fun w => (w_key w, w_val w)) E !! (p - i) = Some (key, v).
Proof.
  induction E as [|[k0 v0 []] E IH]; intros i key p H; cbn [positions_of w_indexed w_key] in H; [inversion H| |].
  - apply elem_of_app in H as [H|H].
    + apply elem_of_list_singleton in H. injection H as -> ->. split; [lia|]. exists v0. rewrite Nat.sub_diag. reflexivity.
    + destruct (IH _ _ _ H) as (G1 & v & G2). split; [lia|]. exists v. replace (p - i) with (S (p - S i)) by lia. exact G2.
  - destruct (IH _ _ _ H) as (G1 & v & G2). split; [lia|]. exists v. replace (p - i) with (S (p - S i)) by lia. exact G2.
Qed.

Lemma trace_appends_pairs tr : batches (map (log_op c) (trace_appends tr)) = map (fun p => enc_val c p.2) (pairs (K := K) (V := V) tr).
Proof.
  induction tr as [|e tr IH]; [reflexivity|]. unfold trace_appends, pairs in *. cbn [map concat]. rewrite !map_app, batches_app, IH.
  destruct e; reflexivity.
Qed.
Lemma tr_bytes_pairs tr : tr_bytes c tr = length (concat (map (fun p => enc_val c p.2) (pairs tr))).
Proof.
  unfold tr_bytes. induction tr as [|e tr IH]; [reflexivity|]. unfold pairs in *. cbn [map concat sum_list_with]. rewrite map_app, concat_app, app_length, <- IH.
  destruct e; simpl; rewrite ?app_nil_r; reflexivity.
Qed.
Lemma shared_start k h tr s0 s : codec_ok c -> entry_aligned k -> shared k h tr s0 s ->
  exists B L I, cinv c s0 B L (map (fun w => (w_key w, w_val w)) (map_after h)) I /\ (forall t, ic_pc s0 !! t = None) /\ icrun c k s0 tr s /\
    (N.of_nat (length B + tr_bytes c tr) < 2 ^ 64)%N /\ (N.of_nat (16 * (length L + length (pairs tr))) < 2 ^ 64)%N.
Proof.
  intros Hc Hk (st & E & -> & Hr & Hf). destruct (ilm_open_ok c Hc k h (trace_appends tr) Hk Hf) as (st0 & B & L & E0 & H & Hs & HB & HL). rewrite E in E0. injection E0 as <-.
  destruct Hf as [F1 F2]. fold (batches (map (log_op c) (h ++ trace_appends tr))) in F1, F2. rewrite trace_appends_pairs in HB, HL.
  exists B, L, (positions_of 0 (map_after h)). split; [|split; [intro; apply lookup_empty|split; [exact Hr|]]].
  - split; cbn [ic_ilm ic_pc].
    + apply (so_db _ _ _ _ _ H).
    + rewrite (so_log _ _ _ _ _ H), map_map. reflexivity.
    + rewrite (so_idx _ _ _ _ _ H). f_equal. apply positions_index.
    + intros key p Hi. apply positions_in in Hi as (_ & v & Hv). rewrite Nat.sub_0_r in Hv. eauto.
    + intros t key p Hp. rewrite lookup_empty in Hp. discriminate.
    + intros t key p Hp. rewrite lookup_empty in Hp. discriminate.
  - rewrite tr_bytes_pairs. rewrite map_length in HL. lia.
Qed.

Lemma pairs_in tr key v : (key, v) ∈ pairs (K := K) (V := V) tr -> exists t, ELog t key v ∈ tr.
Proof.
  induction tr as [|e tr IH]; intro H; [inversion H|]. unfold pairs in H. cbn [map concat] in H. apply elem_of_app in H as [H|H].
  - destruct e; try (inversion H; fail). apply elem_of_list_singleton in H. injection H as -> ->. exists t. left.
  - destruct (IH H) as [t Ht]. exists t. right. exact Ht.
Qed.
Lemma pairs_prefix_bound (t1 t2 : list (istep_ev (K := K) (V := V))) : tr_bytes c t1 <= tr_bytes c (t1 ++ t2) /\ length (pairs t1) <= length (pairs (t1 ++ t2)).
Proof. unfold tr_bytes. rewrite sum_list_with_app, pairs_app, app_length. lia. Qed.
Lemma icrun_snoc_inv k s0 tr e s : icrun c k s0 (tr ++ [e]) s -> exists s1, icrun c k s0 tr s1 /\ icstep c k s1 e s.
Proof.
  intro H. remember (tr ++ [e]) as l eqn:El. destruct H as [|sa tr' sb e' sc Hr St]; [destruct tr; discriminate|].
  apply app_inj_tail in El as [-> ->]. eauto.
Qed.
Lemma icrun_split k s0 t1 t2 s : icrun c k s0 (t1 ++ t2) s -> exists s1, icrun c k s0 t1 s1 /\ icrun c k s1 t2 s.
Proof.
  revert s. induction t2 as [|e t2 IH] using rev_ind; intros s H.
  - rewrite app_nil_r in H. exists s. split; [exact H|constructor].
  - rewrite app_assoc in H. apply icrun_snoc_inv in H as (s1 & H1 & St). destruct (IH _ H1) as (s3 & H3 & H4). exists s3. split; [exact H3|]. econstructor; eauto.
Qed.
Lemma icrun_one k s e s' : icrun c k s [e] s' -> icstep c k s e s'.
Proof. intro H. apply (icrun_snoc_inv k s [] e s') in H as (s1 & H & St). inversion H; subst; [exact St|]. destruct tr; discriminate. Qed.

(** every value a get returns for a key was appended for that key, before the get returned *)
Theorem C26_get_sound k h tr s0 s t1 t key r t2 : codec_ok c -> entry_aligned k -> shared k h tr s0 s -> tr = t1 ++ ERead t key r :: t2 ->
  exists v, r = IOk (Some v) /\ ((exists b, Written key v b ∈ map_after h) \/ exists t', ELog t' key v ∈ t1).
Proof.
  intros Hc Hk Hsh ->. destruct (shared_start _ _ _ _ _ Hc Hk Hsh) as (B & L & I & H & Hpc & Hr & F1 & F2).
  apply icrun_split in Hr as (s1 & Hr1 & Hr2). change (ERead t key r :: t2) with ([ERead t key r] ++ t2) in Hr2. apply icrun_split in Hr2 as (s2 & Hr2 & _).
  apply icrun_one in Hr2. destruct (pairs_prefix_bound t1 (ERead t key r :: t2)) as [G1 G2].
  destruct (icrun_inv c Hc k s0 B L _ I Hk H t1 s1 Hr1) as (B' & L' & I' & H' & _); [lia|lia|].
  inversion Hr2; subst. cbn [ic_ilm ic_pc] in *. destruct (ci_found _ _ _ _ _ _ H' t key pos) as [v Hv]; [assumption|].
  exists v. pose proof (ci_item c Hc _ _ _ _ _ _ _ _ H' Hv) as G. cbn [ic_ilm] in G. rewrite N2Nat.id in G. rewrite G. split; [reflexivity|].
  apply elem_of_list_lookup_2, elem_of_app in Hv as [Hv|Hv].
  - left. apply elem_of_list_fmap in Hv as ([k0 v0 b0] & [= -> ->] & Hv). eauto.
  - right. apply pairs_in. exact Hv.
Qed.
(** the two steps of a get may be far apart: the value is the one an undivided get had returned at the first *)
Theorem C26_get_atomic k h s0 t1 s1 t key t2 r s : codec_ok c -> entry_aligned k ->
  shared k h (t1 ++ EFind t key true :: t2 ++ [ERead t key r]) s0 s -> (forall key' r', ERead t key' r' ∉ t2) ->
  icrun c k s0 t1 s1 -> icrun c k s1 (EFind t key true :: t2 ++ [ERead t key r]) s -> r = ilm_get c (ic_ilm s1) key.
Proof.
  intros Hc Hk Hsh Hn Hr1 Hr2. destruct (shared_start _ _ _ _ _ Hc Hk Hsh) as (B & L & I & H & Hpc & _ & F1 & F2).
  change (EFind t key true :: t2 ++ [ERead t key r]) with ([EFind t key true] ++ (t2 ++ [ERead t key r])) in Hr2.
  apply icrun_split in Hr2 as (s3 & Hr3 & Hr4). apply icrun_split in Hr4 as (s4 & Hr4 & Hr5).
  assert (Hst3 := icrun_one _ _ _ _ Hr3). assert (Hst5 := icrun_one _ _ _ _ Hr5).
  destruct (pairs_prefix_bound t1 (EFind t key true :: t2 ++ [ERead t key r])) as [G1 G2].
  assert (Hall : icrun c k s0 (t1 ++ ([EFind t key true] ++ t2)) s4) by (eapply icrun_app; [exact Hr1|]; eapply icrun_app; eauto).
  destruct (pairs_prefix_bound (t1 ++ ([EFind t key true] ++ t2)) [ERead t key r]) as [G3 G4].
  assert (Heq : (t1 ++ ([EFind t key true] ++ t2)) ++ [ERead t key r] = t1 ++ EFind t key true :: t2 ++ [ERead t key r]) by (rewrite <- app_assoc; reflexivity).
  rewrite Heq in G3, G4.
  destruct (icrun_inv c Hc k s0 B L _ I Hk H t1 _ Hr1) as (B1 & L1 & I1 & H1 & _); [lia|lia|].
  destruct (icrun_inv c Hc k s0 B L _ I Hk H _ _ Hall) as (B2 & L2 & I2 & H2 & _); [lia|lia|].
  inversion Hst3; subst. inversion Hst5; subst. cbn [ic_ilm ic_pc] in *.
  assert (Hp : pcs0 !! t = Some (PFound key pos)).
  { change (ic_pc (Icst st0 pcs0) !! t = Some (PFound key pos)). eapply found_stays; [exact Hr4| |exact Hn]. cbn [ic_pc]. apply lookup_insert. }
  assert (pos0 = pos) as -> by congruence.
  unfold ilm_get. match goal with Hf : ilm_iter_from c st key = IOk (Some pos) |- _ => rewrite Hf end.
  pose proof (ci_found _ _ _ _ _ _ H2 t key pos Hp) as [v Hv].
  pose proof (ci_item c Hc _ _ _ _ _ _ _ _ H2 Hv) as Gv. rewrite N2Nat.id in Gv. cbn [ic_ilm] in Gv. rewrite Gv.
  assert (Hv1 : exists v1, (map (fun w => (w_key w, w_val w)) (map_after h) ++ pairs t1) !! N.to_nat pos = Some (key, v1)).
  { destruct (points_dec c Hc I1 key) as [Hno|[q Hq]].
    - pose proof (ci_from_none c Hc _ _ _ _ _ _ H1 Hno) as Q. cbn [ic_ilm] in Q. congruence.
    - pose proof (ci_from c Hc _ _ _ _ _ _ _ H1 Hq) as Q. cbn [ic_ilm] in Q.
      assert (pos = N.of_nat q) as -> by congruence. rewrite Nat2N.id. destruct Hq as (I3 & I4 & -> & _). apply (ci_in _ _ _ _ _ _ H1). apply elem_of_app. right. left. }
  destruct Hv1 as [v1 Hv1]. pose proof (ci_item c Hc _ _ _ _ _ _ _ _ H1 Hv1) as Gv1. rewrite N2Nat.id in Gv1. cbn [ic_ilm] in Gv1. rewrite Gv1.
  rewrite pairs_app, app_assoc, (lookup_app_l_Some _ _ _ _ Hv1) in Hv. injection Hv as ->. reflexivity.
Qed.
(** when no two appends of one key overlap, a get sees the append of that key that came last in the log *)
Theorem C26_latest k h tr s0 s t1 t key v t2 : codec_ok c -> entry_aligned k -> shared k h tr s0 s -> no_key_race tr ->
  tr = t1 ++ ELog t key v :: t2 -> EKey t ∈ t2 -> (forall t' v', ELog t' key v' ∉ t2) ->
  ilm_get c (ic_ilm s) key = IOk (Some v).
Proof.
  intros Hc Hk Hsh Hrace E Hd Hn. destruct (shared_start _ _ _ _ _ Hc Hk Hsh) as (B & L & I & H & Hpc & Hr & F1 & F2).
  destruct (latest_indexed c Hc k s0 B L _ I Hk H Hpc tr s Hr F1 F2 Hrace) as (B' & L' & I' & H' & _ & Hl).
  destruct (Hl _ _ _ _ _ E Hn) as [[_ Hp]|[Hp _]]; [|tauto]. eapply ci_get; [exact Hc|exact H'|exact Hp|]. rewrite E. apply lookup_pairs.
Qed.
(** values are iterated in the order of the log writes, whatever the interleaving *)
Theorem C26_iteration k h tr s0 s n : codec_ok c -> entry_aligned k -> shared k h tr s0 s ->
  let R := map w_val (map_after h) ++ concat (map (fun e => match e with ELog _ _ v => [v] | _ => [] end) tr) in
  ilm_iter c n (ic_ilm s) = (map IOk (take n R), length R <? n).
Proof.
  intros Hc Hk Hsh R. destruct (shared_start _ _ _ _ _ Hc Hk Hsh) as (B & L & I & H & Hpc & Hr & F1 & F2).
  destruct (icrun_inv c Hc k s0 B L _ I Hk H tr s Hr F1 F2) as (B' & L' & I' & H' & _).
  unfold ilm_iter. rewrite (iter_ok _ _ _ (ci_db _ _ _ _ _ _ H')) by (left; simpl; lia). rewrite (ci_log _ _ _ _ _ _ H'). rewrite drop_0.
  assert (HR : map snd (map (fun w => (w_key w, w_val w)) (map_after h) ++ pairs tr) = R).
  { unfold R. rewrite map_app, map_map. f_equal. clear. induction tr as [|e tr IH]; [reflexivity|]. unfold pairs in *. cbn [map concat]. rewrite map_app, IH. destruct e; reflexivity. }
  rewrite <- HR. generalize (map (fun w => (w_key w, w_val w)) (map_after h) ++ pairs tr) as F. intro F. rewrite !map_length. f_equal.
  revert n. induction F as [|w F IH]; intros [|n]; simpl; try reflexivity. destruct Hc as (_ & -> & _). f_equal. apply IH.
Qed.
End C26.

(** ** Witnesses, over CBOR-encoded 64-bit keys and values *)
Definition n64 (n : N) : u64 := match to_u64 n with Some a => a | None => exist _ 0%N eq_refl end.
Definition obs (r : ires (option u64)) : option (option N) := match r with IOk (Some a) => Some (Some (proj1_sig a)) | IOk None => Some None | _ => None end.
Definition after_open {A} (r : ires ilm) (f : ilm -> A) : option A := match r with IOk st => Some (f st) | _ => None end.

(** a crash right after an append that returned, with sled's buffer not yet written: the acknowledged value is
    not found under its key any more, the older one is; iteration shows it *)
Theorem C25_acknowledged_lost_refuted : exists (h : list (iop (K := u64) (V := u64))) st,
  h = [IAppend (n64 1) (n64 10); IAppend (n64 1) (n64 300); ICrash (n64 2) (n64 7) (ICLog CrashIndexStart) 1] /\
  ilm_open cbor small_cfg h = IOk st /\ obs (ilm_get cbor st (n64 1)) = Some (Some 10%N) /\
  map obs (map (fun x => match x with IOk v => IOk (Some v) | _ => IErr end) (fst (ilm_iter cbor 5 st))) = [Some (Some 10%N); Some (Some 300%N)].
Proof. eexists _, _. split; [reflexivity|]. split; [vm_compute; reflexivity|]. split; vm_compute; reflexivity. Qed.
(** a crash between the log write and the key insert: the map claims to be empty but iterates over a value *)
Theorem C25_empty_but_iterates_refuted : exists (h : list (iop (K := u64) (V := u64))) st,
  h = [ICrash (n64 1) (n64 10) ICBetween 0] /\ ilm_open cbor small_cfg h = IOk st /\
  ilm_is_empty st = IOk true /\ length (fst (ilm_iter cbor 5 st)) = 1 /\ obs (ilm_get cbor st (n64 1)) = Some None /\ obs (ilm_last cbor st) = Some (Some 10%N).
Proof. eexists _, _. split; [reflexivity|]. split; [vm_compute; reflexivity|]. repeat split; vm_compute; reflexivity. Qed.
(** two overlapping appends of one key: both have returned, the later one in the log is not the one found *)
Theorem C26_equal_keys_refuted : exists tr s0 s, shared cbor small_cfg [] tr s0 s /\
  tr = [ELog 1 (n64 5) (n64 10); ELog 2 (n64 5) (n64 20); EKey 2; EKey 1] /\ ic_pc s = ∅ /\ obs (ilm_get cbor (ic_ilm s) (n64 5)) = Some (Some 10%N).
Proof.
  destruct (ilm_open cbor small_cfg []) as [st| |] eqn:E; [|vm_compute in E; discriminate..].
  vm_compute in E. injection E as <-. eexists _, _, _. split; [|split; [reflexivity|]].
  - eexists. split; [vm_compute; reflexivity|]. split; [reflexivity|]. split.
    + eapply (ir_snoc _ _ _ [ELog 1 (n64 5) (n64 10); ELog 2 (n64 5) (n64 20); EKey 2]).
      1: eapply (ir_snoc _ _ _ [ELog 1 (n64 5) (n64 10); ELog 2 (n64 5) (n64 20)]).
      1: eapply (ir_snoc _ _ _ [ELog 1 (n64 5) (n64 10)]).
      1: eapply (ir_snoc _ _ _ []); [apply ir_nil|].
      * eapply is_log; [reflexivity|reflexivity|]. vm_compute. reflexivity.
      * eapply is_log; [reflexivity|reflexivity|]. vm_compute. reflexivity.
      * eapply is_key; [reflexivity|reflexivity].
      * eapply is_key; [reflexivity|reflexivity].
    + split; vm_compute; reflexivity.
  - split; [|cbn [ic_ilm]; vm_compute; reflexivity]. cbn [ic_pc]. apply map_empty. intro i. rewrite !lookup_delete_None.
    destruct (decide (1 = i)) as [|H1]; [auto|]. destruct (decide (2 = i)) as [|H2]; [auto|].
    right. right. rewrite !lookup_insert_ne by assumption. apply lookup_empty.
Qed.

(** the hypotheses of the theorems above are met *)
Example ex_ilm : exists st, let h := [IAppend (n64 1) (n64 10); IAppend (n64 2) (n64 70000); IReopen; IAppend (n64 1) (n64 300); IAppend (n64 3) (n64 4)] in
  ihistory_fits cbor small_cfg h /\ ilm_open cbor small_cfg h = IOk st /\ no_crash h /\
  obs (ilm_get cbor st (n64 1)) = Some (Some 300%N) /\ obs (ilm_get_next cbor st (Some (n64 1))) = Some (Some 4%N) /\ obs (ilm_get_next cbor st None) = Some (Some 10%N).
Proof.
  eexists. split; [split; vm_compute; reflexivity|]. split; [vm_compute; reflexivity|]. split.
  - intros key v p lost H. repeat (apply elem_of_cons in H as [H|H]; [discriminate|]). inversion H.
  - repeat split; vm_compute; reflexivity.
Qed.
Fixpoint closed_before (t : nat) (k : u64) (tr : list (istep_ev (K := u64) (V := u64))) : bool :=
  match tr with
  | [] => true
  | EKey t' :: r => if decide (t = t') then true else closed_before t k r
  | ELog _ k' _ :: r => if decide (proj1_sig k = proj1_sig k') then false else closed_before t k r
  | _ :: r => closed_before t k r
  end.
Fixpoint race_free (tr : list (istep_ev (K := u64) (V := u64))) : bool :=
  match tr with [] => true | ELog t k _ :: r => closed_before t k r && race_free r | _ :: r => race_free r end.
Lemma closed_before_ok t k t2 : forall t' v' t3, closed_before t k (t2 ++ ELog t' k v' :: t3) = true -> EKey t ∈ t2.
Proof.
  induction t2 as [|e t2 IH]; intros t' v' t3 H; simpl in H; [destruct (decide _); [discriminate|congruence]|].
  destruct e; try (right; eapply IH; eassumption).
  - destruct (decide _); [discriminate|]. right. eapply IH; eassumption.
  - destruct (decide _) as [->|]; [left|]. right. eapply IH; eassumption.
Qed.
Lemma race_free_ok tr : race_free tr = true -> no_key_race tr.
Proof.
  intros H t1. revert tr H. induction t1 as [|e t1 IH]; intros tr H t k v t2 t' v' t3 ->; simpl in H.
  - apply andb_prop in H as [H _]. eapply closed_before_ok; eassumption.
  - eapply (IH (t1 ++ ELog t k v :: t2 ++ ELog t' k v' :: t3)); [|reflexivity]. destruct e; try exact H. apply andb_prop in H as [_ H]. exact H.
Qed.
Example ex_shared : exists s0 s, let tr := [ELog 1 (n64 5) (n64 10); ELog 2 (n64 6) (n64 20); EKey 2; EKey 1] in
  shared cbor small_cfg [IAppend (n64 5) (n64 1)] tr s0 s /\ no_key_race tr /\ obs (ilm_get cbor (ic_ilm s) (n64 5)) = Some (Some 10%N).
Proof.
  eexists _, _. split; [|split; [apply race_free_ok; vm_compute; reflexivity|]].
  - eexists. split; [vm_compute; reflexivity|]. split; [reflexivity|]. split.
    + eapply (ir_snoc _ _ _ [ELog 1 (n64 5) (n64 10); ELog 2 (n64 6) (n64 20); EKey 2]).
      1: eapply (ir_snoc _ _ _ [ELog 1 (n64 5) (n64 10); ELog 2 (n64 6) (n64 20)]).
      1: eapply (ir_snoc _ _ _ [ELog 1 (n64 5) (n64 10)]).
      1: eapply (ir_snoc _ _ _ []); [apply ir_nil|].
      * eapply is_log; [reflexivity|reflexivity|]. vm_compute. reflexivity.
      * eapply is_log; [reflexivity|reflexivity|]. vm_compute. reflexivity.
      * eapply is_key; [reflexivity|reflexivity].
      * eapply is_key; [reflexivity|reflexivity].
    + split; vm_compute; reflexivity.
  - cbn [ic_ilm]. vm_compute; reflexivity.
Qed.

(** one traversal for all theorems of this file: what the tuple assumes is what any of them assumes *)
Definition all_ILogMapProps := (@C24_opens, @C24_latest, @C24_absent, @C24_whole, @C24_append_succeeds, @C24_memory, @C24_no_index, @C25_any_history, @C25_never_wrong, @C25_crash_in_append, @C25_acknowledged_lost_refuted, @C25_empty_but_iterates_refuted, @C26_get_sound, @C26_get_atomic, @C26_latest, @C26_iteration, @C26_equal_keys_refuted).
Print Assumptions all_ILogMapProps.
