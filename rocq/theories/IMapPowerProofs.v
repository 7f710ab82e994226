From Coq Require Import Lia ZArith.
From stdpp Require Import numbers list gmap.
From Verif Require Import FraosModel FraosSpec FraosProofs FraosLogProofs FraosCrashProofs FraosHistProofs.
From Verif Require Import FraosPowerModel FraosPowerSpec FraosPowerProofs FraosPowerHist FraosPowerProps.
From Verif Require Import ILogMapModel ILogMapSpec ILogMapProofs IMapPowerModel IMapPowerSpec.

(** a log written record by record is not torn *)
Lemma by_record_torn_free k dk h : sector_aligned dk -> Forall by_record h -> forall s, along k dk (torn_free dk) s h.
Proof.
  intro Hdk. induction h as [|o h IH]; intros Hr s; [exact I|].
  apply Forall_cons in Hr as [Ho Hr]. cbn [along]. split; [|destruct (pop_apply k dk s o); [apply IH; exact Hr|exact I..]].
  destruct o as [| |recs p|recs m df xf]; try exact I; [exact Ho|]. destruct m; try exact I. cbn [torn_free by_record] in *.
  destruct recs as [|r [|r' recs]]; [left; reflexivity| |cbn [length] in Ho; lia]. right; right. unfold one_sector.
  destruct Hdk as (D1 & D2 & _). replace (16 * (db_len (ps_db s) + length [r]) - 1) with (16 * db_len (ps_db s) + 15) by (cbn [length]; lia).
  symmetry. apply sector_entry; [exact D1|exact D2|lia].
Qed.

Section Proofs.
Context {K V : Type} (c : codec K V).
Hypothesis Hc : codec_ok c.
Notation W := (written K V).
Notation mop := (mop (K := K) (V := V)).

Lemma log_ops_by_record (o : mop) : nothing_found c o -> Forall by_record (log_ops c o).
Proof. destruct o; intro H; repeat constructor; try exact H; simpl; lia. Qed.

Record mok (k : cfg) (s : mstate) (B : list N) (L : list placed) (E : list W) (T n : nat) : Prop := MOk {
  mo_log : pinv k (m_disk s) B L T n;
  mo_vals : map snd L = map (enc_val c) (map w_val E);
  mo_keys : m_keys s = index_from c 0 E }.
Lemma mok_state k s B L E T n : mok k s B L E T n -> state_ok c (m_map s) B L E.
Proof.
  intros [H1 H2 H3]. split; cbn [m_map storage key_to_seqno]; [apply (pi_db _ _ _ _ _ _ H1)|rewrite H2, map_map; reflexivity|rewrite H3; reflexivity].
Qed.

Lemma plog_one R o R' : plog_after R [o] R' -> plog_step R o R'.
Proof. intro H. inversion H as [|? ? ? ? ? H1 H2]; subst. inversion H2; subst. exact H1. Qed.
Lemma prefix_one {A} (l : list A) x : l `prefix_of` [x] -> l = [] \/ l = [x].
Proof.
  intros [r E]. destruct l as [|y l]; [left; reflexivity|]. right. injection E as -> E. symmetry in E. apply app_eq_nil in E as [-> _]. reflexivity.
Qed.

Lemma keep_step E lost : sled_without lost (index_from c 0 E) = index_from c 0 (forget lost E).
Proof. destruct (forget_ok c E lost) as [-> _]. reflexivity. Qed.
Lemma keep_unknown E k v : index_from c 0 (E ++ [Written k v false]) = index_from c 0 E.
Proof. rewrite index_from_app. cbn [index_from w_indexed app]. rewrite app_nil_r. reflexivity. Qed.
Lemma forget_vals (E : list W) lost : map w_val (forget lost E) = map w_val E.
Proof. unfold forget. apply keep_vals. Qed.

Lemma mop_ok k dk s B L E o T n :
  cfg_ok k -> sector_aligned dk -> (N.of_nat (T + min_mmap k) < 2 ^ 64)%N -> (N.of_nat (16 * n + min_mmap k) < 2 ^ 64)%N ->
  mok k s B L E T n -> along k dk (left_on_disk k dk) (m_disk s) (log_ops c o) -> nothing_found c o ->
  length B + length (concat (pbatches (log_ops c o))) <= T -> length L + length (pbatches (log_ops c o)) <= n ->
  exists s' B' L' E', mop_apply c k dk s o = IOk s' /\ prun k dk (m_disk s) (log_ops c o) = Ok (m_disk s') /\ mok k s' B' L' E' T n /\ entries_step E o E' /\
    length B' <= length B + length (concat (pbatches (log_ops c o))) /\ length L' <= length L + length (pbatches (log_ops c o)).
Proof.
  intros Hk Hdk FT Fn H Hl Hn HB HL.
  destruct (prun_ok k dk T n Hk Hdk FT Fn _ _ _ _ (mo_log _ _ _ _ _ _ _ H) Hl (by_record_torn_free k dk _ Hdk (log_ops_by_record o Hn) _) HB HL)
    as (p & B' & L' & Ep & Hp & HB' & HL' & Hlog & _).
  assert (Hne : forall v, has_empty [enc_val c v] = false) by (intro v; apply has_empty_false; constructor; [apply Hc|constructor]).
  unfold mop_apply. rewrite Ep. rewrite (mo_vals _ _ _ _ _ _ _ H) in Hlog.
  destruct o as [key v| |key v q lost|key v m df xf lost|key v df xf lost]; cbn [log_ops] in *.
  - apply plog_one in Hlog. inversion Hlog as [R recs G|R recs G| | | |]; subst; [|rewrite Hne in G; discriminate].
    destruct (ilm_append_ok c Hc k (m_map s) B L E key v Hk (mok_state _ _ _ _ _ _ _ H)) as (d & _ & -> & _).
    { unfold pbatches in *. cbn [map concat pop_batch app] in HB, HL. rewrite !app_nil_r in HB. cbn [length] in HL.
      split; rewrite app_length, ?place_length; cbn [length]; lia. }
    eexists (MState p _), B', L', (E ++ [Written key v true]). split; [reflexivity|]. split; [reflexivity|]. split; [|split; [constructor|auto]].
    split; [exact Hp| |reflexivity]. rewrite !map_app. cbn [map w_val]. symmetry. assumption.
  - apply plog_one in Hlog. inversion Hlog as [| |R| | |]; subst.
    eexists (MState p _), B', L', E. split; [reflexivity|]. split; [reflexivity|]. split; [|split; [constructor|auto]].
    split; [exact Hp|congruence|apply (mo_keys _ _ _ _ _ _ _ H)].
  - apply plog_one in Hlog. inversion Hlog as [| | |R recs q'| |]; subst.
    eexists (MState p _), B', L', (forget lost E). split; [reflexivity|]. split; [reflexivity|]. split; [|split; [constructor|auto]].
    split; [exact Hp|rewrite forget_vals; congruence|]. cbn [m_keys]. rewrite (mo_keys _ _ _ _ _ _ _ H). apply keep_step.
  - apply plog_one in Hlog.
    assert (Hcase : map snd L' = map (enc_val c) (map w_val E) \/ (m = MIndex /\ map snd L' = map (enc_val c) (map w_val E) ++ [enc_val c v])).
    { inversion Hlog as [| | | |R recs m' df' xf'|R recs df' xf' kept G Hpre]; subst; [left; congruence|].
      apply prefix_one in Hpre as [->| ->]; [left; rewrite app_nil_r in *; congruence|right; split; congruence]. }
    destruct Hcase as [Hv|[-> Hv]].
    + eexists (MState p _), B', L', (forget lost E). split; [reflexivity|]. split; [reflexivity|]. split; [|split; [constructor|auto]].
      split; [exact Hp|rewrite forget_vals; congruence|]. cbn [m_keys]. rewrite (mo_keys _ _ _ _ _ _ _ H). apply keep_step.
    + eexists (MState p _), B', L', (forget lost E ++ [Written key v false]). split; [reflexivity|]. split; [reflexivity|].
      split; [|split; [apply es_power_written|auto]].
      split; [exact Hp| |].
      * rewrite Hv, !map_app, forget_vals. reflexivity.
      * cbn [m_keys]. rewrite (mo_keys _ _ _ _ _ _ _ H), keep_unknown. apply keep_step.
  - inversion Hlog as [|? ? R1 ? ? H1 H2]; subst. apply plog_one in H2. clear Hlog.
    inversion H1 as [R recs G|R recs G| | | |]; subst; [|rewrite Hne in G; discriminate].
    assert (Hv : map snd L' = map (enc_val c) (map w_val E) ++ [enc_val c v]) by (inversion H2; subst; congruence).
    eexists (MState p _), B', L', (forget lost E ++ [Written key v false]). split; [reflexivity|]. split; [reflexivity|].
    split; [|split; [constructor|auto]].
    split; [exact Hp| |].
    + rewrite Hv, !map_app, forget_vals. reflexivity.
    + cbn [m_keys]. rewrite (mo_keys _ _ _ _ _ _ _ H), keep_unknown. apply keep_step.
Qed.

Lemma pbatches_app h1 h2 : pbatches (h1 ++ h2) = pbatches h1 ++ pbatches h2.
Proof. unfold pbatches. rewrite map_app, concat_app. reflexivity. Qed.

Lemma mrun_ok k dk T n :
  cfg_ok k -> sector_aligned dk -> (N.of_nat (T + min_mmap k) < 2 ^ 64)%N -> (N.of_nat (16 * n + min_mmap k) < 2 ^ 64)%N ->
  forall h s B L E, mok k s B L E T n -> along k dk (left_on_disk k dk) (m_disk s) (log_history c h) -> Forall (nothing_found c) h ->
  length B + length (concat (pbatches (log_history c h))) <= T -> length L + length (pbatches (log_history c h)) <= n ->
  exists s' B' L' E', mrun c k dk s h = IOk s' /\ mok k s' B' L' E' T n /\ entries_after E h E'.
Proof.
  intros Hk Hdk FT Fn. induction h as [|o h IH]; intros s B L E H Hl Hn HB HL.
  - exists s, B, L, E. split; [reflexivity|]. split; [exact H|constructor].
  - apply Forall_cons in Hn as [Ho Hn]. unfold log_history in *. cbn [map concat] in *.
    rewrite pbatches_app, ?concat_app, !app_length in *. destruct (along_app _ _ _ _ _ _ Hl) as [Hl1 Hl2].
    destruct (mop_ok k dk s B L E o T n Hk Hdk FT Fn H Hl1 Ho) as (s1 & B1 & L1 & E1 & Ea & Ep & H1 & St & HB1 & HL1); [lia..|].
    destruct (IH s1 B1 L1 E1 H1 (Hl2 _ Ep) Hn) as (s2 & B2 & L2 & E2 & Er & H2 & St2); [lia..|].
    exists s2, B2, L2, E2. cbn [mrun]. rewrite Ea. split; [exact Er|]. split; [exact H2|]. econstructor; eauto.
Qed.

Lemma mopen_ok k dk h : cfg_ok k -> sector_aligned dk -> possible c k dk h -> Forall (nothing_found c) h ->
  exists s E, mopen c k dk h = IOk s /\ entries_after [] h E /\ shows c (m_map s) E.
Proof.
  intros Hk Hdk [[F1 F2] Hl] Hn. fold (pbatches (log_history c h)) in F1, F2.
  destruct (pinv_empty k (length (concat (pbatches (log_history c h)))) (length (pbatches (log_history c h)))) as (d & Ed & H).
  unfold along_new in Hl. unfold mopen. rewrite Ed in *.
  destruct (mrun_ok k dk _ _ Hk Hdk F1 F2 h (MState (PState d [[]] [[]]) []) [] [] [] ltac:(split; [exact H|reflexivity|reflexivity]) Hl Hn)
    as (s & B & L & E & Er & Hm & St); [cbn [length]; lia..|].
  exists s, E. split; [exact Er|]. split; [exact St|]. eapply shows_ok; [exact Hc|]. eapply mok_state. exact Hm.
Qed.

(** *** what such a list of entries holds *)
Definition pair_of (w : W) : K * V := (w_key w, w_val w).
Lemma keep_pairs (E : list W) : forall m, map pair_of (keep_indexed m E) = map pair_of E.
Proof. induction E as [|[k v []] E IH]; intros m; simpl; [reflexivity| |]; [destruct m; simpl; rewrite IH|rewrite IH]; reflexivity. Qed.
Lemma keep_known (E : list W) k v : forall m, Written k v true ∈ keep_indexed m E -> Written k v true ∈ E.
Proof.
  induction E as [|[k' v' []] E IH]; intros m H; simpl in *; [exact H| |].
  - destruct m; apply elem_of_cons in H as [H|H]; [discriminate|right; eauto|rewrite H; left|right; eauto].
  - apply elem_of_cons in H as [H|H]; [discriminate|right; eauto].
Qed.
Lemma keep_all (E : list W) : forall m, indexed_count E <= m -> keep_indexed m E = E.
Proof.
  unfold indexed_count. induction E as [|[k v []] E IH]; intros m H; [reflexivity| |].
  - rewrite filter_cons_True in H by reflexivity. cbn [length] in H. destruct m; [lia|]. cbn [keep_indexed]. rewrite IH by lia. reflexivity.
  - rewrite filter_cons_False in H by discriminate. cbn [keep_indexed]. rewrite IH by lia. reflexivity.
Qed.
Lemma forget_none (E : list W) : forget 0 E = E.
Proof. unfold forget. rewrite Nat.sub_0_r. apply keep_all. lia. Qed.

Lemma entries_known (E : list W) (h : list mop) (E' : list W) : entries_after E h E' -> forall k v, Written k v true ∈ E' -> Written k v true ∈ E \/ (k, v) ∈ completed h.
Proof.
  induction 1 as [E|E o E1 h E2 St _ IH]; intros k v Hi; [left; exact Hi|]. unfold completed. cbn [map concat]. fold (completed h).
  destruct (IH k v Hi) as [G|G]; [|right; apply elem_of_app; right; exact G].
  inversion St; subst; rewrite ?elem_of_app, ?elem_of_list_singleton in *.
  - destruct G as [G|G]; [left; exact G|]. injection G as -> ->. right. left. reflexivity.
  - left. exact G.
  - left. eapply keep_known. exact G.
  - left. eapply keep_known. exact G.
  - destruct G as [G|G]; [left; eapply keep_known; exact G|discriminate].
  - destruct G as [G|G]; [left; eapply keep_known; exact G|discriminate].
Qed.
Lemma entries_pairs (E : list W) (h : list mop) (E' : list W) : entries_after E h E' -> exists new, map pair_of E' = map pair_of E ++ new /\ completed h `sublist_of` new /\ new `sublist_of` begun h.
Proof.
  induction 1 as [E|E o E1 h E2 St _ (new & Hn & Hs1 & Hs2)].
  - exists []. rewrite app_nil_r. split; [reflexivity|]. split; constructor.
  - unfold completed, begun. cbn [map concat]. fold (completed h). fold (begun h). rewrite Hn.
    inversion St; subst; unfold forget in *; rewrite ?map_app, ?keep_pairs, <- ?app_assoc; cbn [map pair_of app w_key w_val].
    + exists ((k, v) :: new). split; [reflexivity|]. split; apply sublist_skip; assumption.
    + exists new. auto.
    + exists new. auto.
    + exists new. split; [reflexivity|]. split; [exact Hs1|]. apply sublist_cons. exact Hs2.
    + exists ((k, v) :: new). split; [reflexivity|]. split; [apply sublist_cons; exact Hs1|apply sublist_skip; exact Hs2].
    + exists ((k, v) :: new). split; [reflexivity|]. split; [apply sublist_cons; exact Hs1|apply sublist_skip; exact Hs2].
Qed.
Definition known (E : list W) : list (K * V) := map pair_of (filter (fun w => w_indexed w = true) E).
Lemma known_app E1 E2 : known (E1 ++ E2) = known E1 ++ known E2.
Proof. unfold known. rewrite filter_app, map_app. reflexivity. Qed.
Lemma entries_kept (E : list W) (h : list mop) (E' : list W) : entries_after E h E' -> Forall keys_kept h -> known E' = known E ++ completed h.
Proof.
  induction 1 as [E|E o E1 h E2 St _ IH]; intro Hk; [unfold completed; cbn; rewrite app_nil_r; reflexivity|].
  apply Forall_cons in Hk as [Ho Hk]. rewrite (IH Hk). unfold completed. cbn [map concat]. fold (completed h).
  inversion St; subst; cbn [keys_kept] in Ho; subst; rewrite ?forget_none, ?known_app; try reflexivity.
  - rewrite <- app_assoc. reflexivity.
  - change (known [Written k v false]) with (@nil (K * V)). rewrite app_nil_r. reflexivity.
  - change (known [Written k v false]) with (@nil (K * V)). rewrite app_nil_r. reflexivity.
Qed.
(** the last known entry of a key *)
Lemma known_split E l1 k v l2 : known E = l1 ++ (k, v) :: l2 -> exists E1 E2, E = E1 ++ Written k v true :: E2 /\ known E2 = l2.
Proof.
  revert l1. induction E as [|[k' v' b] E IH]; intros l1 H; [destruct l1; discriminate|]. unfold known in H. destruct b.
  - rewrite filter_cons_True in H by reflexivity. cbn [map pair_of w_key w_val] in H. fold (known E) in H. destruct l1 as [|p l1].
    + injection H as -> -> H. exists [], E. split; [reflexivity|exact H].
    + injection H as _ H. destruct (IH l1 H) as (E1 & E2 & -> & G). exists (Written k' v' true :: E1), E2. split; [reflexivity|exact G].
  - rewrite filter_cons_False in H by discriminate. fold (known E) in H. destruct (IH l1 H) as (E1 & E2 & -> & G).
    exists (Written k' v' false :: E1), E2. split; [reflexivity|exact G].
Qed.
Lemma known_in (E : list W) k v : Written k v true ∈ E -> (k, v) ∈ known E.
Proof.
  intro H. unfold known. change (k, v) with (pair_of (Written k v true)). apply elem_of_list_fmap_1. apply elem_of_list_filter. split; [reflexivity|exact H].
Qed.
End Proofs.
