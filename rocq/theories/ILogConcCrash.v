(** C26: the process dies while many threads use one indexed log map. *)
From Coq Require Import Lia ZArith.
From stdpp Require Import numbers list gmap.
From Verif Require Import FraosModel FraosSpec FraosProofs FraosLogProofs FraosCrashProofs FraosHistProofs ILogMapModel ILogMapSpec ILogMapProofs ILogMapConcProofs FraosProps ILogMapProps.

Section Crash.
Context {K V : Type} (c : codec K V).

(** At most one thread is inside the log append, of [v], under the write lock of the log (fraos/database.rs:86,
    storage.rs:73-76), and is cut off at [p].  Threads that have written to the log and not yet inserted
    their key (storage.rs:80-88) never do.  sled loses its newest [lost] inserts (storage.rs:44-47). *)
Definition conc_crash (k : cfg) (s : icst (K := K)) (v : V) (p : crash_point) (lost : nat) : ires ilm :=
  match files_op k (storage (ic_ilm s)) (FCrash [enc_val c v] p) with
  | Ok d => let m := default [] (key_to_seqno (ic_ilm s)) in IOk (Ilm d (Some (take (length m - lost) m)))
  | Err _ => IErr
  | Panic => IPanic
  end.

Lemma icrun_sized k s0 B0 L0 W0 I0 T n : codec_ok c -> cfg_ok k -> cinv c s0 B0 L0 W0 I0 -> sized k (storage (ic_ilm s0)) T n ->
  forall tr s, icrun c k s0 tr s -> (N.of_nat T < 2 ^ 64)%N -> (N.of_nat (16 * n) < 2 ^ 64)%N ->
  length B0 + tr_bytes c tr <= T -> length L0 + length (pairs tr) <= n -> sized k (storage (ic_ilm s)) T n.
Proof.
  intros Hc Hk H0 Hs tr s Hr FT Fn. induction Hr as [s0|s0 tr s1 e s2 Hr IH St]; intros F1 F2; [exact Hs|].
  unfold tr_bytes in *. rewrite pairs_snoc, sum_list_with_app, ?app_length in *. simpl sum_list_with in *.
  destruct (icrun_inv c Hc k s0 B0 L0 W0 I0 Hk H0 tr s1 Hr) as (B & L & I & H & HB & HL & _); [unfold tr_bytes; lia|lia|]. unfold tr_bytes in HB.
  specialize (IH H0 Hs ltac:(lia) ltac:(lia)). inversion St; subst; cbn [ic_ilm storage] in *; try exact IH.
  cbn [ev_bytes ev_pairs length] in *. eapply append_sized; [apply (ci_db _ _ _ _ _ _ H)| | |exact IH| | |eassumption]; try (repeat split; fail).
  - simpl concat. rewrite app_nil_r. lia.
  - simpl. lia.
Qed.

Lemma entries_take m (I : list (K * nat)) : take m (entries_of c I) = entries_of c (take m I).
Proof. unfold entries_of. symmetry. apply (fmap_take (fun e : K * nat => (enc_key c e.1, json_of_pos (N.of_nat e.2)))). Qed.

(** *** after the crash the map opens and holds, in the order of the log writes, every value written to the log, with
    or without that of the append that was cut off; a key is answered with a value appended for it, or not at all;
    if sled lost nothing, every key is answered as just before the crash *)
Theorem C26_crash k h tr s0 s key v p lost : codec_ok c -> entry_aligned k -> shared c k h tr s0 s ->
  ihistory_fits c k (h ++ trace_appends tr ++ [IAppend key v]) ->
  let R := map w_val (map_after h) ++ concat (map (fun e => match e with ELog _ _ v => [v] | _ => [] end) tr) in
  exists st R', conc_crash k s v p lost = IOk st /\ (R' = R \/ R' = R ++ [v]) /\
    (forall n, ilm_iter c n st = (map IOk (take n R'), length R' <? n)) /\
    (forall key', ilm_get c st key' = IOk None \/
       exists v', ilm_get c st key' = IOk (Some v') /\ ((exists b, Written key' v' b ∈ map_after h) \/ exists t, ELog t key' v' ∈ tr)) /\
    (lost = 0 -> forall key', ilm_get c st key' = ilm_get c (ic_ilm s) key').
Proof.
  intros Hc Hk (st0 & E & -> & Hr & _) Hf R.
  destruct (ilm_open_ok c Hc k h (trace_appends tr ++ [IAppend key v]) Hk Hf) as (st1 & B0 & L0 & E0 & H0 & Hs0 & HB & HL). rewrite E in E0. injection E0 as <-.
  destruct Hf as [F1 F2]. fold (batches (map (log_op c) (h ++ trace_appends tr ++ [IAppend key v]))) in F1, F2.
  set (T := length (concat (batches (map (log_op c) (h ++ trace_appends tr ++ [IAppend key v]))))) in *.
  set (n0 := length (batches (map (log_op c) (h ++ trace_appends tr ++ [IAppend key v])))) in *.
  rewrite map_app, batches_app, trace_appends_pairs in HB, HL. change (batches (map (log_op c) [IAppend key v])) with [enc_val c v] in HB, HL.
  rewrite concat_app, !app_length, <- tr_bytes_pairs in HB. rewrite app_length, map_length in HL. simpl concat in HB. rewrite app_nil_r in HB. cbn [length] in HL.
  set (W0 := map (fun w => (w_key w, w_val w)) (map_after h)).
  assert (Hi0 : cinv c (Icst st0 ∅) B0 L0 W0 (positions_of 0 (map_after h))).
  { split; cbn [ic_ilm ic_pc].
    - apply (so_db _ _ _ _ _ H0).
    - rewrite (so_log _ _ _ _ _ H0). unfold W0. rewrite map_map. reflexivity.
    - rewrite (so_idx _ _ _ _ _ H0). f_equal. apply positions_index.
    - intros key' q Hi. apply positions_in in Hi as (_ & v' & Hv). rewrite Nat.sub_0_r in Hv. eauto.
    - intros t key' q Hp. rewrite lookup_empty in Hp. discriminate.
    - intros t key' q Hp. rewrite lookup_empty in Hp. discriminate. }
  destruct (icrun_inv c Hc k _ _ _ _ _ Hk Hi0 tr s Hr) as (B & L & I & H & HB1 & HL1 & _); [lia..|].
  assert (Hsz : sized k (storage (ic_ilm s)) T n0) by (apply (icrun_sized k _ _ _ _ _ T n0 Hc Hk Hi0 Hs0 tr s Hr); lia).
  destruct (files_op_ok k (storage (ic_ilm s)) B L (FCrash [enc_val c v] p) T n0 Hk (ci_db _ _ _ _ _ _ H) Hsz F1 F2)
    as (d & B' & L' & Ed & Hok & _ & _ & _ & St & _); [cbn [op_batch concat]; rewrite app_nil_r; lia|cbn [op_batch length]; lia|discriminate|].
  set (WL := W0 ++ pairs tr) in *.
  assert (HW : exists X, map snd L' = map (fun q => enc_val c q.2) (WL ++ X) /\ (X = [] \/ X = [(key, v)])).
  { assert (HL' : map snd L' = map snd L ++ take (crash_kept [enc_val c v] p) [enc_val c v]) by (inversion St; congruence).
    rewrite (ci_log _ _ _ _ _ _ H) in HL'. destruct (crash_kept [enc_val c v] p) as [|j].
    - exists []. split; [|left; reflexivity]. rewrite HL'. cbn [take]. rewrite !app_nil_r. reflexivity.
    - exists [(key, v)]. split; [|right; reflexivity]. rewrite HL', map_app. cbn [take map snd]. rewrite take_nil. reflexivity. }
  destruct HW as (X & HX & HXc).
  assert (HI := ci_idx _ _ _ _ _ _ H). set (m := length (entries_of c I) - lost).
  assert (H' : cinv c (Icst (Ilm d (Some (take m (entries_of c I)))) ∅) B' L' (WL ++ X) (take m I)).
  { split; cbn [ic_ilm ic_pc storage key_to_seqno].
    - exact Hok.
    - exact HX.
    - f_equal. apply entries_take.
    - intros key' q Hi. apply elem_of_list_lookup in Hi as [i Hi]. apply lookup_take_Some in Hi as [Hi _]. apply elem_of_list_lookup_2 in Hi.
      destruct (ci_in _ _ _ _ _ _ H _ _ Hi) as [v' Hv]. exists v'. apply lookup_app_l_Some. exact Hv.
    - intros t key' q Hp. rewrite lookup_empty in Hp. discriminate.
    - intros t key' q Hp. rewrite lookup_empty in Hp. discriminate. }
  assert (HR : map snd WL = R).
  { unfold WL, W0, R. rewrite map_app, map_map. f_equal. clear. induction tr as [|e tr IH]; [reflexivity|]. unfold pairs in *. cbn [map concat]. rewrite map_app, IH. destruct e; reflexivity. }
  assert (Hsub : forall key' q, (key', q) ∈ take m I -> exists v', WL !! q = Some (key', v')).
  { intros key' q Hi. apply elem_of_list_lookup in Hi as [i Hi]. apply lookup_take_Some in Hi as [Hi _]. apply elem_of_list_lookup_2 in Hi. apply (ci_in _ _ _ _ _ _ H _ _ Hi). }
  assert (Hgets : forall key' q v', points (take m I) key' q -> WL !! q = Some (key', v') ->
     ilm_get c (Ilm d (Some (take m (entries_of c I)))) key' = IOk (Some v')).
  { intros key' q v' Hp Hv. eapply (ci_get c Hc _ _ _ _ _ key' q v' H' Hp). apply lookup_app_l_Some. exact Hv. }
  assert (Hnone : forall key', (forall q, (key', q) ∉ take m I) -> ilm_get c (Ilm d (Some (take m (entries_of c I)))) key' = IOk None).
  { intros key' Hn. unfold ilm_get. pose proof (ci_from_none c Hc _ _ _ _ _ key' H' Hn) as G. cbn [ic_ilm] in G. rewrite G. reflexivity. }
  exists (Ilm d (Some (take m (entries_of c I)))), (map snd (WL ++ X)). unfold conc_crash. rewrite Ed, HI. cbn [default]. split; [reflexivity|].
  split; [rewrite map_app, HR; destruct HXc as [-> | ->]; [left; apply app_nil_r|right; reflexivity]|]. split; [|split].
  - intro n. pose proof (iter_ok _ _ _ (ci_db _ _ _ _ _ _ H') n 0%N) as G. cbn [ic_ilm storage] in G. unfold ilm_iter. cbn [storage]. rewrite G by (left; simpl; lia).
    rewrite (ci_log _ _ _ _ _ _ H'), drop_0. generalize (WL ++ X) as F. intro F. rewrite !map_length. f_equal.
    clear G. revert n. induction F as [|w F IH]; intros [|n]; simpl; try reflexivity. destruct Hc as (_ & -> & _). f_equal. apply IH.
  - intro key'. destruct (points_dec c Hc (take m I) key') as [Hn|[q Hp]]; [left; apply Hnone; exact Hn|right].
    assert (Hq : (key', q) ∈ take m I) by (destruct Hp as (I1 & I2 & -> & _); apply elem_of_app; right; left).
    destruct (Hsub _ _ Hq) as [v' Hv]. exists v'. split; [eapply Hgets; eauto|].
    apply elem_of_list_lookup_2, elem_of_app in Hv as [Hv|Hv].
    + left. apply elem_of_list_fmap in Hv as ([k0 v0 b0] & [= -> ->] & Hv). eauto.
    + right. apply pairs_in. exact Hv.
  - intros -> key'. assert (Hm : take m I = I) by (apply take_ge; unfold m, entries_of; rewrite map_length; lia). rewrite Hm in *.
    destruct (points_dec c Hc I key') as [Hn|[q Hp]].
    + rewrite (Hnone _ Hn). unfold ilm_get. rewrite (ci_from_none c Hc _ _ _ _ _ key' H Hn). reflexivity.
    + assert (Hq : (key', q) ∈ I) by (destruct Hp as (I1 & I2 & -> & _); apply elem_of_app; right; left).
      destruct (Hsub _ _ Hq) as [v' Hv]. rewrite (Hgets _ _ _ Hp Hv). symmetry. eapply ci_get; eauto.
Qed.
End Crash.

(** thread 2 has returned; thread 1 has written its value and not its key; a third append is cut off between the two
    words of its index entry, or after them *)
Definition crash_trace : list (istep_ev (K := u64) (V := u64)) := [ELog 1 (n64 5) (n64 10); ELog 2 (n64 6) (n64 20); EKey 2].
Definition crash_answers (s : icst (K := u64)) (p : crash_point) (lost : nat) : list (option (option N)) * list (option N) :=
  match conc_crash cbor small_cfg s (n64 30) p lost with
  | IOk st => (map (fun k => obs (ilm_get cbor st (n64 k))) [5; 6; 7]%N, map (fun r => match r with IOk x => Some (proj1_sig (x : u64)) | _ => None end) (fst (ilm_iter cbor 10 st)))
  | _ => ([], [])
  end.
Example C26_crash_case : exists s0 s, codec_ok cbor /\ entry_aligned small_cfg /\ shared cbor small_cfg [] crash_trace s0 s /\
  ihistory_fits cbor small_cfg ([] ++ trace_appends crash_trace ++ [IAppend (n64 7) (n64 30)]) /\
  crash_answers s (CrashIndexWords 1) 0 = ([Some None; Some (Some 20); Some None], [Some 10; Some 20])%N /\
  crash_answers s (CrashIndexWords 2) 1 = ([Some None; Some None; Some None], [Some 10; Some 20; Some 30])%N.
Proof.
  destruct (ilm_open cbor small_cfg []) as [st| |] eqn:E; [|vm_compute in E; discriminate..].
  vm_compute in E. injection E as <-. eexists _, _. split; [exact cbor_ok|]. split; [reflexivity|]. split; [|split; [split; vm_compute; reflexivity|]].
  - eexists. split; [vm_compute; reflexivity|]. split; [reflexivity|]. split.
    + eapply (ir_snoc _ _ _ [ELog 1 (n64 5) (n64 10); ELog 2 (n64 6) (n64 20)]).
      1: eapply (ir_snoc _ _ _ [ELog 1 (n64 5) (n64 10)]).
      1: eapply (ir_snoc _ _ _ []); [apply ir_nil|].
      * eapply is_log; [reflexivity|reflexivity|]. vm_compute. reflexivity.
      * eapply is_log; [reflexivity|reflexivity|]. vm_compute. reflexivity.
      * eapply is_key; [reflexivity|reflexivity].
    + split; vm_compute; reflexivity.
  - split; vm_compute; reflexivity.
Qed.
Definition all_ILogConcCrash := @C26_crash.
Print Assumptions all_ILogConcCrash.
