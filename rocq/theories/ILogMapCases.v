(** Concrete cases meeting the hypotheses of the theorems of ILogMapProps.v, one per theorem and named after it. *)
From Coq Require Import Lia ZArith.
From stdpp Require Import numbers list gmap.
From Verif Require Import FraosModel FraosSpec ILogMapModel ILogMapSpec FraosProps ILogMapProps.

Local Ltac run := vm_compute; reflexivity.
Local Ltac none := let H := fresh in intros ? ? ? ? H; repeat (apply elem_of_cons in H as [H|H]; [discriminate|]); inversion H.

(** keys 1 and 2, key 1 written twice, closed in between *)
Notation iops := (list (iop (K := u64) (V := u64))).
Definition ih : iops := [IAppend (n64 1) (n64 10); IAppend (n64 2) (n64 70000); IReopen; IAppend (n64 1) (n64 300); IAppend (n64 3) (n64 4)].
Lemma n64_val n : (n < 2 ^ 64)%N -> proj1_sig (n64 n) = n.
Proof. intro H. unfold n64, to_u64. destruct (decide _) as [D|D]; [reflexivity|]. apply N.ltb_lt in H. congruence. Qed.
Lemma n64_neq a b : (a < 2 ^ 64)%N -> (b < 2 ^ 64)%N -> a <> b -> n64 a <> n64 b.
Proof. intros Ha Hb H E. apply H. rewrite <- (n64_val a Ha), <- (n64_val b Hb), E. reflexivity. Qed.
Lemma ih_fits : entry_aligned small_cfg /\ ihistory_fits cbor small_cfg ih /\ no_crash ih.
Proof. split; [reflexivity|]. split; [split; run|none]. Qed.
Lemma ih_open : exists st, ilm_open cbor small_cfg ih = IOk st.
Proof. eexists. run. Qed.
Local Ltac fits := split; run.
Local Ltac notin := let H := fresh in intro H; cbn [map fst appended concat app] in H;
  repeat (apply elem_of_cons in H as [H|H]; [revert H; apply n64_neq; [reflexivity|reflexivity|discriminate]|]); inversion H.

Example C24_opens_case : codec_ok cbor /\ entry_aligned small_cfg /\ ihistory_fits cbor small_cfg ih /\ no_crash ih /\ length (appended ih) = 4.
Proof. split; [exact cbor_ok|]. destruct ih_fits as (A & F & N). split; [exact A|]. split; [exact F|]. split; [exact N|reflexivity]. Qed.
(** key 1 written twice: the later value counts *)
Example C24_latest_case : (exists st, ilm_open cbor small_cfg ih = IOk st) /\
  exists W1 W2, appended ih = W1 ++ (n64 1, n64 300) :: W2 /\ n64 1 ∉ map fst W2 /\ length W1 = 2 /\ length W2 = 1.
Proof.
  split; [exact ih_open|]. exists [(n64 1, n64 10); (n64 2, n64 70000)], [(n64 3, n64 4)]. split; [reflexivity|].
  split; [notin|]. split; reflexivity.
Qed.
Example C24_absent_case : n64 7 ∉ map fst (appended ih).
Proof. notin. Qed.
Example C24_append_succeeds_case : ihistory_fits cbor small_cfg (ih ++ [IAppend (n64 9) (n64 (2 ^ 63))]) /\ exists st, ilm_open cbor small_cfg ih = IOk st.
Proof. split; [fits|exact ih_open]. Qed.
Example C24_memory_case : (N.of_nat (length (concat (map (fun p => enc_val cbor p.2) (appended ih)))) < 2 ^ 64)%N /\ (N.of_nat (16 * length (appended ih)) < 2 ^ 64)%N.
Proof. split; run. Qed.

(** a crash while the log is written, which takes the newest entry of the key index with it, later one between the
    two writes *)
Definition ch : iops := ih ++ [ICrash (n64 5) (n64 50) (ICLog (CrashIndexWords 1)) 1; IAppend (n64 6) (n64 60); ICrash (n64 1) (n64 11) ICBetween 0].
Example C25_any_history_case : ihistory_fits cbor small_cfg ch /\
  map (fun w => (proj1_sig (w_key w), proj1_sig (w_val w), w_indexed w)) (map_after ch) =
  [(1, 10, true); (2, 70000, true); (1, 300, true); (3, 4, false); (6, 60, true); (1, 11, false)]%N.
Proof. split; [fits|run]. Qed.
Example C25_never_wrong_case : exists st, ilm_open cbor small_cfg ch = IOk st /\ obs (ilm_get cbor st (n64 1)) = Some (Some 300%N) /\
  obs (ilm_get cbor st (n64 3)) = Some None /\ obs (ilm_get cbor st (n64 6)) = Some (Some 60%N).
Proof. eexists. split; [run|]. split; [run|]. split; run. Qed.
Example C25_crash_in_append_case : exists st st' R, ihistory_fits cbor small_cfg (ih ++ [ICrash (n64 1) (n64 11) ICBetween 0]) /\
  ilm_open cbor small_cfg ih = IOk st /\ ilm_op cbor small_cfg st (ICrash (n64 1) (n64 11) ICBetween 0) = IOk st' /\
  (forall n, ilm_iter cbor n st = (map IOk (take n R), length R <? n)) /\ length R = 4.
Proof.
  destruct ih_fits as (A & F & N). destruct (C24_opens cbor small_cfg ih cbor_ok A F N) as (st & E & H).
  assert (Eo : exists st', ilm_op cbor small_cfg st (ICrash (n64 1) (n64 11) ICBetween 0) = IOk st').
  { clear H. vm_compute in E. injection E as <-. eexists. run. }
  destruct Eo as [st' Eo]. destruct (C24_whole cbor small_cfg ih st cbor_ok A F N E) as (_ & Hi & _).
  exists st, st', (map snd (appended ih)). split; [fits|]. split; [exact E|]. split; [exact Eo|]. split; [|reflexivity].
  intro n. rewrite Hi, map_length. reflexivity.
Qed.

(** two writers and a reader: the reader looks key 5 up before the second append to it and reads after that append *)
Definition itr : list (istep_ev (K := u64) (V := u64)) :=
  [ELog 1 (n64 5) (n64 10); ELog 2 (n64 6) (n64 20); EKey 2; EFind 3 (n64 6) true; EKey 1; ELog 2 (n64 6) (n64 21); EKey 2; ERead 3 (n64 6) (IOk (Some (n64 20)))].
Lemma icrun_cons k s e s1 tr s2 : icstep cbor k s e s1 -> icrun cbor k s1 tr s2 -> icrun cbor k s (e :: tr) s2.
Proof.
  intros H R. induction R as [x|x tr y e' z R IH Hs].
  - apply (ir_snoc _ _ _ [] s); [apply ir_nil|exact H].
  - change (e :: tr ++ [e']) with ((e :: tr) ++ [e']). eapply ir_snoc; [exact (IH H)|exact Hs].
Qed.
Lemma icrun_app k s tr1 s1 tr2 s2 : icrun cbor k s tr1 s1 -> icrun cbor k s1 tr2 s2 -> icrun cbor k s (tr1 ++ tr2) s2.
Proof. intros R1 R2. induction R2 as [x|x tr y e z R IH Hs]; [rewrite app_nil_r; exact R1|]. rewrite app_assoc. eapply ir_snoc; [exact (IH R1)|exact Hs]. Qed.
(** the steps as a function, to run concrete traces *)
Definition icdo (k : cfg) (s : icst (K := u64)) (e : istep_ev (K := u64) (V := u64)) : option icst :=
  let '(Icst st pcs) := s in
  match e with
  | ELog t key v => match pcs !! t, key_to_seqno st, db_append k no_faults no_faults (storage st) [enc_val cbor v] with
                    | None, Some m, (d, Ok (Some pos)) => Some (Icst (Ilm d (Some m)) (<[t := PLogged key pos]> pcs))
                    | _, _, _ => None
                    end
  | EKey t => match pcs !! t, key_to_seqno st with
              | Some (PLogged key pos), Some m => Some (Icst (Ilm (storage st) (Some (sled_insert m (enc_key cbor key) (json_of_pos (N.of_nat pos))))) (delete t pcs))
              | _, _ => None
              end
  | EFind t key true => match pcs !! t, ilm_iter_from cbor st key with
                        | None, IOk (Some pos) => Some (Icst st (<[t := PFound key pos]> pcs))
                        | _, _ => None
                        end
  | EFind t key false => match pcs !! t, ilm_iter_from cbor st key with None, IOk None => Some s | _, _ => None end
  | ERead t key (IOk (Some v)) =>
      match pcs !! t with
      | Some (PFound key' pos) =>
          match to_result (fst (item_next cbor (storage st) pos)) with
          | IOk (Some v') => if decide (proj1_sig key' = proj1_sig key) then if decide (proj1_sig v' = proj1_sig v) then Some (Icst st (delete t pcs)) else None else None
          | _ => None
          end
      | _ => None
      end
  | ERead _ _ _ => None
  end.
Lemma icdo_ok k s e s' : icdo k s e = Some s' -> icstep cbor k s e s'.
Proof.
  destruct s as [st pcs]. destruct e as [t key v|t|t key []|t key [[v|]| |]]; cbn [icdo]; intro E; try discriminate.
  - destruct (pcs !! t) eqn:Ep; [discriminate|]. destruct (key_to_seqno st) eqn:Ek; [|discriminate].
    destruct (db_append _ _ _ _ _) as [d [[pos|]| |]] eqn:Ea; try discriminate. apply (inj Some) in E as <-. eapply is_log; eauto.
  - destruct (pcs !! t) as [[key pos|]|] eqn:Ep; try discriminate. destruct (key_to_seqno st) eqn:Ek; [|discriminate]. apply (inj Some) in E as <-. eapply is_key; eauto.
  - destruct (pcs !! t) eqn:Ep; [discriminate|]. destruct (ilm_iter_from _ st key) as [[pos|]| |] eqn:Ef; try discriminate. apply (inj Some) in E as <-. apply is_find; auto.
  - destruct (pcs !! t) eqn:Ep; [discriminate|]. destruct (ilm_iter_from _ st key) as [[pos|]| |] eqn:Ef; try discriminate. apply (inj Some) in E as <-. apply is_find_none; auto.
  - destruct (pcs !! t) as [[|key' pos]|] eqn:Ep; try discriminate. destruct (to_result _) as [[v'|]| |] eqn:Er; try discriminate.
    destruct (decide _) as [Hk|]; [|discriminate]. destruct (decide _) as [Hv|]; [|discriminate]. apply u64_eq in Hk, Hv. subst key' v'. apply (inj Some) in E as <-.
    rewrite <- Er. eapply is_read; eauto.
Qed.
Fixpoint icexec (k : cfg) (s : icst (K := u64)) (tr : list (istep_ev (K := u64) (V := u64))) : option icst :=
  match tr with [] => Some s | e :: tr => match icdo k s e with Some s1 => icexec k s1 tr | None => None end end.
Lemma icexec_ok k tr : forall s s', icexec k s tr = Some s' -> icrun cbor k s tr s'.
Proof.
  induction tr as [|e tr IH]; intros s s' E; cbn [icexec] in E; [apply (inj Some) in E as <-; apply ir_nil|].
  destruct (icdo k s e) as [s1|] eqn:E1; [|discriminate]. eapply icrun_cons; [apply icdo_ok; exact E1|]. apply IH. exact E.
Qed.
Lemma itr_runs : exists st s1 s, ilm_open cbor small_cfg [IAppend (n64 5) (n64 1)] = IOk st /\
  icrun cbor small_cfg (Icst st ∅) (take 3 itr) s1 /\ icrun cbor small_cfg s1 (drop 3 itr) s /\ obs (ilm_get cbor (ic_ilm s) (n64 6)) = Some (Some 21%N).
Proof.
  assert (H : match ilm_open cbor small_cfg [IAppend (n64 5) (n64 1)] with
              | IOk st => match icexec small_cfg (Icst st ∅) (take 3 itr) with
                          | Some s1 => match icexec small_cfg s1 (drop 3 itr) with Some s => obs (ilm_get cbor (ic_ilm s) (n64 6)) | None => None end
                          | None => None
                          end
              | _ => None
              end = Some (Some 21%N)) by run.
  destruct (ilm_open _ _ _) as [st| |] eqn:Eo; try discriminate. destruct (icexec _ _ (take 3 itr)) as [s1|] eqn:E1; [|discriminate].
  destruct (icexec _ _ (drop 3 itr)) as [s|] eqn:E2; [|discriminate]. exists st, s1, s. split; [reflexivity|].
  split; [apply icexec_ok; exact E1|]. split; [apply icexec_ok; exact E2|exact H].
Qed.
Lemma itr_shared : exists s0 s1 s, shared cbor small_cfg [IAppend (n64 5) (n64 1)] itr s0 s /\
  icrun cbor small_cfg s0 (take 3 itr) s1 /\ icrun cbor small_cfg s1 (drop 3 itr) s.
Proof.
  destruct itr_runs as (st & s1 & s & E & R1 & R2 & _). exists (Icst st ∅), s1, s. split; [|split; [exact R1|exact R2]].
  exists st. split; [exact E|]. split; [reflexivity|]. split; [exact (icrun_app _ _ _ _ _ _ R1 R2)|fits].
Qed.
Example C26_get_sound_case : (exists s0 s, shared cbor small_cfg [IAppend (n64 5) (n64 1)] itr s0 s) /\
  itr = take 7 itr ++ ERead 3 (n64 6) (IOk (Some (n64 20))) :: [].
Proof. split; [destruct itr_shared as (s0 & s1 & s & H & _); exists s0, s; exact H|reflexivity]. Qed.
(** the reader gets the value that was current when it looked the key up, not the one appended meanwhile *)
Example C26_get_atomic_case : exists s0 s1 s t1 t2,
  shared cbor small_cfg [IAppend (n64 5) (n64 1)] (t1 ++ EFind 3 (n64 6) true :: t2 ++ [ERead 3 (n64 6) (IOk (Some (n64 20)))]) s0 s /\
  (forall key' r', ERead 3 key' r' ∉ t2) /\ icrun cbor small_cfg s0 t1 s1 /\
  icrun cbor small_cfg s1 (EFind 3 (n64 6) true :: t2 ++ [ERead 3 (n64 6) (IOk (Some (n64 20)))]) s /\ length t2 = 3.
Proof.
  destruct itr_shared as (s0 & s1 & s & H & R1 & R2). exists s0, s1, s, (take 3 itr), (take 3 (drop 4 itr)). split; [exact H|].
  split; [|split; [exact R1|split; [exact R2|reflexivity]]].
  intros key' r' Hi. cbn [itr drop take] in Hi. repeat (apply elem_of_cons in Hi as [Hi|Hi]; [discriminate|]). inversion Hi.
Qed.
Example C26_latest_case : no_key_race itr /\ itr = take 5 itr ++ ELog 2 (n64 6) (n64 21) :: drop 6 itr /\ EKey 2 ∈ drop 6 itr /\
  (forall t' v', ELog t' (n64 6) v' ∉ drop 6 itr).
Proof.
  split; [apply race_free_ok; run|]. split; [reflexivity|]. cbn [itr drop]. split; [left|].
  intros t' v' Hi. repeat (apply elem_of_cons in Hi as [Hi|Hi]; [discriminate|]). inversion Hi.
Qed.
Example C26_iteration_case : exists s0 s, shared cbor small_cfg [IAppend (n64 5) (n64 1)] itr s0 s /\
  (map w_val (map_after [IAppend (n64 5) (n64 1)]) ++ concat (map (fun e => match e with ELog _ _ v => [v] | _ => [] end) itr)) = [n64 1; n64 10; n64 20; n64 21].
Proof. destruct itr_shared as (s0 & s1 & s & H & _). exists s0, s. split; [exact H|reflexivity]. Qed.
