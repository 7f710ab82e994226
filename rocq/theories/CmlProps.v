(** C59: selection and balancing on top of the Cardano library's transaction builder: the builder ends up with exactly the chosen
    inputs and the change, and the fee of the result covers what the builder then requires. *)
From Coq Require Import ZArith NArith QArith Qround Lia.
From stdpp Require Import gmap strings list.
From Verif Require Import ValueModel BalanceModel UtilModel UtilProofs StoreModel StoreSpec StoreProofs EstimModel SelModel SelSpec SelProps
  ThermoModel ThermoCountProofs ThermoProps CmlModel CmlSpec.
Open Scope Z_scope.

Section C59.
  Context {Addr Script Datum I B : Type} (k : Z) (Hk : 0 <= k).
  Context (ho : horder) (bech : string -> option Addr) (extra : string -> option (option Script * option Datum)).
  Context (extra_of : string -> option string) (lib : library Addr Script Datum I B).
  Notation est := (cml_estimator k ho bech extra extra_of lib).
  Notation to_input := (to_input k ho bech extra extra_of lib).
  Notation to_output := (to_output k ho bech extra).
  Notation lovelace := (lovelace k).

  Lemma lovelace_nonneg n : 0 <= lovelace n.
  Proof. unfold CmlModel.lovelace. assert (0 < 10 ^ k) by (apply Z.pow_pos_nonneg; lia). nia. Qed.
  Lemma lovelace_le n m : (n <= m)%N -> lovelace n <= lovelace m.
  Proof. intro. unfold CmlModel.lovelace. assert (0 < 10 ^ k) by (apply Z.pow_pos_nonneg; lia). nia. Qed.
  Lemma lovelace_add n m : lovelace (n + m) = lovelace n + lovelace m.
  Proof. unfold CmlModel.lovelace. lia. Qed.

  (** what the algorithms ask of an estimator, so that C39-C45 hold with this one *)
  Theorem C59_fees_nonneg : fees_nonneg est.
  Proof using Hk.
    intro b. cbn [e_min_fee e_fee_in e_fee_out cml_estimator]. split; [|split].
    - intros f H. destruct (lb_min_fee lib b); [|discriminate]. injection H as <-. apply lovelace_nonneg.
    - intros u f H. destruct (to_input u) as [i|]; [|discriminate]. cbn in H.
      destruct (lb_fee_in lib b i); [|discriminate]. injection H as <-. apply lovelace_nonneg.
    - intros o f H. destruct (to_output o) as [i|]; [|discriminate]. cbn in H.
      destruct (lb_fee_out lib b i); [|discriminate]. injection H as <-. apply lovelace_nonneg.
  Qed.

  Lemma charge_given us : forall b b' g, charge est b us = Some (b', g) ->
    exists is n, Forall2 (fun u i => to_input u = Some i) us is /\ given lib b is b' n /\ g = lovelace n.
  Proof using.
    induction us as [|u us IH]; intros b b' g H; cbn [charge] in H.
    - injection H as <- <-. exists [], 0%N. split; [constructor|]. split; [constructor|reflexivity].
    - cbn [e_fee_in e_add_in cml_estimator] in H. destruct (to_input u) as [i|] eqn:C; [|discriminate]. cbn in H.
      destruct (lb_fee_in lib b i) as [f|] eqn:F; [|discriminate]. cbn in H.
      destruct (lb_add_in lib b i) as [b1 [|]] eqn:A; [|discriminate].
      destruct (charge est b1 us) as [[b2 g2]|] eqn:R; [|discriminate]. injection H as <- <-.
      destruct (IH _ _ _ R) as (is & n & X & Y & ->). exists (i :: is), (f + n)%N.
      split; [constructor; assumption|]. split; [econstructor; eassumption|]. unfold CmlModel.lovelace. lia.
  Qed.

  Lemma given_covers b is b' n f : quotes_inputs lib -> given lib b is b' n -> lb_min_fee lib b = Some f ->
    exists f', lb_min_fee lib b' = Some f' /\ (f' <= f + n)%N.
  Proof using.
    intros Q G. revert f. induction G as [b|b i is b1 b2 x y F A G IH]; intros f M; [exists f; split; [exact M|lia]|].
    destruct (Q _ _ _ _ _ M F A) as (f1 & M1 & L1). destruct (IH _ M1) as (f2 & M2 & L2). exists f2. split; [exact M2|lia].
  Qed.

  (** largest-first: the builder has been given the chosen inputs, each converted, in the order of the selection, and nothing
      else; the fee of the selection is what the builder required at first plus what it quoted for each; and if its quotes
      suffice, that fee covers what the builder requires at the end, and the inputs cover it and the outputs *)
  Theorem C59_largest_first enum ord h b su st' b' sel :
    (forall n, fair (enum n)) -> fair_t ord -> Forall wf_op h -> Forall nonneg_in (unspent h) -> 0 <= su_out su ->
    lf_select est enum ord (final h) b su = (st', SDone (b', sel)) ->
    exists is f n,
      Forall2 (fun u i => to_input u = Some i) (se_chosen sel) is /\ given lib b is b' n /\
      lb_min_fee lib b = Some f /\ se_fee sel = lovelace (f + n) /\
      (quotes_inputs lib -> exists f', lb_min_fee lib b' = Some f' /\ lovelace f' <= se_fee sel /\
         su_out su + lovelace f' <= su_in su + value_in (se_chosen sel)).
  Proof using Hk.
    intros He Ho Hw Hn Hout H.
    destruct (C40_selected est enum ord h b su st' b' sel He Ho Hw Hn C59_fees_nonneg Hout H)
      as (_ & _ & _ & In & _ & _ & _ & _ & _ & _ & (fee0 & g & M & C & Fe) & _ & Cov).
    cbn [e_min_fee cml_estimator] in M. destruct (lb_min_fee lib b) as [f|] eqn:Mf; [|discriminate]. injection M as <-.
    destruct (charge_given _ _ _ _ C) as (is & n & X & G & ->). exists is, f, n.
    split; [exact X|]. split; [exact G|]. split; [reflexivity|]. rewrite lovelace_add. split; [exact Fe|].
    intro Q. destruct (given_covers _ _ _ _ _ Q G Mf) as (f' & M' & L). exists f'.
    apply lovelace_le in L. rewrite lovelace_add in L. split; [exact M'|]. split; lia.
  Qed.

  (** giving the excess as fee: the builder is not touched, and the fee covers what it requires *)
  Theorem C59_fee_change ord b su b' s : fair_t ord ->
    nonneg_table (su_in_assets su) -> nonneg_table (su_out_assets su) -> 0 <= su_out su ->
    fee_balance est ord b su = SDone (b', s) ->
    b' = b /\ exists f, lb_min_fee lib b = Some f /\ lovelace f <= se_fee s /\ su_in su = su_out su + se_fee s.
  Proof using Hk.
    intros Hf Hi Ho Hout H. assert (S := C42_fee_change est ord b su Hf Hi Ho Hout C59_fees_nonneg). rewrite H in S.
    destruct S as (-> & (f & M & L) & Bal & _ & E1 & _ & E2 & _). split; [reflexivity|].
    cbn [e_min_fee cml_estimator] in M. destruct (lb_min_fee lib b) as [f0|]; [|discriminate]. injection M as <-.
    exists f0. split; [reflexivity|]. split; [exact L|]. rewrite E1, E2 in Bal. exact Bal.
  Qed.

  Lemma coin_of v c : value_to_csl_coin (Dec v k) = Some c -> 0 <= v /\ Z.of_N c = v / 10 ^ k.
  Proof using Hk.
    unfold value_to_csl_coin, dec_to_u64. cbn [digits scale]. destruct (Z.ltb_spec v 0) as [|Hv]; [discriminate|].
    destruct (Z.ltb_spec k 0) as [|_]; [lia|]. unfold big. destruct (_ <? _)%N; [|discriminate].
    intro H. injection H as <-. split; [exact Hv|]. apply Z2N.id, Z.div_pos; [exact Hv|]. apply Z.pow_pos_nonneg; lia.
  Qed.
  Lemma to_output_coin c o : to_output c = Some o -> 0 <= o_value c /\ Z.of_N (lv_coin (lo_amount o)) = o_value c / 10 ^ k.
  Proof using Hk.
    unfold CmlModel.to_output, utxo_builder_to_cml_output, tokens_to_csl_value, with_extra. cbn [bu_addr bu_value bu_assets bu_extra].
    destruct (bech (o_addr c)) as [a|]; [|discriminate]. destruct (value_to_csl_coin _) as [n|] eqn:C; [|discriminate].
    apply coin_of in C. intro H.
    destruct (_ =? _)%nat; [|destruct (set_assets _ _); [|discriminate]];
      (destruct (o_extra c) as [t|]; [destruct (extra t) as [[? ?]|]; [|discriminate]|]); injection H as <-; exact C.
  Qed.
  Lemma to_output_less addr v v' l x o o' : v' <= v ->
    to_output (Uout addr v l x) = Some o -> to_output (Uout addr v' l x) = Some o' -> less_coin o' o.
  Proof using Hk.
    intros L H H'. assert (C := proj2 (to_output_coin _ _ H)). assert (C' := proj2 (to_output_coin _ _ H')). cbn [o_value] in C, C'.
    assert (D := Z.div_le_mono v' v (10 ^ k) ltac:(apply Z.pow_pos_nonneg; lia) L).
    assert (M : (lv_coin (lo_amount o') <= lv_coin (lo_amount o))%N) by lia. clear C C' D. revert H H' M.
    unfold CmlModel.to_output, utxo_builder_to_cml_output, tokens_to_csl_value, with_extra.
    cbn [bu_addr bu_value bu_assets bu_extra o_addr o_value o_assets o_extra].
    destruct (bech addr) as [a|]; [|discriminate]. destruct (value_to_csl_coin (Dec v k)) as [n|]; [|discriminate].
    destruct (value_to_csl_coin (Dec v' k)) as [n'|]; [|discriminate]. intros H H' M.
    destruct (_ =? _)%nat; [|destruct (set_assets _ _); [|discriminate]];
      (destruct x as [t|]; [destruct (extra t) as [[? ?]|]; [|discriminate]|]); injection H as <-; injection H' as <-;
      unfold less_coin; cbn [lo_addr lo_amount lo_script lo_datum lv_coin lv_multi] in *; auto.
  Qed.

  (** one change output: the builder has been given exactly that output, converted, and accepted it.  Its value is then not
      negative (a negative one does not convert), its coin is the integral part of the value, and all of it if the inputs and
      outputs are whole lovelace; and if the builder's quotes suffice, the fee covers what it requires at the end *)
  Theorem C59_single_change ord ordb x b su b' s :
    fair_t ord -> fair_t ordb -> filed (su_in_assets su) ->
    nonneg_table (su_in_assets su) -> nonneg_table (su_out_assets su) -> 0 <= su_out su ->
    single_change est ord ordb x b su = SDone (b', s) ->
    exists c o, se_changes s = [c] /\ to_output c = Some o /\ lb_add_out lib b o = (b', true) /\
      su_in su = su_out su + o_value c + se_fee s /\
      0 <= o_value c /\ Z.of_N (lv_coin (lo_amount o)) = o_value c / 10 ^ k /\
      ((10 ^ k | su_in su) -> (10 ^ k | su_out su) -> o_value c = lovelace (lv_coin (lo_amount o))) /\
      (quotes_outputs lib -> exists f', lb_min_fee lib b' = Some f' /\ lovelace f' <= se_fee s).
  Proof using Hk.
    intros Hf Hfb Hfi Hi Ho Hout H.
    destruct (C43_single_change est ord ordb x b su b' s Hf Hfb Hfi Hi Ho Hout C59_fees_nonneg H)
      as (c & f & g & Ch & _ & Ex & _ & _ & _ & M & Q & Fe & A & Bal & _).
    cbn [e_min_fee e_fee_out e_add_out cml_estimator] in M, Q, A.
    destruct (lb_min_fee lib b) as [f0|] eqn:Mf; [|discriminate]. injection M as <-.
    destruct (to_output (Uout _ _ _ _)) as [o0|] eqn:T0; [|discriminate]. cbn in Q.
    destruct (lb_fee_out lib b o0) as [g0|] eqn:Qo; [|discriminate]. injection Q as <-.
    destruct (to_output c) as [o|] eqn:T; [|discriminate].
    assert (P : 0 < 10 ^ k) by (apply Z.pow_pos_nonneg; lia).
    exists c, o. split; [exact Ch|]. split; [exact T|]. split; [exact A|]. split; [exact Bal|].
    destruct (to_output_coin _ _ T) as [V C]. split; [exact V|]. split; [exact C|]. split.
    - intros [p Hp] [q Hq]. unfold CmlModel.lovelace in *. rewrite C.
      assert (D : o_value c = (p - q - Z.of_N f0 - Z.of_N g0) * 10 ^ k) by lia. rewrite D at 2. rewrite Z.div_mul by lia. exact D.
    - intro L. assert (LC : less_coin o o0).
      { destruct c as [ca cv cl cx]. cbn [o_addr o_value o_assets o_extra] in *. subst x.
        refine (to_output_less _ _ _ _ _ _ _ _ T0 T). assert (X := lovelace_nonneg g0). lia. }
      destruct (L _ _ _ _ _ _ Mf Qo LC A) as (f' & M' & Le). exists f'. split; [exact M'|].
      apply lovelace_le in Le. rewrite lovelace_add in Le. lia.
  Qed.

  (** the thermostat: the builder has been given as many inputs as were chosen and as many outputs as there are changes *)
  Theorem C59_thermostat_counts enum sc above chk cfg ord ordb ordc ordv avail b su ut b' r m a c :
    fair_t ordc -> fair_t ordv -> builder_counts lib m a c ->
    th_select est enum sc above chk cfg ord ordb ordc ordv avail b su = (ut, SDone (b', r)) ->
    m b' = m b + a * Z.of_nat (length (se_chosen r)) + c * Z.of_nat (length (se_changes r)).
  Proof using.
    intros Hoc Hov L T.
    assert (X := C45_estimator_informed est enum sc above chk cfg ord ordb ordc ordv avail b su ut b' r (fun x => Some (m x)) a c (m b)
      Hoc Hov).
    enough (Some (m b') = Some (m b + a * Z.of_nat (length (se_chosen r)) + c * Z.of_nat (length (se_changes r)))) as E
      by (injection E; auto).
    apply X; [|reflexivity|exact T]. clear - L. intros b0 f E. injection E as <-. destruct (L b0) as (A1 & A2 & A3).
    cbn [e_add_in e_add_out e_min_value cml_estimator fst]. split; [|split; [|split; [|reflexivity]]].
    - intros u x W. destruct (to_input u) as [i|]; [|discriminate]. f_equal. exact (A1 _ _ W).
    - intros u x W. destruct (to_input u) as [i|]; [f_equal; exact (A2 _ _ W)|]. injection W as <-. reflexivity.
    - intros o x W. destruct (to_output o) as [i|]; [|discriminate]. f_equal. exact (A3 _ _ W).
  Qed.

  (** The size the estimator reports is the builder's own; the greatest size is always 16384 bytes. *)
  Theorem C59_sizes b : e_size (cml_estimator k ho bech extra extra_of lib) b = lb_full_size lib b /\
    e_max (cml_estimator k ho bech extra extra_of lib) b = Some 16384%N.
  Proof using. split; reflexivity. Qed.

  (** making an estimator gives the builder the fee it requires at that time as its fee, and fails exactly when it has none *)
  Theorem C59_new b : (forall b', cml_new lib b = Some b' <-> exists f, lb_min_fee lib b = Some f /\ b' = lb_set_fee lib b f) /\
    (cml_new lib b = None <-> lb_min_fee lib b = None).
  Proof using.
    unfold cml_new. destruct (lb_min_fee lib b) as [f|]; cbn [mbind option_bind]; split; try intros b'; split.
    - intros [= <-]. eauto.
    - intros (f' & [= <-] & ->). reflexivity.
    - discriminate.
    - discriminate.
    - discriminate.
    - intros (f' & [=] & _).
    - reflexivity.
    - reflexivity.
  Qed.
  (** an input or output that does not convert is refused, and the builder is left as it was *)
  Theorem C59_refused b : (forall u, to_input u = None -> e_fee_in est b u = None /\ e_add_in est b u = (b, false)) /\
    (forall o, to_output o = None ->
       e_fee_out est b o = None /\ e_add_out est b o = (b, false) /\ e_min_value est b o = (b, None)).
  Proof using.
    split; intros ? H; cbn [e_fee_in e_add_in e_fee_out e_add_out e_min_value cml_estimator]; rewrite H; auto.
  Qed.
End C59.

(** ** Cases that meet the hypotheses *)
(** a builder that counts bytes: 2 per input; per output 3, one more from 100 lovelace on, and one more per policy; each costs
    one lovelace *)
Definition bytes_of {A S D} (o : @loutput A S D) : N :=
  (3 + (if (lv_coin (lo_amount o) <? 100)%N then 0 else 1) +
   match lv_multi (lo_amount o) with Some m => N.of_nat (size m) | None => 0 end)%N.
Definition demo_library {A S D} : library A S D (string * N * @loutput A S D) (list N) := {|
  lb_input io := Some io;
  lb_min_fee b := Some (foldr N.add 0 b)%N;
  lb_set_fee b _ := b;
  lb_fee_in _ _ := Some 2%N;
  lb_add_in b _ := (2%N :: b, true);
  lb_fee_out _ o := Some (bytes_of o);
  lb_add_out b o := (bytes_of o :: b, true);
  lb_full_size b := Some (foldr N.add 0 b)%N;
  lb_min_pure _ _ _ := Some 1%N
|}.
Lemma demo_quotes {A S D} : quotes_inputs (@demo_library A S D) /\ quotes_outputs (@demo_library A S D).
Proof.
  split.
  - intros b i b' f g M F Ad. cbn in M, F, Ad. injection M as <-. injection F as <-. injection Ad as <-. eexists. split; [reflexivity|]. cbn. lia.
  - intros b o o' b' f g M F (_ & _ & _ & Mu & Le) Ad. cbn in M, F, Ad. injection M as <-. injection F as <-. injection Ad as <-.
    eexists. split; [reflexivity|]. cbn [lb_min_fee demo_library foldr]. unfold bytes_of. rewrite Mu.
    destruct (N.ltb_spec (lv_coin (lo_amount o')) 100), (N.ltb_spec (lv_coin (lo_amount o)) 100); lia.
Qed.

Definition demo_tx (c : string) : string := String.concat "" (repeat c 32).
Definition demo_policy : string := String.concat "" (repeat "0a" 28).
Definition cml_u1 := Utxo (demo_tx "11", 0%N) "me" 1000 [Asset demo_policy "aa" "A" 50] "".
Definition cml_u2 := Utxo (demo_tx "22", 1%N) "me" 2000 [] "".
Definition cml_h := [Insert cml_u1; Insert cml_u2].
Definition cml_ho : horder := fun m => (map_to_list m).*2.
Definition cml_bech (a : string) : option string := if (a =? "")%string then None else Some a.
Definition cml_demo : estimator (list N) :=
  cml_estimator (Script := string) (Datum := string) 1 cml_ho cml_bech (fun _ => None) (fun _ => None) demo_library.
Definition cml_setup := from_fixed [] [Uout "you" 1500 [Asset demo_policy "aa" "A" 20] None] (Some "me").
Definition cml_lf := lf_select cml_demo (fun _ => natural) tnatural (final cml_h) [5%N] cml_setup.

Example C59_case_hyps :
  (forall n, fair ((fun _ : nat => natural) n)) /\ fair_t (@tnatural asset) /\ Forall wf_op cml_h /\
  Forall nonneg_in (unspent cml_h) /\ 0 <= su_out cml_setup.
Proof.
  split; [intros _ m; reflexivity|]. split; [intro m; reflexivity|]. split.
  - repeat constructor; cbn [wf_op]; try (unfold wf_utxo; apply (bool_decide_unpack _); by vm_compute).
  - split; [|vm_compute; discriminate]. change (unspent cml_h) with [cml_u1; cml_u2].
    repeat constructor; vm_compute; discriminate.
Qed.
(** amounts are in tenths of a lovelace: the token's output first, then the other; 5 + 2 + 2 lovelace *)
Example C59_case :
  match cml_lf with
  | (_, SDone (b, s)) =>
      (map (fun u => snd (u_ptr u)) (se_chosen s), se_in s, se_fee s, b) = ([0%N; 1%N], 3000, 90, [2; 2; 5]%N) /\
      match single_change cml_demo tnatural tnatural None b (after s (Some "me")) with
      | SDone (b', r) =>
          map (fun c => (o_addr c, o_value c)) (se_changes r) = [("me", 1360)] /\ se_fee r = 140 /\ b' = [5; 2; 2; 5]%N
      | _ => False
      end
  | _ => False
  end.
Proof. vm_compute. auto. Qed.

(** ** What does not hold *)
(** a builder that keeps the coin of each output it is given, newest first, and counts its inputs; each costs one lovelace *)
Definition recording {A S D} : library A S D (string * N * @loutput A S D) (N * list N) := {|
  lb_input io := Some io;
  lb_min_fee b := Some (2 + b.1 + N.of_nat (length b.2))%N;
  lb_set_fee b _ := b;
  lb_fee_in _ _ := Some 1%N;
  lb_add_in b _ := ((b.1 + 1)%N, b.2, true);
  lb_fee_out _ _ := Some 1%N;
  lb_add_out b o := (b.1, lv_coin (lo_amount o) :: b.2, true);
  lb_full_size _ := Some 0%N;
  lb_min_pure _ _ _ := Some 1%N
|}.
Lemma recording_counts {A S D} :
  builder_counts (@recording A S D) (fun b => Z.of_N b.1) 1 0 /\ builder_counts (@recording A S D) (fun b => Z.of_nat (length b.2)) 0 1.
Proof.
  split; intro b; (split; [|split]); cbn; intros ? ? W; try discriminate W; injection W as <-; cbn [fst snd length]; lia.
Qed.
Definition cml_recording : estimator (N * list N) :=
  cml_estimator (Script := string) (Datum := string) 0 cml_ho cml_bech (fun _ => None) (fun _ => None) recording.
Definition cml_tu (c : string) (v : Z) : utxo := Utxo (demo_tx c, 0%N) "me" v [] "".
Definition cml_th := [Insert (cml_tu "11" 30); Insert (cml_tu "22" 40); Insert (cml_tu "33" 50); Insert (cml_tu "44" 50)].
Definition cml_tcase :=
  th_select cml_recording (fun _ => natural) 1 more false cfg_usual tnatural tnatural tnatural tnatural (final cml_th) (0, [10])%N
    (from_fixed [] [Uout "you" 10 [] None] (Some "me")).
(** The thermostat changes change outputs after it has shown them to the estimator and never tells it: the builder has been given
    outputs of 84 and 42 lovelace, the result has 41 and 42.  The fee is the builder's, for the outputs it knows. *)
Theorem C59_thermostat_outputs_refuted : exists h b0 su ut b r,
  (forall n : nat, fair ((fun _ => natural) n)) /\ fair_t (@tnatural uout) /\ Forall wf_op h /\ Forall nonneg_in (unspent h) /\
  th_select cml_recording (fun _ => natural) 1 more false cfg_usual tnatural tnatural tnatural tnatural (final h) b0 su = (ut, SDone (b, r)) /\
  b.2 = [42; 84]%N ++ b0.2 /\ map o_value (se_changes r) = [41; 42] /\ length (se_chosen r) = 2%nat.
Proof.
  assert (H : match cml_tcase with
              | (ut, SDone (b, r)) => b.2 = [42; 84]%N ++ [10%N] /\ map o_value (se_changes r) = [41; 42] /\ length (se_chosen r) = 2%nat
              | _ => False end) by (vm_compute; repeat split; reflexivity).
  unfold cml_tcase in H. exists cml_th, (0, [10])%N, (from_fixed [] [Uout "you" 10 [] None] (Some "me")).
  destruct (th_select _ _ _ _ _ _ _ _ _ _ _ _ _) as [ut [[b r]| | |]]; try contradiction. exists ut, b, r.
  split; [intros n m; reflexivity|]. split; [intro m; reflexivity|]. split.
  { unfold cml_th. repeat (apply Forall_cons; split; [unfold wf_op, wf_utxo, cml_tu; cbn [u_assets]; apply (bool_decide_unpack _); by vm_compute|]).
    apply Forall_nil; exact Logic.I. }
  split.
  { change (unspent cml_th) with [cml_tu "11" 30; cml_tu "22" 40; cml_tu "33" 50; cml_tu "44" 50].
    repeat (apply Forall_cons; split; [split; [cbn; lia|constructor]|]); apply Forall_nil; exact Logic.I. }
  split; [reflexivity|exact H].
Qed.

(** The conversion keeps whole lovelace only, so a change with a fraction reaches the builder without it (k = 1: tenths). *)
Theorem C59_fraction_refuted : exists b su b' s c,
  fair_t (@tnatural asset) /\ nonneg_table (su_in_assets su) /\ nonneg_table (su_out_assets su) /\ filed (su_in_assets su) /\ 0 <= su_out su /\
  single_change cml_demo tnatural tnatural None b su = SDone (b', s) /\ se_changes s = [c] /\
  forall o, to_output (Script := string) (Datum := string) 1 cml_ho cml_bech (fun _ => None) c = Some o ->
    lovelace 1 (lv_coin (lo_amount o)) < o_value c.
Proof.
  exists [5%N], (Setup 1005 ∅ 0 ∅ [] [] (Some "me")).
  destruct (single_change cml_demo tnatural tnatural None [5%N] (Setup 1005 ∅ 0 ∅ [] [] (Some "me"))) as [[b' s]|?| |] eqn:S;
    try (vm_compute in S; discriminate S).
  vm_compute in S. injection S as <- <-. do 3 eexists. split; [intro m; reflexivity|].
  split; [intros t a H; cbn in H; rewrite lookup_empty in H; discriminate|].
  split; [intros t a H; cbn in H; rewrite lookup_empty in H; discriminate|].
  split; [intros t a H; cbn in H; rewrite lookup_empty in H; discriminate|].
  split; [cbn; lia|]. split; [reflexivity|]. split; [reflexivity|].
  intros o H. vm_compute in H. injection H as <-. vm_compute. reflexivity.
Qed.

Definition C59_all := (@C59_fees_nonneg, @C59_largest_first, @C59_fee_change, @C59_single_change, @C59_thermostat_counts, @C59_refused,
  @C59_thermostat_outputs_refuted, @C59_fraction_refuted).
Print Assumptions C59_all.
