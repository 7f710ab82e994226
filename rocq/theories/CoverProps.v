(** C53: the fee and the size that are assumed for a multisig transaction cover the transaction that is made of it. *)
From Coq Require Import ZArith NArith Ascii String Lia.
From stdpp Require Import gmap strings list.
From Verif Require Import ValueModel BalanceModel StoreModel StoreSpec StoreProofs StoreProps SelModel SelSpec ThermoModel ThermoProofs ThermoFeeProofs ThermoExtraProofs ThermoCountProofs ThermoProps EstimModel EstimProps JsonModel MultisigModel CborSpec CborProofs.
Open Scope N_scope.

(** network_id.rs:150-156: the length of the witness set with the plan's script, in the ledger's encoding *)
Definition plan_script_size (p : plan) : N := size (scripts_only (to_script p)).

(** A transaction of the plan: its inputs and outputs have the usual form, it is signed by at most the quorum, and may have a last
    slot and a protocol magic. *)
Record plan_tx (p : plan) (t : tx) : Prop := {
  pt_inputs : Forall wf_in (tx_ins t); pt_outputs : Forall simple_out (tx_outs t);
  pt_scripts : tx_scripts t = to_script p;
  pt_signed : Forall wf_sig (tx_signatures t) /\ N.of_nat (length (tx_signatures t)) <= p_quorum p;
  pt_magic : forall m, tx_magic t = Some m -> long 32 (fst m) /\ (String.length (snd m) <= 64)%nat;
  pt_counts : N.of_nat (length (tx_ins t)) < 2 ^ 16 /\ N.of_nat (length (tx_outs t)) < 2 ^ 16 /\ N.of_nat (length (tx_signatures t)) < 2 ^ 16
}.

Theorem C53_size_covered p t : plan_tx p t ->
  size (tx_encoding t) <=
  tx_bytes (plan_script_size p) (p_quorum p) (N.of_nat (length (tx_ins t))) (N.of_nat (length (tx_outs t)))
           (match tx_magic t with Some m => N.of_nat (String.length (snd m)) + 5 | None => 0 end).
Proof.
  intros [Hi Ho Hs [Hg Hq] Hm (Ni & No & Ng)]. unfold tx_encoding. rewrite arr_size. cbn [length total fold_right]. rewrite head_1 by lia.
  pose proof (body_size t Hi Ho Ni No (fun m E => proj1 (Hm m E))) as B.
  pose proof (metadata_size t (fun m E => proj2 (Hm m E))) as M. unfold magic_cost in M.
  pose proof (witness_size t _ Hg ltac:(rewrite Hs; discriminate) (N.le_refl _) Ng) as W.
  rewrite Hs in W. unfold plan_script_size, tx_bytes. change (size [byte 245]) with 1.
  set (a := size (scripts_only (to_script p))) in *. set (g := N.of_nat (length (tx_signatures t))) in *. clearbody a g.
  destruct (N.eqb_spec g 0); destruct (tx_ttl t), (tx_magic t) as [m|]; cbn [snd] in *; lia.
Qed.

(** the last protocol magic of a history of calls *)
Definition last_magic (l : list ecall) : option text := fold_left (fun o x => match x with CallMagic t => Some t | _ => o end) l None.
(** the transaction has the inputs, outputs and protocol magic of the history, as far as the estimator knows them *)
Definition made_of (t : tx) (l : list ecall) : Prop :=
  N.of_nat (length (tx_ins t)) = inputs_of l /\ N.of_nat (length (tx_outs t)) = outputs_of l /\
  option_map (fun m => text_of (snd m)) (tx_magic t) = last_magic l.
Lemma magic_bytes_last l : magic_bytes l = match last_magic l with Some t => N.of_nat (length t) + 5 | None => 0 end.
Proof.
  unfold magic_bytes, last_magic. induction l as [|x l IH] using rev_ind; [reflexivity|]. rewrite !fold_left_app. cbn. destruct x; try exact IH. reflexivity.
Qed.
Lemma magic_of_tx t o : option_map (fun m => text_of (snd m)) (tx_magic t) = o ->
  match tx_magic t with Some m => N.of_nat (String.length (snd m)) + 5 | None => 0 end = match o with Some t => N.of_nat (length t) + 5 | None => 0 end.
Proof.
  intros <-. destruct (tx_magic t) as [m|]; [|reflexivity]. cbn [option_map]. pose proof (text_size (snd m)) as T. unfold size in T. lia.
Qed.

Theorem C53_fee_covered sc min_ada n p c s0 l s t k k0 fee : (0 < sc)%Z ->
  estimator_new sc plan_script_size n p = Some (c, s0) -> est_calls sc min_ada c s0 l = Some s -> linear_fee n = Some (k, k0) ->
  plan_tx p t -> made_of t l -> e_min_fee (thermostat_estimator sc min_ada c) s = Some fee ->
  (sc * Z.of_N (ledger_fee k k0 t) <= fee)%Z.
Proof.
  intros Hsc Hn Hl Hk Ht (Mi & Mo & Mm) F.
  destruct (C46_fee_formula _ _ _ _ _ _ _ _ _ Hn Hl) as (k' & k0' & K & E). rewrite Hk in K. injection K as <- <-.
  rewrite E in F. injection F as <-. pose proof (C53_size_covered p t Ht) as S.
  rewrite Mi, Mo, (magic_of_tx _ _ Mm), <- magic_bytes_last in S. unfold ledger_fee.
  apply Z.mul_le_mono_nonneg_l; [lia|]. apply N2Z.inj_le, N.add_le_mono_l, N.mul_le_mono_l, S.
Qed.

(** the reported size too, as long as no protocol magic was given (C46_size_after_magic_refuted), with 50 bytes to spare *)
Theorem C53_within_limit sc min_ada n p c s0 l s t z : no_magic l ->
  estimator_new sc plan_script_size n p = Some (c, s0) -> est_calls sc min_ada c s0 l = Some s ->
  plan_tx p t -> made_of t l -> e_size (thermostat_estimator sc min_ada c) s = Some z -> size (tx_encoding t) + 50 <= z.
Proof.
  intros Nm Hn Hl Ht (Mi & Mo & Mm) Z. destruct (C46_size _ _ _ _ _ _ _ _ _ Hn Nm Hl) as (E & _). rewrite E in Z. injection Z as <-.
  pose proof (C53_size_covered p t Ht) as S. rewrite Mi, Mo, (magic_of_tx _ _ Mm), <- magic_bytes_last in S.
  assert (magic_bytes l = 0) as M.
  { clear - Nm. unfold magic_bytes. induction l as [|x l IH] using rev_ind; [reflexivity|]. apply Forall_app in Nm as [A B]. inversion B; subst.
    rewrite fold_left_app. cbn. destruct x; auto. contradiction. }
  rewrite M in S. unfold tx_bytes in *. lia.
Qed.

(** With the thermostat: the transaction made of its selection, on top of what was given to the estimator before, pays the
    ledger's fee. *)
Theorem C53_thermostat sc min_ada n p c s0 k k0 enum above chk cfg ord ordb ordc ordv h l e su ut e' r t :
  (0 < sc)%Z -> estimator_new sc plan_script_size n p = Some (c, s0) -> linear_fee n = Some (k, k0) -> est_calls sc min_ada c s0 l = Some e ->
  fair_t ord -> fair_t ordb -> fair_t ordc -> fair_t ordv -> (forall n, fair (enum n)) -> Forall wf_op h ->
  c_main cfg = MAIN -> (0 <= c_min cfg <= c_max cfg)%Z -> Forall nonneg_in (unspent h) -> nonneg_setup su ->
  su_in_assets su = ∅ -> su_out_assets su = ∅ -> Forall (fun u => sc * Z.of_N (k * 38) <= u_value u)%Z (unspent h) ->
  th_select (thermostat_estimator sc min_ada c) enum sc above chk cfg ord ordb ordc ordv (final h) e su = (ut, SDone (e', r)) ->
  plan_tx p t -> N.of_nat (length (tx_ins t)) = inputs_of l + N.of_nat (length (se_chosen r)) ->
  N.of_nat (length (tx_outs t)) = outputs_of l + N.of_nat (length (se_changes r)) ->
  option_map (fun m => text_of (snd m)) (tx_magic t) = last_magic l ->
  (sc * Z.of_N (ledger_fee k k0 t) <= se_fee r)%Z.
Proof.
  intros Hsc Hn Hk Hl Ho Hob Hoc Hov Hf Hw Hm Hc Hnn Hsu E1 E2 Wo T Ht Mi Mo Mm.
  destruct (C46_thermostat_fee _ _ _ _ _ _ _ _ _ _ _ _ _ _ _ _ _ _ _ _ _ _ _ _ Hsc Hn Hk Hl Ho Hob Hoc Hov Hf Hw Hm Hc Hnn Hsu E1 E2 Wo T) as [F _].
  etransitivity; [|exact F]. pose proof (C53_size_covered p t Ht) as S.
  rewrite Mi, Mo, (magic_of_tx _ _ Mm), <- magic_bytes_last in S. unfold ledger_fee.
  apply Z.mul_le_mono_nonneg_l; [lia|]. apply N2Z.inj_le, N.add_le_mono_l, N.mul_le_mono_l, S.
Qed.

(** ** What is not covered *)
(** an output with several assets is charged as one with a single asset *)
Definition zeros (n : nat) : string := String.string_of_list_ascii (repeat "0"%char n).
Definition many_assets_tx : tx :=
  Tx [TxIn (zeros 32) 0]
     [TxOut (zeros 57) 5000000 [(zeros 28, [(zeros 32, 1); (String.append "1" (zeros 31), 2); (String.append "2" (zeros 31), 3); (String.append "3" (zeros 31), 4)])]]
     200000 None (to_script (Plan 1 [zeros 28])) [(zeros 32, zeros 64)] None.
Theorem C53_several_assets_refuted : exists p t, wf_plan p /\ Forall wf_in (tx_ins t) /\ tx_scripts t = to_script p /\ Forall wf_sig (tx_signatures t) /\
  N.of_nat (length (tx_signatures t)) = p_quorum p /\ tx_magic t = None /\ Forall (fun o => (String.length (to_address o) <= 57)%nat) (tx_outs t) /\
  tx_bytes (plan_script_size p) (p_quorum p) (N.of_nat (length (tx_ins t))) (N.of_nat (length (tx_outs t))) 0 < size (tx_encoding t).
Proof.
  exists (Plan 1 [zeros 28]), many_assets_tx. split; [split; [cbn; lia|repeat constructor]|].
  split; [repeat constructor|]. split; [reflexivity|]. split; [repeat constructor|]. split; [reflexivity|]. split; [reflexivity|].
  split; [repeat constructor; cbn; lia|]. vm_compute. reflexivity.
Qed.
(** signatures beyond the quorum are not covered either: here all three holders sign where one would do *)
Theorem C53_more_signatures_refuted : exists p t, wf_plan p /\ tx_scripts t = to_script p /\ Forall wf_in (tx_ins t) /\ Forall simple_out (tx_outs t) /\
  Forall wf_sig (tx_signatures t) /\ length (tx_signatures t) = length (p_keys p) /\ tx_magic t = None /\
  tx_bytes (plan_script_size p) (p_quorum p) (N.of_nat (length (tx_ins t))) (N.of_nat (length (tx_outs t))) 0 < size (tx_encoding t).
Proof.
  set (ks := [zeros 28; String.append "1" (zeros 27); String.append "2" (zeros 27)]).
  exists (Plan 1 ks), (Tx [TxIn (zeros 32) 0] [TxOut (zeros 57) 5000000 []] 200000 None (to_script (Plan 1 ks)) (repeat (zeros 32, zeros 64) 3) None).
  split; [split; [cbn; lia|repeat constructor]|]. split; [reflexivity|]. split; [repeat constructor|].
  split; [constructor; [split; [cbn; lia|left; reflexivity]|constructor]|]. split; [repeat constructor|]. split; [reflexivity|]. split; [reflexivity|].
  vm_compute. reflexivity.
Qed.

(** The minimum value that the estimators report is the ledger's minimum of an output without assets at the same address
    (thermostat_estimator.rs:160-165 and cml_fee_estimator.rs:100-105 give the library the address and leave out the value); with
    any asset the output needs more. *)
Definition least_pure (coins_per_byte : N) (address : string) (v : N) : Prop :=
  enough_coin coins_per_byte (TxOut address v []) /\ forall w, enough_coin coins_per_byte (TxOut address w []) -> v <= w.
Theorem C53_min_value_refuted coins_per_byte address v assets : 0 < coins_per_byte -> least_pure coins_per_byte address v -> assets <> [] ->
  ~ enough_coin coins_per_byte (TxOut address v assets).
Proof.
  intros Hc [E L] NE H. unfold enough_coin in *. cbn [to_coin] in *.
  rewrite out_size_pure in E by reflexivity. cbn [to_address to_coin] in E.
  rewrite (out_size_assets (TxOut address v assets) assets eq_refl NE) in H. cbn [to_address to_coin] in H.
  destruct (N.eq_dec v 0) as [-> |Hv]; [nia|].
  assert (coins_per_byte * (160 + size (out_bytes (TxOut address (v - 1) []))) <= v - 1 -> False) as P.
  { intro Q. specialize (L (v - 1) Q). lia. }
  apply P. rewrite out_size_pure by reflexivity. cbn [to_address to_coin].
  pose proof (head_mono 0 (v - 1) v ltac:(lia)) as M. fold (uint (v - 1)) in M. fold (uint v) in M.
  set (x := size (bstr address)) in *. set (y := size (uint v)) in *. set (z := size (uint (v - 1))) in *. set (w := size (assets_bytes assets)) in *.
  clearbody x y z w. nia.
Qed.
Example C53_min_value_case : least_pure 4310 (zeros 57) 969750.
Proof.
  unfold least_pure, enough_coin. cbn [to_coin]. split; [vm_compute; discriminate|].
  intros w. rewrite out_size_pure by reflexivity. cbn [to_address to_coin]. change (size (bstr (zeros 57))) with 59.
  unfold uint. rewrite head_size. repeat match goal with |- context [if ?x <? ?y then _ else _] => destruct (N.ltb_spec x y) end; lia.
Qed.

(** ** The encoding gives the sizes that the repository's tests measure with the Cardano library (network_id.rs:490-600): fees of
    156041, 157625, 159253, 162245 and 160573 at 44 per byte and 155381 *)
Definition bare (i : list txin) (o : list txout) (g : list (string * string)) : tx := Tx i o 800000 None [] g None.
Example C53_test_sizes :
  ledger_fee 44 155381 (bare [] [] []) = 156041 /\
  ledger_fee 44 155381 (bare [TxIn (zeros 32) 0] [] []) = 157625 /\
  ledger_fee 44 155381 (bare [TxIn (zeros 32) 0; TxIn (zeros 32) 200] [] []) = 159253 /\
  ledger_fee 44 155381 (bare [] [TxOut (zeros 57) 45000000000000000 [(zeros 28, [(zeros 28, 45000000000000000)])]] []) = 162245 /\
  ledger_fee 44 155381 (bare [] [] [(zeros 32, zeros 64)]) = 160573 /\
  44 * size (metadata_bytes (Tx [] [] 0 None [] [] (Some ("", "")))) = 176 /\
  44 * size (metadata_bytes (Tx [] [] 0 None [] [] (Some ("", "mainnet.cardano-evm.c1")))) = 1144.
Proof. repeat split; vm_compute; reflexivity. Qed.
(** a transaction with everything *)
Definition full_tx : tx :=
  Tx [TxIn (zeros 32) 65535; TxIn (zeros 32) 1] [TxOut (zeros 57) 5000000 [(zeros 28, [(zeros 32, 18446744073709551615)])]; TxOut (zeros 29) 1 []]
     200000 (Some 100000000) (to_script (Plan 2 [zeros 28; zeros 28; zeros 28])) [(zeros 32, zeros 64); (zeros 32, zeros 64)]
     (Some (zeros 32, "mainnet.cardano-evm.c1"%string)).
Example C53_full_case : plan_tx (Plan 2 [zeros 28; zeros 28; zeros 28]) full_tx.
Proof.
  constructor; cbn [tx_ins tx_outs tx_scripts tx_signatures tx_magic full_tx p_quorum].
  - repeat constructor.
  - constructor; [|constructor; [|constructor]].
    + split; [cbn; lia|]. right. exists (zeros 28), (zeros 32), 18446744073709551615. split; [reflexivity|]. split; [reflexivity|cbn; lia].
    + split; [cbn; lia|left; reflexivity].
  - reflexivity.
  - split; [repeat constructor|cbn; lia].
  - intros m [= <-]. split; [reflexivity|cbn; lia].
  - cbn. lia.
Qed.

Definition all_C53 := (@C53_size_covered, @C53_fee_covered, @C53_within_limit, @C53_thermostat, @C53_several_assets_refuted, @C53_more_signatures_refuted,
  @C53_min_value_refuted).
Print Assumptions all_C53.
