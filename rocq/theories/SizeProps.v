(** C66: the size of a selected transaction against the network's limit, with the estimator for a multisignature plan. *)
From Coq Require Import ZArith Lia Sorting Ascii.
From stdpp Require Import gmap strings list.
From Verif Require Import ValueModel ValueProofs BalanceModel BalanceProofs StoreModel StoreSpec StoreProofs StoreProps SelModel SelSpec SelProofs SelChangeProofs SelLargestProofs SelFewestProofs SelProps ThermoModel ThermoProofs ThermoFeeProofs ThermoExtraProofs ThermoCountProofs ThermoProps EstimModel EstimProps PipelineProps RandModel RandProps.
Open Scope Z_scope.

(** the size announced by the estimator that was told of the calls l and then of so many more inputs and outputs: 50 bytes more than
    the fee is charged on (C46_size) *)
Definition size_with (script quorum : N) (l : list ecall) (ins outs : nat) : N :=
  (50 + tx_bytes script quorum (inputs_of l + N.of_nat ins) (outputs_of l + N.of_nat outs) 0)%N.

Lemma value_in_atmost v us : Forall (fun u => u_value u <= v) us -> value_in us <= v * Z.of_nat (length us).
Proof. induction 1 as [|u us H _ IH]; [cbn; lia|]. unfold value_in, sumZ in *. cbn [map foldr length]. lia. Qed.
Lemma value_in_atleast v us : Forall (fun u => v <= u_value u) us -> v * Z.of_nat (length us) <= value_in us.
Proof. induction 1 as [|u us H _ IH]; [cbn; lia|]. unfold value_in, sumZ in *. cbn [map foldr length]. lia. Qed.

Section Size.
  Context (sc : Z) (script_len : plan -> N) (min_ada : uout -> option N).
  Notation new := (estimator_new sc script_len).
  Notation est := (thermostat_estimator sc min_ada).
  Notation calls := (est_calls sc min_ada).
  Context (n : network) (p : plan) (c : prices) (s0 : estate) (l : list ecall) (e : estate).
  Hypothesis (Hnew : new n p = Some (c, s0)) (Hl : calls c s0 l = Some e) (Hm : no_magic l).
  Notation size ins outs := (size_with (script_len p) (p_quorum p) l ins outs).

  Lemma size_counted : counted (est c) (fun x => option_map Z.of_N (e_size (est c) x)) 38 151.
  Proof.
    intros x f Hx. cbn in Hx. injection Hx as <-. destruct (new_some _ _ _ _ _ _ Hnew) as (? & ? & _ & _ & _ & _ & _ & _ & P5 & P6 & _).
    split; [|split; [|split; [|reflexivity]]].
    - intros w x' W. injection W as <-. cbn. f_equal. lia.
    - intros w x' W. discriminate.
    - intros w x' W. injection W as <-. cbn. f_equal. lia.
  Qed.
  Lemma size_before : e_size (est c) e = Some (size 0 0).
  Proof. destruct (C46_size sc script_len min_ada _ _ _ _ _ _ Hnew Hm Hl) as (Z1 & _). rewrite Z1. unfold size_with. do 3 f_equal; lia. Qed.
  Lemma size_max x : e_max (est c) x = Some (max_tx_size n).
  Proof. destruct (C46_size sc script_len min_ada _ _ _ _ _ _ Hnew Hm Hl) as (_ & Z1 & _). exact Z1. Qed.
  Lemma size_charge us : forall x x' g z, charge (est c) x us = Some (x', g) -> e_size (est c) x = Some z ->
    e_size (est c) x' = Some (z + 38 * N.of_nat (length us))%N.
  Proof.
    assert (K := size_counted). induction us as [|u us IH]; intros x x' g z C S; cbn [charge] in C.
    - injection C as <- <-. rewrite S. f_equal. cbn. lia.
    - destruct (e_fee_in (est c) x u) as [f|]; [|discriminate]. destruct (e_add_in (est c) x u) as [x1 b] eqn:A. destruct b; [|discriminate].
      destruct (charge (est c) x1 us) as [[x2 g2]|] eqn:C2; [|discriminate]. injection C as <- <-.
      destruct (K x (Z.of_N z)) as (K1 & _); [rewrite S; reflexivity|]. assert (K2 := K1 u x1 A). cbn beta in K2.
      destruct (e_size (est c) x1) as [z1|] eqn:S1; [|discriminate]. injection K2 as K2.
      rewrite (IH _ _ _ _ C2 S1). f_equal. cbn [length]. lia.
  Qed.

  (** *** what the size is after a selection *)
  (** thermostat: the transaction returned, with all its changes *)
  Theorem C66_thermostat_size enum above chk cfg ord ordb ordc ordv avail su ut e' r :
    fair_t ordc -> fair_t ordv ->
    th_select (est c) enum sc above chk cfg ord ordb ordc ordv avail e su = (ut, SDone (e', r)) ->
    e_size (est c) e' = Some (size (length (se_chosen r)) (length (se_changes r))) /\ e_max (est c) e' = Some (max_tx_size n).
  Proof.
    intros Hoc Hov T. split; [|apply size_max].
    assert (I := C45_estimator_informed (est c) enum sc above chk cfg ord ordb ordc ordv avail e su ut e' r _ _ _ _ Hoc Hov size_counted
                   (f_equal (option_map Z.of_N) size_before) T).
    cbn beta in I. destruct (e_size (est c) e') as [z|]; [|discriminate]. cbn in I. injection I as I. f_equal. unfold size_with, tx_bytes in *. lia.
  Qed.
  (** largest first *)
  Theorem C66_largest_first_size enum ord h su st' e' sel :
    0 < sc -> (forall n, fair (enum n)) -> fair_t ord -> Forall wf_op h -> Forall nonneg_in (unspent h) -> 0 <= su_out su ->
    lf_select (est c) enum ord (final h) e su = (st', SDone (e', sel)) ->
    e_size (est c) e' = Some (size (length (se_chosen sel)) 0) /\ e_max (est c) e' = Some (max_tx_size n).
  Proof.
    intros Hsc He Ho Hw Hn Hout L. split; [|apply size_max].
    assert (Hest : fees_nonneg (est c)).
    { destruct (C46_fixed_prices sc script_len min_ada _ _ _ _ Hsc Hnew) as (k' & k0' & K & Li & _ & N1 & N2 & _).
      intro x. split; [|split; [intros; eapply N1; eassumption|intros; eapply N2; eassumption]]. intros f Q. cbn [thermostat_estimator e_min_fee] in Q. injection Q as <-.
      destruct (new_some _ _ _ _ _ _ Hnew) as (? & ? & _ & _ & P1 & P2 & P3 & _). unfold est_min_fee, lovelace. rewrite P1, P2, P3. lia. }
    destruct (C40_selected (est c) enum ord h e su st' e' sel He Ho Hw Hn Hest Hout L) as (_ & _ & _ & _ & _ & _ & _ & _ & _ & _ & (f0 & g & _ & C & _) & _).
    rewrite (size_charge _ _ _ _ _ C size_before). f_equal. unfold size_with, tx_bytes. lia.
  Qed.
  (** random improve, when no two fixed outputs are equal (otherwise inputs are told to the estimator twice: C44_equal_outputs_refuted) *)
  Theorem C66_random_size rnd chk inputs ord hord av su before av' e' r :
    (forall l, hord l ≡ₚ l) -> NoDup av -> ri_available (inputs, av) = Some before -> NoDup (su_fixed_out su) ->
    ri_select (est c) rnd chk sc inputs ord hord av e su = (av', SDone (e', r)) ->
    e_size (est c) e' = Some (size (length (se_chosen r)) 0) /\ e_max (est c) e' = Some (max_tx_size n).
  Proof.
    intros Hh N Hb Nf R. split; [|apply size_max].
    destruct (C44_selected _ _ _ _ _ _ _ _ _ _ _ _ _ _ Hh N Hb R) as (_ & _ & _ & _ & _ & _ & _ & _ & X).
    destruct (X Nf) as (_ & _ & order & fee & f & P & _ & C & _).
    rewrite (size_charge _ _ _ _ _ C size_before), (Permutation_length P). f_equal. unfold size_with, tx_bytes. lia.
  Qed.
  (** the single change output on top *)
  Theorem C66_single_change_size ord ordb extra x su x' s z :
    single_change (est c) ord ordb extra x su = SDone (x', s) -> e_size (est c) x = Some z -> e_size (est c) x' = Some (z + 151)%N.
  Proof.
    unfold single_change. intros S Hz. destruct (su_change su) as [ad|]; [|discriminate]. destruct (excess_assets _ _) as [as_|]; [|discriminate].
    destruct (e_min_fee (est c) x) as [fee|]; [|discriminate].
    assert (F : forall v, match e_fee_out (est c) x (Uout ad v as_ extra) with
        | None => SFail x
        | Some f => match e_add_out (est c) x (Uout ad (v - f) as_ extra) with
                    | (x1, false) => SFail x1
                    | (x1, true) => SDone (x1, Selection (su_in su) (su_in_assets su) (su_out su + (v - f)) (add_assets (su_out_assets su) as_) (su_fixed_in su) (su_fixed_out su) [] [Uout ad (v - f) as_ extra] (fee + f))
                    end
        end = SDone (x', s) -> e_size (est c) x' = Some (z + 151)%N).
    { intros v H. cbn [thermostat_estimator e_fee_out e_add_out] in H. injection H as <- _. destruct (new_some _ _ _ _ _ _ Hnew) as (? & ? & _ & _ & _ & _ & _ & _ & _ & P6 & _).
      cbn [thermostat_estimator e_size] in Hz |- *. injection Hz as <-. cbn [est_add_output es_size]. f_equal. lia. }
    cbn zeta in S. cbn [o_value o_assets] in S. destruct (main_balance_of _ _ _); [discriminate|exact (F _ S)|exact (F _ S)].
  Qed.

  (** *** when it is within the limit *)
  (** The thermostat paying without tokens: if every available output without tokens is worth at least v, more than an input costs, and the
      payment with its fee could be made of N such outputs, then a transaction for whose N inputs and two changes there is room is never
      exceeded.  Inputs beyond the need are only added while there is room (C46_thermostat_choice). *)
  Theorem C66_fits k k0 v N enum above chk cfg ord ordb ordc ordv h su ut e' r :
    0 < sc -> linear_fee n = Some (k, k0) ->
    fair_t ord -> fair_t ordb -> fair_t ordc -> fair_t ordv -> (forall n, fair (enum n)) -> Forall wf_op h ->
    c_main cfg = MAIN -> 0 <= c_min cfg <= c_max cfg -> Forall nonneg_in (unspent h) -> nonneg_setup su ->
    su_in_assets su = ∅ -> su_out_assets su = ∅ -> (9 <= k)%N -> (max_tx_size n < 2 ^ 64)%N ->
    (forall u, u ∈ unspent h -> u_assets u = [] -> v <= u_value u) -> sc * Z.of_N (k * 38) < v ->
    su_out su + sc * Z.of_N (k0 + k * tx_bytes (script_len p) (p_quorum p) (inputs_of l) (outputs_of l) 0)
      <= su_in su + (v - sc * Z.of_N (k * 38)) * Z.of_nat N ->
    (1 <= N)%nat -> (size N 2 <= max_tx_size n)%N ->
    th_select (est c) enum sc above chk cfg ord ordb ordc ordv (final h) e su = (ut, SDone (e', r)) ->
    exists z, e_size (est c) e' = Some z /\ (z <= max_tx_size n)%N.
  Proof.
    intros Hsc Hk Ho Hob Hoc Hov Hf Hw Hmain Hc Hnn Hsu E1 E2 H9 Hmx Hv Hlt Hneed HN Hroom T.
    destruct (C66_thermostat_size _ _ _ _ _ _ _ _ _ _ _ _ _ Hoc Hov T) as [S _]. eexists. split; [exact S|].
    destruct (C46_thermostat_choice sc script_len min_ada _ _ _ _ _ _ enum above chk cfg ord ordb ordc ordv h l e su ut e' r Hsc Hnew Hk Hl Hm Ho Hob Hoc Hov Hf Hw Hmain Hc Hnn Hsu E1 E2 H9 Hmx T)
      as (A & _ & _ & D). cbn zeta in D.
    assert (L2 : (length (se_changes r) <= 2)%nat).
    { apply (C45_single_change (est c) enum sc above chk cfg ord ordb ordc ordv h e su ut e' r 0 Ho Hob Hoc Hov Hmain E1 E2); [|exact T].
      intros x o m' Q. cbn in Q. destruct (min_ada o); [|discriminate]. injection Q as <-. unfold lovelace. lia. }
    destruct D as [(ch & u & D1 & D2)|[_ D]]; [|unfold size_with; exact D].
    assert (P : se_chosen r ++ unspent (spend h (se_chosen r)) ≡ₚ unspent h).
    { assert (X := C45_inputs (est c) enum sc above chk cfg ord ordb ordc ordv h e su Hsc Ho Hob Hoc Hf Hw Hmain). rewrite T in X.
      apply (proj2 (X ltac:(split; [rewrite E1|rewrite E2]; reflexivity)) e' r eq_refl). }
    assert (V : v * Z.of_nat (length ch) <= value_in ch).
    { apply value_in_atleast, Forall_forall. intros w Hw'. apply Hv.
      - rewrite <- P, D1. apply elem_of_app. left. apply elem_of_app. left. exact Hw'.
      - apply A. rewrite D1. apply elem_of_app. left. exact Hw'. }
    assert (Lt : (length ch < N)%nat).
    { unfold tx_bytes in *. set (q := sc * Z.of_N (k * 38)) in *.
      assert (Q : sc * Z.of_N (k0 + k * (67 + script_len p + 108 * p_quorum p + 38 * (inputs_of l + N.of_nat (length ch)) + 151 * outputs_of l + 0)) =
        sc * Z.of_N (k0 + k * (67 + script_len p + 108 * p_quorum p + 38 * inputs_of l + 151 * outputs_of l + 0)) + q * Z.of_nat (length ch)) by (unfold q; lia).
      rewrite Q in D2. destruct (Nat.lt_ge_cases (length ch) N) as [?|G]; [assumption|]. exfalso.
      assert ((v - q) * Z.of_nat N <= (v - q) * Z.of_nat (length ch)) by (apply Z.mul_le_mono_nonneg_l; lia). lia. }
    assert (Lc : (length (se_chosen r) <= N)%nat) by (rewrite D1, app_length; cbn; lia).
    revert Hroom. unfold size_with, tx_bytes. lia.
  Qed.

  (** *** when it is not *)
  (** No selection fails for its size: if no available output is worth more than v, and the payment needs more than N of them, while N inputs
      are already too large for the network, then whatever is selected is too large. *)
  Theorem C66_thermostat_oversized v N enum above chk cfg ord ordb ordc ordv h su ut e' r :
    0 < sc -> fair_t ord -> fair_t ordb -> fair_t ordc -> fair_t ordv -> (forall n, fair (enum n)) -> Forall wf_op h ->
    c_main cfg = MAIN -> plain_setup su -> 0 <= c_min cfg <= c_max cfg -> Forall nonneg_in (unspent h) -> nonneg_setup su ->
    0 <= v -> (forall u, u ∈ unspent h -> u_value u <= v) -> su_in su + v * Z.of_nat N < su_out su -> (max_tx_size n < size N 0)%N ->
    th_select (est c) enum sc above chk cfg ord ordb ordc ordv (final h) e su = (ut, SDone (e', r)) ->
    exists z, e_size (est c) e' = Some z /\ (max_tx_size n < z)%N.
  Proof.
    intros Hsc Ho Hob Hoc Hov Hf Hw Hmain Hp Hc Hnn Hsu Hv0 Hv Hneed Hbig T.
    destruct (C66_thermostat_size _ _ _ _ _ _ _ _ _ _ _ _ _ Hoc Hov T) as [S _]. eexists. split; [exact S|].
    assert (Sa := est_sane sc script_len min_ada _ _ _ _ cfg h su Hsc Hnew Hc Hnn Hsu).
    destruct (C45_signs (est c) enum sc above chk cfg ord ordb ordc ordv h e su ut e' r Hsc Ho Hob Hoc Hov Hf Hw Hmain Hp Sa T) as [F0 C0].
    assert (M := C45_main_value (est c) enum sc above chk cfg ord ordb ordc ordv _ e su ut e' r Hsc Ho Hoc Hov T).
    assert (P : se_chosen r ++ unspent (spend h (se_chosen r)) ≡ₚ unspent h).
    { assert (X := C45_inputs (est c) enum sc above chk cfg ord ordb ordc ordv h e su Hsc Ho Hob Hoc Hf Hw Hmain Hp). rewrite T in X. apply (proj2 X e' r eq_refl). }
    assert (V : value_in (se_chosen r) <= v * Z.of_nat (length (se_chosen r))).
    { apply value_in_atmost, Forall_forall. intros u Hu. apply Hv. rewrite <- P. apply elem_of_app. left. exact Hu. }
    assert (0 <= value_out (se_changes r)) by (apply value_out_nonneg; exact C0).
    assert (Lt : (N < length (se_chosen r))%nat).
    { destruct (Nat.lt_ge_cases N (length (se_chosen r))) as [?|G]; [assumption|]. exfalso.
      assert (v * Z.of_nat (length (se_chosen r)) <= v * Z.of_nat N) by (apply Z.mul_le_mono_nonneg_l; lia). lia. }
    revert Hbig. unfold size_with, tx_bytes. lia.
  Qed.
  Theorem C66_largest_first_oversized v N enum ord h su st' e' sel :
    0 < sc -> (forall n, fair (enum n)) -> fair_t ord -> Forall wf_op h -> Forall nonneg_in (unspent h) -> 0 <= su_out su ->
    0 <= v -> (forall u, u ∈ unspent h -> u_value u <= v) -> su_in su + v * Z.of_nat N < su_out su -> (max_tx_size n < size N 0)%N ->
    lf_select (est c) enum ord (final h) e su = (st', SDone (e', sel)) ->
    exists z, e_size (est c) e' = Some z /\ (max_tx_size n < z)%N.
  Proof.
    intros Hsc He Ho Hw Hn Hout Hv0 Hv Hneed Hbig L.
    destruct (C66_largest_first_size _ _ _ _ _ _ _ Hsc He Ho Hw Hn Hout L) as [S _]. eexists. split; [exact S|].
    assert (Hest : fees_nonneg (est c)).
    { destruct (C46_fixed_prices sc script_len min_ada _ _ _ _ Hsc Hnew) as (k' & k0' & K & Li & _ & N1 & N2 & _).
      intro x. split; [|split; [intros; eapply N1; eassumption|intros; eapply N2; eassumption]]. intros f Q. cbn [thermostat_estimator e_min_fee] in Q. injection Q as <-.
      destruct (new_some _ _ _ _ _ _ Hnew) as (? & ? & _ & _ & P1 & P2 & P3 & _). unfold est_min_fee, lovelace. rewrite P1, P2, P3. lia. }
    destruct (C40_selected (est c) enum ord h e su st' e' sel He Ho Hw Hn Hest Hout L) as (_ & P & _ & I & _ & _ & _ & _ & _ & _ & (f0 & g & F & C & Fe) & _ & M).
    destruct (C46_fixed_prices sc script_len min_ada _ _ _ _ Hsc Hnew) as (k' & k0' & K & Li & _ & N1 & _).
    assert (F0 := proj1 (Hest e) _ F). destruct (linear_charge _ _ _ Li _ _ _ _ _ C F) as [-> _].
    assert (V : value_in (se_chosen sel) <= v * Z.of_nat (length (se_chosen sel))).
    { apply value_in_atmost, Forall_forall. intros u Hu. apply Hv. rewrite <- P. apply elem_of_app. left. exact Hu. }
    assert (Lt : (N < length (se_chosen sel))%nat).
    { destruct (Nat.lt_ge_cases N (length (se_chosen sel))) as [?|G]; [assumption|]. exfalso.
      assert (v * Z.of_nat (length (se_chosen sel)) <= v * Z.of_nat N) by (apply Z.mul_le_mono_nonneg_l; lia). nia. }
    revert Hbig. unfold size_with, tx_bytes. lia.
  Qed.
  Theorem C66_random_oversized v N rnd chk inputs ord hord av su before av' e' r :
    (forall l, hord l ≡ₚ l) -> NoDup av -> ri_available (inputs, av) = Some before -> NoDup (su_fixed_out su) ->
    0 <= v -> (forall u, u ∈ before -> u_value u <= v) -> su_in su + v * Z.of_nat N < su_out su -> (max_tx_size n < size N 0)%N ->
    ri_select (est c) rnd chk sc inputs ord hord av e su = (av', SDone (e', r)) ->
    exists z, e_size (est c) e' = Some z /\ (max_tx_size n < z)%N.
  Proof.
    intros Hh Nd Hb Nf Hv0 Hv Hneed Hbig R.
    destruct (C66_random_size _ _ _ _ _ _ _ _ _ _ _ Hh Nd Hb Nf R) as [S _]. eexists. split; [exact S|].
    destruct (C44_selected _ _ _ _ _ _ _ _ _ _ _ _ _ _ Hh Nd Hb R) as ((aft & _ & P) & _ & M & _ & _ & _ & _ & _ & X).
    destruct (X Nf) as (I & _).
    assert (V : value_in (se_chosen r) <= v * Z.of_nat (length (se_chosen r))).
    { apply value_in_atmost, Forall_forall. intros u Hu. apply Hv. rewrite <- P. apply elem_of_app. left. exact Hu. }
    assert (Lt : (N < length (se_chosen r))%nat).
    { destruct (Nat.lt_ge_cases N (length (se_chosen r))) as [?|G]; [assumption|]. exfalso.
      assert (v * Z.of_nat (length (se_chosen r)) <= v * Z.of_nat N) by (apply Z.mul_le_mono_nonneg_l; lia). lia. }
    revert Hbig. unfold size_with, tx_bytes. lia.
  Qed.
End Size.

(** ** cases: a network with the usual fees and transactions of at most 1000 bytes; the plan of EstimProps; one output is told first *)
Definition sz_net : network := Custom ["4"; "4"]%char ["1"; "5"; "5"; "3"; "8"; "1"]%char 1000.
Definition sz_pay (v : Z) : uout := Uout "you" v [] None.
Definition sz_su (v : Z) : setup := from_fixed [] [sz_pay v] (Some "me").
Definition sz_cfg : tconfig := Tconfig 1 1 10 20 MAIN.
Definition sz_calls (v : Z) : list ecall := [CallOutput (sz_pay v)].
(** Twenty outputs of 1 ADA. *)
Definition sz_dust : list store_op := map (fun i => Insert (tu (N.of_nat i) 1000000 0)) (seq 0 20).
Notation sz_run f := (match estimator_new 1 demo_len sz_net demo_plan with
  | Some (c, s0) => match est_calls 1 demo_ada c s0 (sz_calls 1000000) with Some e => f (thermostat_estimator 1 demo_ada c) e | None => False end
  | None => False end).
Notation sz_thermo est e v := (th_select est (fun _ => natural) 1 more false sz_cfg tnatural tnatural tnatural tnatural (final sz_dust) e (sz_su v)).
Lemma sz_dust_all : unspent sz_dust = map (fun i => tu (N.of_nat i) 1000000 0) (seq 0 20).
Proof. vm_compute. reflexivity. Qed.
Lemma sz_dust_ok : Forall wf_op sz_dust /\ Forall nonneg_in (unspent sz_dust) /\
  (forall u, u ∈ unspent sz_dust -> u_assets u = [] -> 1000000 <= u_value u) /\ forall u, u ∈ unspent sz_dust -> u_value u <= 1000000.
Proof.
  rewrite sz_dust_all. split; [|split; [|split]].
  - unfold sz_dust. apply Forall_forall. intros x Hx. apply elem_of_list_fmap in Hx as (i & -> & _). apply wf_tu.
  - apply Forall_forall. intros x Hx. apply elem_of_list_fmap in Hx as (i & -> & _). apply nonneg_tu; lia.
  - intros x Hx _. apply elem_of_list_fmap in Hx as (i & -> & _). cbn. lia.
  - intros x Hx. apply elem_of_list_fmap in Hx as (i & -> & _). cbn. lia.
Qed.
(** a payment of 1.5 ADA: two inputs are needed, and two inputs with two changes take 970 bytes *)
Example C66_fits_case : sz_run (fun est e => match sz_thermo est e 1500000 with
    | (_, SDone (e', r)) => length (se_chosen r) = 2%nat /\ se_changes r = [] /\ e_size est e' = Some 668%N | _ => False end) /\
  linear_fee sz_net = Some (44, 155381)%N /\ max_tx_size sz_net = 1000%N /\ no_magic (sz_calls 1000000) /\
  1 * Z.of_N (44 * 38) < 1000000 /\
  su_out (sz_su 1500000) + 1 * Z.of_N (155381 + 44 * tx_bytes (demo_len demo_plan) (p_quorum demo_plan) (inputs_of (sz_calls 1000000)) (outputs_of (sz_calls 1000000)) 0)
    <= su_in (sz_su 1500000) + (1000000 - 1 * Z.of_N (44 * 38)) * 2 /\
  (size_with (demo_len demo_plan) (p_quorum demo_plan) (sz_calls 1000000) 2 2 <= 1000)%N /\
  su_in_assets (sz_su 1500000) = ∅ /\ su_out_assets (sz_su 1500000) = ∅ /\ 0 <= c_min sz_cfg <= c_max sz_cfg /\ nonneg_setup (sz_su 1500000).
Proof.
  split; [vm_compute; auto|]. split; [reflexivity|]. split; [reflexivity|]. split; [repeat constructor|]. split; [reflexivity|].
  split; [vm_compute; discriminate|]. split; [vm_compute; discriminate|]. split; [reflexivity|]. split; [reflexivity|].
  split; [cbn; lia|]. apply nonneg_totals; [constructor|repeat (constructor; cbn; try lia)].
Qed.
(** a payment of 12 ADA: it takes more than 11 inputs, and 11 inputs are already too many; every algorithm succeeds with a transaction of more
    than 1000 bytes *)
Example C66_oversized_case :
  sz_run (fun est e => match sz_thermo est e 12000000 with
    | (_, SDone (e', r)) => length (se_chosen r) = 13%nat /\ e_size est e' = Some 1086%N /\ e_max est e' = Some 1000%N | _ => False end) /\
  sz_run (fun est e => match lf_select est (fun _ => natural) tnatural (final sz_dust) e (sz_su 12000000) with
    | (_, SDone (e', r)) => length (se_chosen r) = 13%nat /\ e_size est e' = Some 1086%N | _ => False end) /\
  sz_run (fun est e => match ri_select est (fun n => (n * 3 + 1)%nat) true 1 (unspent sz_dust) tnatural (fun l => l) (seq 0 20) e (sz_su 12000000) with
    | (_, SDone (e', r)) => length (se_chosen r) = 12%nat /\ e_size est e' = Some 1048%N | _ => False end) /\
  su_in (sz_su 12000000) + 1000000 * 11 < su_out (sz_su 12000000) /\
  (max_tx_size sz_net < size_with (demo_len demo_plan) (p_quorum demo_plan) (sz_calls 1000000) 11 0)%N /\
  plain_setup (sz_su 12000000) /\ NoDup (su_fixed_out (sz_su 12000000)) /\ ri_available (unspent sz_dust, seq 0 20) = Some (unspent sz_dust).
Proof.
  split; [vm_compute; auto|]. split; [vm_compute; auto|]. split; [vm_compute; auto|]. split; [reflexivity|]. split; [reflexivity|].
  split; [split; reflexivity|]. split; [apply NoDup_singleton|]. vm_compute. reflexivity.
Qed.
(** so a selection that succeeds need not fit the network's limit *)
Lemma run_inv (P : prices -> estate -> bool) (x : option (prices * estate)) (y : prices -> estate -> option estate) :
  match x with Some (c, s0) => match y c s0 with Some e => P c e | None => false end | None => false end = true ->
  exists c s0 e, x = Some (c, s0) /\ y c s0 = Some e /\ P c e = true.
Proof. destruct x as [[c s0]|]; [|discriminate]. destruct (y c s0) as [e|] eqn:E; [|discriminate]. eauto 10. Qed.
Lemma done_inv {E A} (Q : E * A -> bool) (x : store * outcome E (E * A)) :
  match x with (_, SDone er) => Q er | _ => false end = true -> exists ut e' r, x = (ut, SDone (e', r)) /\ Q (e', r) = true.
Proof. destruct x as [ut [[e' r]|?| |]]; try discriminate. eauto. Qed.
Definition sz_over (c : prices) (e : estate) : bool :=
  match sz_thermo (thermostat_estimator 1 demo_ada c) e 12000000 with
  | (_, SDone er) => match e_size (thermostat_estimator 1 demo_ada c) (fst er) with Some z => (1000 <? z)%N | None => true end
  | _ => false
  end.
Lemma sz_over_runs : match estimator_new 1 demo_len sz_net demo_plan with
  | Some (c, s0) => match est_calls 1 demo_ada c s0 (sz_calls 1000000) with Some e => sz_over c e | None => false end | None => false end = true.
Proof. vm_compute. reflexivity. Qed.
Theorem C66_within_limit_refuted : ~ (forall sc script_len min_ada n p c s0 l e enum above chk cfg ord ordb ordc ordv h su ut e' r,
  0 < sc -> estimator_new sc script_len n p = Some (c, s0) -> est_calls sc min_ada c s0 l = Some e -> no_magic l ->
  th_select (thermostat_estimator sc min_ada c) enum sc above chk cfg ord ordb ordc ordv (final h) e su = (ut, SDone (e', r)) ->
  exists z, e_size (thermostat_estimator sc min_ada c) e' = Some z /\ (z <= max_tx_size n)%N).
Proof.
  intro H. destruct (run_inv sz_over (estimator_new 1 demo_len sz_net demo_plan) (fun c s0 => est_calls 1 demo_ada c s0 (sz_calls 1000000)) sz_over_runs) as (c & s0 & e & En & Ec & K).
  unfold sz_over in K. apply (done_inv (fun er => match e_size (thermostat_estimator 1 demo_ada c) (fst er) with Some z => (1000 <? z)%N | None => true end)) in K as (ut & e' & r & T & K).
  assert (M : no_magic (sz_calls 1000000)) by (repeat constructor).
  destruct (H _ _ _ _ _ _ _ _ _ _ _ _ _ _ _ _ _ _ _ _ _ _ Z.lt_0_1 En Ec M T) as (z & Hz & Hle). cbn [fst] in K. rewrite Hz in K.
  apply N.ltb_lt in K. change (max_tx_size sz_net) with 1000%N in Hle. lia.
Qed.

Definition C66_all := (@C66_thermostat_size, @C66_largest_first_size, @C66_random_size, @C66_single_change_size, @C66_fits, @C66_thermostat_oversized, @C66_largest_first_oversized,
  @C66_random_oversized, @C66_within_limit_refuted).
Print Assumptions C66_all.
