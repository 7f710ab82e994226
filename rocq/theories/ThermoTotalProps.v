(** C45: when the thermostat succeeds, and that it does not panic. *)
From Coq Require Import ZArith Lia Sorting.
From stdpp Require Import gmap strings list.
From Verif Require Import ValueModel BalanceModel BalanceProofs StoreModel StoreSpec StoreProofs StoreProps SelModel SelSpec SelProofs SelLargestProofs SelProps ThermoModel ThermoProofs ThermoRunProofs ThermoFeeProofs ThermoExtraProofs ThermoTotalProofs ThermoPanicProofs ThermoProps.
Open Scope Z_scope.

(** ** Success *)
(** an estimator that answers every question *)
Definition answers {E} (est : estimator E) : Prop :=
  forall e, is_Some (e_size est e) /\ is_Some (e_max est e) /\ forall o, is_Some (snd (e_min_value est e o)).

(** For a setup without tokens and an estimator with fixed prices, there is a result exactly when the fixed inputs alone do
    not pay for the outputs and the initial fee, and some of the available outputs without tokens pay for what is
    missing and for their own fees. *)
Theorem C45_succeeds_iff {E} (est : estimator E) enum sc above chk cfg ord ordb ordc ordv h e su a b f0 ad :
  0 < sc -> fair_t ord -> fair_t ordb -> fair_t ordc -> (forall n, fair (enum n)) -> Forall wf_op h ->
  c_main cfg = MAIN -> c_num cfg <> 0%N -> sane est cfg h su -> su_in_assets su = ∅ -> su_out_assets su = ∅ ->
  linear est a b -> answers est -> sc <= a < 2 ^ 64 * sc -> b < 2 ^ 64 * sc -> e_min_fee est e = Some f0 ->
  su_change su = Some ad -> su_fixed_out su <> [] ->
  (exists r, snd (th_select est enum sc above chk cfg ord ordb ordc ordv (final h) e su) = SDone r) <->
  su_in su < su_out su + f0 /\
  exists S, S ⊆+ filter (fun u => u_assets u = []) (unspent h) /\
    su_out su + f0 + a * Z.of_nat (length S) <= su_in su + value_in S.
Proof.
  intros Hsc Ho Hob Hoc Hf Hw Hm Hn (S1 & S2 & S3 & S4 & S5) E1 E2 Li An Ha Hb F0 Had Hout.
  assert (Fi : fine est sc cfg (nonneg_setup su) h) by (unfold fine, nonneg_setup in *; tauto).
  assert (K0 := no_keys ord ordb su Ho Hob E1 E2).
  assert (I0 := start_inv est sc cfg ord ordb e su h Ho Hob). rewrite K0 in I0.
  assert (T0 : tracked est h a (su_in su - su_out su) f0 (th_start ord e su)).
  { split; [cbn; rewrite F0; f_equal; lia|]. split.
    - cbn [th_start t_bal t_sel]. rewrite zbal_sub_value_signed, zbal_add_value_signed. change (value_in []) with 0. cbn. lia.
    - split; [constructor|]. split; intros u; [intros w Hu|intros Hu]; inversion Hu. }
  split.
  - intros [[e' r] R]. destruct (th_select est enum sc above chk cfg ord ordb ordc ordv (final h) e su) as [ut o] eqn:T. cbn [snd] in R. subst o.
    destruct (th_select_done _ _ _ _ _ _ _ _ _ _ _ _ _ _ _ _ T) as (s & S & _). rewrite K0 in S.
    assert (W := select_only_if est enum sc above chk cfg (su_change su) (su_fixed_out su) ordc _ h a b Hf Hw Hm Li Fi
      (su_in su - su_out su) f0 Hout Hn (th_start ord e su) I0 eq_refl T0). rewrite S in W. cbn [wp] in W.
    destruct W as (A & l & B & C). split; [lia|]. exists l. split; [exact B|lia].
  - intros (Hlt & l & Hl & Hen).
    assert (W := select_total est enum sc above chk cfg (su_change su) (su_fixed_out su) ordc _ h a b Hf Hw Hm Li Fi
      (su_in su - su_out su) f0 (fun e => conj (proj1 (An e)) (proj1 (proj2 (An e)))) (proj1 Ha)).
    specialize (W ltac:(apply Z.div_lt_upper_bound; [exact Hsc|change (Z.of_N two64) with (2 ^ 64); lia])).
    specialize (W ltac:(apply Z.div_lt_upper_bound; [exact Hsc|change (Z.of_N two64) with (2 ^ 64); lia])).
    specialize (W Hout ad Had Hn (fun e o => proj2 (proj2 (An e)) o) (th_start ord e su) Hoc I0 eq_refl eq_refl T0 ltac:(lia)).
    assert (En : enough h a (su_in su - su_out su) f0 (th_start ord e su)).
    { exists l. unfold pool, pure. cbn [th_start t_sel]. rewrite spend_nil. split; [exact Hl|].
      change (value_in []) with 0. cbn [length Nat.add]. lia. }
    specialize (W En). unfold th_select. cbn [th_start t_abal]. rewrite K0. fold (th_start ord e su) in *.
    destruct (select _ _ _ _ _ _ _ _ _ _ _ _) as [s [ut| | |]]; cbn [tp] in W; try contradiction. cbn [snd].
    destruct (t_bal s); [discriminate|eauto|eauto].
Qed.

(** ** Panics *)
(** There is no panic when the configured numbers are not zero, an input's fee is at least one unit, the room for the
    changes of the setup's tokens can be counted in 64 bits (or the build does not check) and the available
    outputs have, or had, every token of which the fixed inputs have more than the outputs. *)
Theorem C45_no_panic {E} (est : estimator E) enum sc above chk cfg ord ordb ordc ordv h e su :
  0 < sc -> fair_t ord -> fair_t ordb -> (forall n, fair (enum n)) -> Forall wf_op h ->
  c_main cfg = MAIN -> c_num cfg <> 0%N -> c_num_assets cfg <> 0%N -> plain_setup su ->
  nonneg_table (su_in_assets su) -> nonneg_table (su_out_assets su) ->
  (forall e u f, e_fee_in est e u = Some f -> sc <= f) ->
  (chk = true -> forall e o f, e_fee_out est e o = Some f ->
     f / sc * Z.of_nat (size (dom (su_in_assets su) ∪ dom (su_out_assets su))) * 2 < 2 ^ 64) ->
  (forall t, amount t (su_out_assets su) < amount t (su_in_assets su) -> get_asset_ids (final h) t <> None) ->
  snd (th_select est enum sc above chk cfg ord ordb ordc ordv (final h) e su) <> SPanic.
Proof.
  intros Hsc Ho Hob Hf Hw Hm Hn Hna [P1 P2] N1 N2 Hin Hroom Hreg.
  set (keys := map fst (ordb (asset_balances ord (su_in_assets su) (su_out_assets su)))).
  assert (KN : NoDup keys) by (unfold keys; rewrite (Permutation_map fst (Hob _)); apply NoDup_fst_map_to_list).
  assert (KI : forall t, t ∈ keys <-> is_Some (su_in_assets su !! t) \/ is_Some (su_out_assets su !! t)).
  { intro t. unfold keys. rewrite keys_of by exact Hob. exact (asset_balances_keys _ _ _ _ Ho). }
  assert (KM : MAIN ∉ keys) by (rewrite KI, P1, P2; intros [[? Q]|[? Q]]; discriminate).
  assert (KL : size (dom (su_in_assets su) ∪ dom (su_out_assets su)) = length keys).
  { rewrite <- (size_list_to_set (C := gset token) keys KN). f_equal. apply set_eq. intro t.
    rewrite elem_of_union, !elem_of_dom, elem_of_list_to_set, KI. reflexivity. }
  rewrite KL in Hroom.
  assert (W := select_np est enum sc above chk cfg (su_change su) (su_fixed_out su) ordc (nonneg_setup su) h keys Hf Hw Hm KN KM Hsc Hin Hroom Hn Hna
    (th_start ord e su) (start_inv est sc cfg ord ordb e su h Ho Hob)).
  assert (Kn : known (th_start ord e su) (final h)).
  { intros t x Hx. cbn [th_start t_abal] in Hx. apply not_eq_None_Some, Hreg.
    assert (A := asset_balances_signed ord (su_in_assets su) (su_out_assets su) t Ho).
    assert (B := asset_balances_normal ord _ _ Ho N1 N2 t). unfold bal_of in A, B. rewrite Hx in A, B. cbn in A, B. lia. }
  specialize (W Kn). unfold th_select. cbn [th_start t_abal]. fold keys. fold (th_start ord e su) in *.
  destruct (select _ _ _ _ _ _ _ _ _ _ _ _) as [s [ut| | |]]; cbn [np] in W; try contradiction; cbn [snd]; try discriminate.
  destruct (t_bal s); discriminate.
Qed.

(** ** Concrete cases *)
(** 80 is payable from 30, 40, 50 and 50; 200 is not *)
Example C45_succeeds_case :
  answers (flat 2 1 1) /\ 1 <= 1 < 2 ^ 64 * 1 /\ e_min_fee (flat 2 1 1) (0, 1)%N = Some 3 /\
  [tu 1 40 0; tu 3 50 0] ⊆+ filter (fun u => u_assets u = []) (unspent h_main) /\
  (exists r, snd (tcase cfg_usual h_main [] [Uout "you" 80 [] None]) = SDone r) /\
  (exists e', snd (tcase cfg_usual h_main [] [Uout "you" 200 [] None]) = SFail e').
Proof.
  split; [intro e; cbn; eauto|]. split; [lia|]. split; [reflexivity|]. split.
  - change (filter _ _) with [tu 0 30 0; tu 1 40 0; tu 2 50 0; tu 3 50 0].
    apply submseteq_cons, submseteq_skip, submseteq_cons. reflexivity.
  - split.
    + assert (H : match tcase cfg_usual h_main [] [Uout "you" 80 [] None] with (_, SDone _) => True | _ => False end) by (vm_compute; exact I).
      destruct (tcase _ _ _ _) as [ut [r| | |]]; try contradiction. eexists. reflexivity.
    + assert (H : match tcase cfg_usual h_main [] [Uout "you" 200 [] None] with (_, SFail _) => True | _ => False end) by (vm_compute; exact I).
      destruct (tcase _ _ _ _) as [ut [r|e'| |]]; try contradiction. eexists. reflexivity.
Qed.
(** a fixed input with a token in excess that the store has had *)
Example C45_no_panic_case :
  let su := from_fixed [Utxo ("f", 0%N) "me" 40 [Asset "p" "a" "A" 5] ""] [Uout "you" 60 [] None] (Some "me") in
  (forall e u f, e_fee_in (flat 2 1 1) e u = Some f -> 1 <= f) /\ get_asset_ids (final h_usual) "A" <> None /\
  amount "A" (su_out_assets su) < amount "A" (su_in_assets su) /\
  (forall e o f, e_fee_out (flat 2 1 1) e o = Some f -> f / 1 * Z.of_nat (size (dom (su_in_assets su) ∪ dom (su_out_assets su))) * 2 < 2 ^ 64).
Proof.
  split; [intros e u f H; injection H as <-; lia|]. split; [vm_compute; discriminate|]. split; [vm_compute; reflexivity|].
  intros e o f H. injection H as <-. vm_compute. reflexivity.
Qed.

Definition C45_total := (@C45_succeeds_iff, @C45_no_panic).
Print Assumptions C45_total.
