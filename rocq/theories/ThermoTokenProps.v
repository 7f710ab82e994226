(** C45: that the thermostat succeeds for setups with tokens, and that more to choose from can make it fail. *)
From Coq Require Import ZArith Lia Sorting.
From stdpp Require Import gmap strings list.
From Verif Require Import ValueModel BalanceModel BalanceProofs StoreModel StoreSpec StoreProofs StoreProps SelModel SelSpec SelProofs SelLargestProofs SelProps ThermoModel ThermoProofs ThermoRunProofs ThermoFeeProofs ThermoExtraProofs ThermoCountProofs ThermoTotalProofs ThermoPanicProofs ThermoTokenProofs ThermoProps ThermoTotalProps.
Open Scope Z_scope.

(** ** Success with tokens *)
(** With an estimator with fixed prices there is a result when
    - of each token of the setup, the fixed inputs and the available outputs with that token alone have what the outputs
      need, these available outputs are worth their fee, and no more than the configured number of outputs have the token;
    - some available outputs without tokens pay for what is missing, for their own fees, and for a change of the
      configured maximum for each token;
    - the fixed inputs alone do not pay for everything. *)
Theorem C45_succeeds_with_tokens {E} (est : estimator E) enum sc above chk cfg ord ordb ordc ordv h e su a b f0 ad :
  let tokens := dom (su_in_assets su) ∪ dom (su_out_assets su) in
  0 < sc -> fair_t ord -> fair_t ordb -> fair_t ordc -> (forall n, fair (enum n)) -> Forall wf_op h ->
  c_main cfg = MAIN -> c_num cfg <> 0%N -> c_num_assets cfg <> 0%N -> plain_setup su -> sane est cfg h su -> tokens <> ∅ ->
  linear est a b -> answers est -> sc <= a < 2 ^ 64 * sc -> b < 2 ^ 64 * sc ->
  (chk = true -> b / sc * Z.of_nat (size tokens) * 2 < 2 ^ 64) ->
  e_min_fee est e = Some f0 -> su_change su = Some ad -> su_fixed_out su <> [] ->
  (forall t, amount t (su_out_assets su) < amount t (su_in_assets su) -> get_asset_ids (final h) t <> None) ->
  (forall t, t ∈ tokens -> amount t (su_out_assets su) <= amount t (su_in_assets su) + token_in t (filter (sole t) (unspent h))) ->
  (forall t u, t ∈ tokens -> u ∈ unspent h -> sole t u -> a <= u_value u) ->
  (forall t, t ∈ tokens -> (N.of_nat (length (filter (holds t) (unspent h))) <= c_num cfg)%N) ->
  (exists S, S ⊆+ filter (fun u => u_assets u = []) (unspent h) /\
    su_out su + f0 + a * Z.of_nat (length S) + Z.of_nat (size tokens) * (c_max cfg + b) <= su_in su + value_in S) ->
  (su_in su < su_out su + f0 \/ exists t, amount t (su_in_assets su) < amount t (su_out_assets su)) ->
  exists r, snd (th_select est enum sc above chk cfg ord ordb ordc ordv (final h) e su) = SDone r.
Proof.
  intros tokens Hsc Ho Hob Hoc Hf Hw Hm Hn Hna [P1 P2] (S1 & S2 & S3 & S4 & S5) Hne Li An Ha Hb Hroom F0 Had Hout Hreg Htok Hworth Hfew (S & HS & Hen) Hlt.
  assert (Fi : fine est sc cfg (nonneg_setup su) h) by (unfold fine, nonneg_setup in *; tauto).
  set (keys := map fst (ordb (asset_balances ord (su_in_assets su) (su_out_assets su)))).
  assert (KN : NoDup keys) by (unfold keys; rewrite (Permutation_map fst (Hob _)); apply NoDup_fst_map_to_list).
  assert (KI : forall t, t ∈ keys <-> is_Some (su_in_assets su !! t) \/ is_Some (su_out_assets su !! t)).
  { intro t. unfold keys. rewrite keys_of by exact Hob. exact (asset_balances_keys _ _ _ _ Ho). }
  assert (KT : forall t, t ∈ keys <-> t ∈ tokens) by (intro t; unfold tokens; rewrite elem_of_union, !elem_of_dom, KI; reflexivity).
  assert (KM : MAIN ∉ keys) by (rewrite KI, P1, P2; intros [[? Q]|[? Q]]; discriminate).
  assert (KL : size tokens = length keys).
  { rewrite <- (size_list_to_set (C := gset token) keys KN). f_equal. apply set_eq. intro t. rewrite elem_of_list_to_set, KT. reflexivity. }
  rewrite KL in Hroom, Hen.
  assert (Kne : keys <> []). { intros Q. apply Hne, set_eq. intro t. rewrite <- KT, Q. rewrite elem_of_empty. split; intro Z0; inversion Z0. }
  assert (I0 := start_inv est sc cfg ord ordb e su h Ho Hob). fold keys in I0.
  assert (Kn : known (th_start ord e su) (final h)).
  { intros t x Hx. cbn [th_start t_abal] in Hx. apply not_eq_None_Some, Hreg.
    assert (A := asset_balances_signed ord (su_in_assets su) (su_out_assets su) t Ho).
    destruct S5 as (_ & _ & N1 & N2). assert (B := asset_balances_normal ord _ _ Ho N1 N2 t). unfold bal_of in A, B. rewrite Hx in A, B. cbn in A, B. lia. }
  assert (T0 : told (e_min_fee est) a b f0 0 (th_start ord e su)).
  { unfold told, changes_of. cbn [th_start t_est t_sel t_changes t_extra]. rewrite F0, map_size_empty. f_equal. cbn [length]. lia. }
  assert (R0 : ready est sc cfg (nonneg_setup su) h keys a b (su_in su - su_out su) f0
    (fun t => amount t (su_in_assets su) - amount t (su_out_assets su)) (th_start ord e su) (final h)).
  { split; [exact I0|exact Kn|exact (start_books ord e su Ho)|exact T0|]. intros t o Q. cbn [th_start t_changes] in Q. rewrite lookup_empty in Q. discriminate. }
  assert (D64 : forall x, x < 2 ^ 64 * sc -> x / sc < Z.of_N two64).
  { intros x Hx. apply Z.div_lt_upper_bound; [exact Hsc|]. change (Z.of_N two64) with (2 ^ 64). lia. }
  assert (W := select_tok est enum sc above chk cfg (su_change su) (su_fixed_out su) ordc _ h keys a b Hf Hw Hm KN KM Li Fi
    (su_in su - su_out su) f0 (fun t => amount t (su_in_assets su) - amount t (su_out_assets su))
    (proj1 Ha) (D64 a (proj2 Ha)) (D64 b Hb) (fun e => conj (proj1 (An e)) (proj1 (proj2 (An e)))) (fun e o => proj2 (proj2 (An e)) o) ad Had Hout Hn Hna).
  specialize (W ltac:(intros Hc e1 o1 f1 Hf1; destruct (Li e1) as (? & _ & _ & Lo & _); destruct (Lo o1) as [Q _]; rewrite Hf1 in Q; injection Q as ->;
    change (Z.of_N two64) with (2 ^ 64); apply Hroom, Hc)).
  specialize (W ltac:(intros u t Hu Ht Su; apply (Hworth t u); [apply KT, Ht|exact Hu|exact Su])).
  specialize (W ltac:(intros t Ht; apply KT in Ht; specialize (Htok t Ht); lia)).
  specialize (W ltac:(intros t Ht; apply Hfew, KT, Ht)).
  specialize (W (th_start ord e su) Hoc Kne R0 eq_refl eq_refl eq_refl).
  match type of W with ?A -> _ => assert (Hlt' : A) end.
  { destruct Hlt as [?|[t Ht]]; [left; lia|right; exists t; split; [|lia]]. apply KI. unfold amount in Ht. destruct (su_in_assets su !! t); [left; eauto|]. destruct (su_out_assets su !! t); [right; eauto|]. cbn in Ht. lia. }
  specialize (W Hlt' ltac:(exists S; split; [exact HS|lia])).
  unfold th_select. cbn [th_start t_abal]. fold keys. fold (th_start ord e su) in *.
  destruct (select _ _ _ _ _ _ _ _ _ _ _ _) as [s [ut| | |]]; cbn [tp] in W; try contradiction. cbn [snd].
  destruct (t_bal s); [discriminate|eauto|eauto].
Qed.

(** ** More to choose from *)
(** Adding available outputs can turn success into failure: the thermostat takes some of them to merge tokens, and the
    change it must then make is not paid for. *)
Theorem C45_more_available_refuted : exists h more : list store_op, Forall wf_op (h ++ more) /\
  (forall su, nonneg_setup su -> sane (flat 2 1 1) cfg_usual (h ++ more) su) /\ unspent (h ++ more) = unspent h ++ unspent more /\
  (exists r, snd (tcase cfg_usual h [] [out_usual]) = SDone r) /\
  (exists e', snd (tcase cfg_usual (h ++ more) [] [out_usual]) = SFail e').
Proof.
  exists [Insert (tu 0 19 6)], [Insert (tu 1 2 5); Insert (tu 2 2 5); Insert (tu 3 2 5); Insert (tu 4 1000 0)]. cbn [app].
  split; [repeat (apply Forall_cons; split; [apply wf_tu|]); apply Forall_nil; exact I|]. split.
  { intros su Hsu. apply flat_sane; [cbn; lia| |exact Hsu].
    change (unspent _) with [tu 0 19 6; tu 1 2 5; tu 2 2 5; tu 3 2 5; tu 4 1000 0].
    repeat (apply Forall_cons; split; [split; [cbn; lia|cbn; repeat constructor; cbn; lia]|]). apply Forall_nil; exact I. }
  split; [reflexivity|]. split.
  - assert (H : match tcase cfg_usual [Insert (tu 0 19 6)] [] [out_usual] with (_, SDone _) => True | _ => False end) by (vm_compute; exact I).
    destruct (tcase _ _ _ _) as [ut [r| | |]]; try contradiction. eexists. reflexivity.
  - match goal with |- exists _, snd (tcase ?c ?h ?i ?o) = _ =>
      assert (H : match tcase c h i o with (_, SFail _) => True | _ => False end) by (vm_compute; exact I) end.
    destruct (tcase _ _ _ _) as [ut [r|e'| |]]; try contradiction. eexists. reflexivity.
Qed.

(** ** Concrete case *)
(** 6 A are wanted; 4 and 5 are available, each by itself, and 60 without tokens *)
Definition h_tokens := [Insert (tu 0 10 4); Insert (tu 1 12 5); Insert (tu 2 60 0)].
Example C45_with_tokens_case :
  let su := from_fixed [] [out_usual] (Some "me") in
  let tokens := dom (su_in_assets su) ∪ dom (su_out_assets su) in
  tokens = {["A"]} /\ sane (flat 2 1 1) cfg_usual h_tokens su /\ amount "A" (su_out_assets su) = 6 /\
  token_in "A" (filter (sole "A") (unspent h_tokens)) = 9 /\ length (filter (holds "A") (unspent h_tokens)) = 2%nat /\
  (forall t u, u ∈ unspent h_tokens -> sole t u -> 1 <= u_value u) /\
  (su_out su + 3 + 1 * 1 + Z.of_nat (size tokens) * (c_max cfg_usual + 1) <= su_in su + value_in [tu 2 60 0]) /\
  [tu 2 60 0] ⊆+ filter (fun u => u_assets u = []) (unspent h_tokens) /\
  su_in su < su_out su + 3 /\
  exists r, snd (tcase cfg_usual h_tokens [] [out_usual]) = SDone r.
Proof.
  intros su tokens.
  assert (A1 : su_in_assets su = ∅) by reflexivity.
  assert (A2 : su_out_assets su = <["A" := Asset "p" "a" "A" 6]> ∅) by reflexivity.
  assert (T : tokens = {["A"]}).
  { unfold tokens. rewrite A1, A2, dom_empty_L, union_empty_l_L, dom_insert_L, dom_empty_L, union_empty_r_L. reflexivity. }
  clearbody tokens. subst tokens.
  assert (U : unspent h_tokens = [tu 0 10 4; tu 1 12 5; tu 2 60 0]) by reflexivity.
  split; [reflexivity|]. split.
  { apply flat_sane; [cbn; lia| |].
    - rewrite U. repeat (apply Forall_cons; split; [split; [cbn; lia|cbn; repeat constructor; cbn; lia]|]). apply Forall_nil; exact I.
    - split; [cbn; lia|]. split; [cbn; lia|]. rewrite A1, A2. split; intros t x Q; [rewrite lookup_empty in Q; discriminate|].
      apply lookup_insert_Some in Q as [[_ <-]|[_ Q]]; [cbn; lia|rewrite lookup_empty in Q; discriminate]. }
  split; [reflexivity|]. split; [reflexivity|]. split; [reflexivity|]. split.
  { rewrite U. intros t u Hu _. repeat (apply elem_of_cons in Hu as [->|Hu]; [cbn; lia|]). inversion Hu. }
  split; [rewrite size_singleton; cbn; lia|]. split; [rewrite U; reflexivity|]. split; [cbn; lia|].
  assert (H : match tcase cfg_usual h_tokens [] [out_usual] with (_, SDone _) => True | _ => False end) by (vm_compute; exact I).
  destruct (tcase _ _ _ _) as [ut [r| | |]]; try contradiction. eexists. reflexivity.
Qed.

Definition C45_tokens := (@C45_succeeds_with_tokens, @C45_more_available_refuted).
Print Assumptions C45_tokens.
