(** C45: the thermostat. *)
From Coq Require Import ZArith Lia Sorting.
From stdpp Require Import gmap strings list.
From Verif Require Import ValueModel BalanceModel BalanceProofs StoreModel StoreSpec StoreProofs StoreProps SelModel SelSpec SelProofs SelLargestProofs SelProps ThermoModel ThermoProofs ThermoRunProofs ThermoFeeProofs ThermoShapeProofs ThermoExtraProofs ThermoCountProofs.
Open Scope Z_scope.

(** ** the specification *)
(** the tables of the setup mention tokens only, and with quantities that are not negative *)
Definition plain_setup (su : setup) : Prop := su_in_assets su !! MAIN = None /\ su_out_assets su !! MAIN = None.
Definition nonneg_setup (su : setup) : Prop :=
  0 <= su_in su /\ 0 <= su_out su /\ nonneg_table (su_in_assets su) /\ nonneg_table (su_out_assets su).
(** amounts, fees and limits that are not negative *)
Definition sane {E} (est : estimator E) (cfg : tconfig) (h : list store_op) (su : setup) : Prop :=
  fees_nonneg est /\ (forall e o e' m, e_min_value est e o = (e', Some m) -> 0 <= m) /\
  0 <= c_min cfg <= c_max cfg /\ Forall nonneg_in (unspent h) /\ nonneg_setup su.
(** the fee of an output is below half (in whole units) of the least main value of a token change *)
Definition cheap_outputs {E} (est : estimator E) (sc : Z) (cfg : tconfig) : Prop :=
  forall e o f, e_fee_out est e o = Some f -> f < c_min cfg / (2 * sc) * sc.

Lemma fold_keys (f : balances -> token * asset -> balances) t :
  (forall m ta, is_Some (f m ta !! t) <-> is_Some (m !! t) \/ ta.1 = t) -> forall l m,
  is_Some (foldl f m l !! t) <-> is_Some (m !! t) \/ t ∈ map fst l.
Proof.
  intro Hf. induction l as [|ta l IH]; intro m; cbn [foldl map].
  - split; [auto|]. intros [H|H]; [exact H|inversion H].
  - rewrite IH, Hf, elem_of_cons. split; intuition (subst; auto).
Qed.
Lemma asset_balances_keys ord ins outs t : fair_t ord ->
  is_Some (asset_balances ord ins outs !! t) <-> is_Some (ins !! t) \/ is_Some (outs !! t).
Proof.
  intro Hf. unfold asset_balances. rewrite !fold_keys, lookup_empty.
  - assert (K : forall m, t ∈ map fst (ord m) <-> is_Some (m !! t)).
    { intro m. rewrite (Permutation_map fst (Hf m)), elem_of_list_fmap. split.
      - intros ([t' a] & -> & H). apply elem_of_map_to_list in H. cbn. eauto.
      - intros [a H]. exists (t, a). rewrite elem_of_map_to_list. auto. }
    rewrite !K. split; [|intuition auto]. intros [[H|H]|H]; auto. destruct H; discriminate.
  - intros m ta. cbn beta. unfold bal_plus, bal_minus. destruct (decide (ta.1 = t)) as [->|n].
    + rewrite lookup_insert. split; [auto|eauto].
    + rewrite lookup_insert_ne by exact n. split; [auto|]. intros [H|H]; [exact H|contradiction].
  - intros m ta. cbn beta. unfold bal_plus, bal_minus. destruct (decide (ta.1 = t)) as [->|n].
    + rewrite lookup_insert. split; [auto|eauto].
    + rewrite lookup_insert_ne by exact n. split; [auto|]. intros [H|H]; [exact H|contradiction].
Qed.
Lemma keys_of (ordb : torder (balance Z)) m t : fair_t ordb -> t ∈ map fst (ordb m) <-> is_Some (m !! t).
Proof.
  intro Hf. rewrite (Permutation_map fst (Hf m)), elem_of_list_fmap. split.
  - intros ([t' a] & -> & H). apply elem_of_map_to_list in H. cbn. eauto.
  - intros [a H]. exists (t, a). rewrite elem_of_map_to_list. auto.
Qed.

Section Lemmas.
  Context {E : Type} (est : estimator E) (enum : nat -> enumeration) (sc : Z) (above : Z -> Z -> N -> bool) (chk : bool)
          (cfg : tconfig).

  Lemma th_select_done ord ordb ordc ordv avail e su ut e' r :
    th_select est enum sc above chk cfg ord ordb ordc ordv avail e su = (ut, SDone (e', r)) ->
    exists s, select est enum sc above chk cfg (su_change su) (su_fixed_out su) ordc
                (map fst (ordb (asset_balances ord (su_in_assets su) (su_out_assets su)))) avail (th_start ord e su) = (s, ROk ut) /\
      e' = t_est s /\ in_debt (t_bal s) = false /\
      r = Selection (value_in (t_sel s ++ su_fixed_in su)) (add_assets ∅ (flat_map u_assets (t_sel s ++ su_fixed_in su)))
            (value_out ((map snd (ordv (t_changes s)) ++ t_extra s) ++ su_fixed_out su))
            (add_assets ∅ (flat_map o_assets ((map snd (ordv (t_changes s)) ++ t_extra s) ++ su_fixed_out su)))
            (su_fixed_in su) (su_fixed_out su) (t_sel s) (map snd (ordv (t_changes s)) ++ t_extra s) (zsigned (t_bal s)).
  Proof.
    unfold th_select. cbn [th_start t_abal].
    match goal with |- context [select ?a1 ?a2 ?a3 ?a4 ?a5 ?a6 ?a7 ?a8 ?a9 ?a10 ?a11 ?a12] =>
      destruct (select a1 a2 a3 a4 a5 a6 a7 a8 a9 a10 a11 a12) as [s [ut1| | |]] end; try discriminate.
    rewrite !fold_tables, !fold_sum. intro H. exists s.
    destruct (t_bal s) as [d| |x] eqn:B; try discriminate; injection H as <- <- <-; (split; [reflexivity|]);
      (split; [reflexivity|]); (split; [reflexivity|]); reflexivity.
  Qed.

  Lemma start_books ord e su : fair_t ord ->
    books (su_in su - su_out su) (fun t => amount t (su_in_assets su) - amount t (su_out_assets su)) (th_start (E := E) ord e su).
  Proof.
    intro Hf. split; [|split].
    - unfold main_book. cbn [th_start t_bal t_sel t_changes t_extra]. rewrite zbal_sub_value_signed, zbal_add_value_signed, msum_empty.
      unfold value_in, value_out, sumZ. cbn. lia.
    - intro t. cbn [th_start t_abal t_sel t_changes t_extra]. rewrite asset_balances_signed, msum_empty by exact Hf.
      unfold token_in, token_out, sumZ. cbn. lia.
    - intros t o. cbn [th_start t_changes]. rewrite lookup_empty. discriminate.
  Qed.

  Lemma start_inv ord ordb e su h : fair_t ord -> fair_t ordb ->
    inv est sc cfg (nonneg_setup su) h (map fst (ordb (asset_balances ord (su_in_assets su) (su_out_assets su))))
        (th_start (E := E) ord e su) (final h).
  Proof.
    intros Ho Hb. split.
    - split; cbn [th_start t_sel t_abal t_extra]; try reflexivity.
      + rewrite spend_nil. reflexivity.
      + rewrite spend_nil. reflexivity.
      + intro t. symmetry. apply keys_of, Hb.
      + intros u Hu. inversion Hu.
    - intros (_ & _ & _ & _ & _ & A & B & C & D). split; cbn [th_start t_bal t_abal t_changes].
      + apply zbal_sub_value_normal; [apply zbal_add_value_normal; [exact I|exact A]|exact B].
      + apply asset_balances_normal; assumption.
      + intros t o H. rewrite lookup_empty in H. discriminate.
  Qed.
End Lemmas.

(** ** Main value *)
(** Whatever the estimator, the limits, the orders of the hash maps and the available outputs, a result accounts for
    every unit of main value: what comes in goes to the outputs, the changes or the fee. *)
Theorem C45_main_value {E} (est : estimator E) enum sc above chk cfg ord ordb ordc ordv avail e su ut e' r :
  0 < sc -> fair_t ord -> fair_t ordc -> fair_t ordv ->
  th_select est enum sc above chk cfg ord ordb ordc ordv avail e su = (ut, SDone (e', r)) ->
  su_in su + value_in (se_chosen r) = su_out su + value_out (se_changes r) + se_fee r.
Proof.
  intros Hsc Ho Hoc Hov H. destruct (th_select_done _ _ _ _ _ _ _ _ _ _ _ _ _ _ _ _ H) as (s & S & -> & D & ->).
  assert (W := select_main est enum sc above chk cfg (su_change su) (su_fixed_out su) ordc
    (map fst (ordb (asset_balances ord (su_in_assets su) (su_out_assets su)))) _ _ avail (th_start ord e su) ltac:(lia) Hoc (start_books ord e su Ho)).
  rewrite S in W. cbn [wp] in W. unfold main_book in W. cbn [se_chosen se_changes se_fee].
  rewrite value_out_app. unfold value_out at 1. rewrite (msum_order _ ordv _ Hov). lia.
Qed.

(** The totals a result reports are the sums over its inputs and outputs, and for a setup made from inputs and outputs
    the reported totals balance. *)
Theorem C45_totals {E} (est : estimator E) enum sc above chk cfg ord ordb ordc ordv avail e ins outs change ut e' r :
  0 < sc -> fair_t ord -> fair_t ordc -> fair_t ordv ->
  th_select est enum sc above chk cfg ord ordb ordc ordv avail e (from_fixed ins outs change) = (ut, SDone (e', r)) ->
  se_fixed_in r = ins /\ se_fixed_out r = outs /\
  se_in r = value_in (ins ++ se_chosen r) /\ se_out r = value_out (outs ++ se_changes r) /\
  (forall t, amount t (se_in_assets r) = token_in t (ins ++ se_chosen r)) /\
  (forall t, amount t (se_out_assets r) = token_out t (outs ++ se_changes r)) /\
  se_in r = se_out r + se_fee r.
Proof.
  intros Hsc Ho Hoc Hov H. assert (M := C45_main_value _ _ _ _ _ _ _ _ _ _ _ _ _ _ _ _ Hsc Ho Hoc Hov H).
  destruct (th_select_done _ _ _ _ _ _ _ _ _ _ _ _ _ _ _ _ H) as (s & S & -> & D & Hr).
  assert (A := C39_totals ins outs change). cbn zeta in A. destruct A as (A1 & A2 & _ & _ & _ & _ & A3 & A4 & _).
  rewrite A1, A2 in M. rewrite A3, A4 in Hr. clear S H.
  assert (X1 : se_in r = value_in (ins ++ se_chosen r)) by (rewrite Hr; cbn [se_in se_chosen]; rewrite !value_in_app; lia).
  assert (X2 : se_out r = value_out (outs ++ se_changes r)) by (rewrite Hr; cbn [se_out se_changes]; rewrite !value_out_app; lia).
  split; [rewrite Hr; reflexivity|]. split; [rewrite Hr; reflexivity|]. split; [exact X1|]. split; [exact X2|].
  split. { intro t. rewrite Hr. cbn [se_in_assets se_chosen]. rewrite amount_add_assets, held_flat. unfold amount. rewrite lookup_empty.
    rewrite token_in_app. change (sumZ (map (fun x => held t (u_assets x)) (t_sel s ++ ins))) with (token_in t (t_sel s ++ ins)).
    rewrite token_in_app. lia. }
  split. { intro t. rewrite Hr. cbn [se_out_assets se_changes]. rewrite amount_add_assets, held_flat. unfold amount. rewrite lookup_empty.
    change (sumZ (map (fun x => held t (o_assets x)) ((map snd (ordv (t_changes s)) ++ t_extra s) ++ outs)))
      with (token_out t ((map snd (ordv (t_changes s)) ++ t_extra s) ++ outs)).
    rewrite !token_out_app. lia. }
  rewrite X1, X2, value_in_app, value_out_app. lia.
Qed.

(** ** Inputs, termination *)
(** The loops end; a result's inputs are distinct available outputs, each with at most one token, which is one of the
    setup's; they and no others are gone from what is available afterwards. *)
Theorem C45_inputs {E} (est : estimator E) enum sc above chk cfg ord ordb ordc ordv h e su :
  0 < sc -> fair_t ord -> fair_t ordb -> fair_t ordc -> (forall n, fair (enum n)) -> Forall wf_op h -> c_main cfg = MAIN -> plain_setup su ->
  let result := th_select est enum sc above chk cfg ord ordb ordc ordv (final h) e su in
  snd result <> SLoop /\
  forall e' r, snd result = SDone (e', r) ->
    se_chosen r ++ unspent (spend h (se_chosen r)) ≡ₚ unspent h /\
    fst result = final (spend h (se_chosen r)) /\
    forall u, u ∈ se_chosen r -> u_assets u = [] \/
      exists a, u_assets u = [a] /\ (is_Some (su_in_assets su !! a_fp a) \/ is_Some (su_out_assets su !! a_fp a)).
Proof.
  intros Hsc Ho Hob Hoc Hf Hw Hm [P1 P2] result.
  set (keys := map fst (ordb (asset_balances ord (su_in_assets su) (su_out_assets su)))).
  assert (KN : NoDup keys) by (unfold keys; rewrite (Permutation_map fst (Hob _)); apply NoDup_fst_map_to_list).
  assert (KI : forall t, t ∈ keys <-> is_Some (su_in_assets su !! t) \/ is_Some (su_out_assets su !! t)).
  { intro t. unfold keys. rewrite keys_of by exact Hob. exact (asset_balances_keys _ _ _ _ Ho). }
  assert (KM : MAIN ∉ keys) by (rewrite KI, P1, P2; intros [[? Q]|[? Q]]; discriminate).
  assert (W := select_run est enum sc above chk cfg (su_change su) (su_fixed_out su) ordc keys _ _
    (nonneg_setup su) h Hf Hw Hm KN KM (th_start ord e su) Hsc Hoc (start_books ord e su Ho) (start_inv est sc cfg ord ordb e su h Ho Hob)).
  split.
  - unfold result, th_select. cbn [th_start t_abal]. fold keys. fold (th_start ord e su) in *.
    destruct (select _ _ _ _ _ _ _ _ _ _ _ _) as [s [ut| | |]]; cbn [wp] in W; try contradiction; try discriminate.
    cbn [snd]. destruct (t_bal s); discriminate.
  - intros e' r Hr. unfold result in *. destruct (th_select _ _ _ _ _ _ _ _ _ _ _ _ _) as [ut o] eqn:T. cbn [fst snd] in *. subst o.
    destruct (th_select_done _ _ _ _ _ _ _ _ _ _ _ _ _ _ _ _ T) as (s & S & -> & _ & ->). fold keys in S. rewrite S in W.
    cbn [wp] in W. destruct W as ((W1 & W2 & W3) & _). cbn [se_chosen]. split; [exact W2|]. split; [exact W1|].
    intros u Hu. destruct (W3 u Hu) as (t & Ht & Hon).
    assert (Wu : wf_utxo u). { apply (unspent_wf h Hw). rewrite <- W2. apply elem_of_app. left. exact Hu. }
    destruct (only_spec t u Hon Wu) as [Hn|(a & Ha & Hfp & Hn)]; [left; exact Hn|]. right. exists a. split; [exact Ha|].
    rewrite Hfp. apply KI. destruct Ht; [congruence|assumption].
Qed.

(** ** Tokens *)
(** No token is created; and none is lost when output fees are below half the least main value of a token change. *)
Theorem C45_tokens {E} (est : estimator E) enum sc above chk cfg ord ordb ordc ordv h e su ut e' r :
  0 < sc -> fair_t ord -> fair_t ordb -> fair_t ordc -> fair_t ordv -> (forall n, fair (enum n)) -> Forall wf_op h ->
  c_main cfg = MAIN -> plain_setup su -> Forall nonneg_in (unspent h) ->
  th_select est enum sc above chk cfg ord ordb ordc ordv (final h) e su = (ut, SDone (e', r)) ->
  forall t,
    amount t (su_out_assets su) + token_out t (se_changes r) <= amount t (su_in_assets su) + token_in t (se_chosen r) /\
    (sane est cfg h su -> cheap_outputs est sc cfg ->
     amount t (su_out_assets su) + token_out t (se_changes r) = amount t (su_in_assets su) + token_in t (se_chosen r)).
Proof.
  intros Hsc Ho Hob Hoc Hov Hf Hw Hm [P1 P2] Nn T t.
  set (keys := map fst (ordb (asset_balances ord (su_in_assets su) (su_out_assets su)))).
  assert (KN : NoDup keys) by (unfold keys; rewrite (Permutation_map fst (Hob _)); apply NoDup_fst_map_to_list).
  assert (KM : MAIN ∉ keys).
  { unfold keys. rewrite keys_of by exact Hob. rewrite (asset_balances_keys ord _ _ _ Ho), P1, P2. intros [[? Q]|[? Q]]; discriminate. }
  assert (W := select_run est enum sc above chk cfg (su_change su) (su_fixed_out su) ordc keys _ _
    (nonneg_setup su) h Hf Hw Hm KN KM (th_start ord e su) Hsc Hoc (start_books ord e su Ho) (start_inv est sc cfg ord ordb e su h Ho Hob)).
  destruct (th_select_done _ _ _ _ _ _ _ _ _ _ _ _ _ _ _ _ T) as (s & S & -> & _ & ->). fold keys in S. rewrite S in W.
  cbn [wp] in W. destruct W as (_ & W & _). destruct (W Nn) as [W1 W2]. cbn [se_chosen se_changes].
  rewrite token_out_app. unfold token_out at 1 3. rewrite (msum_order (fun o => held t (o_assets o)) ordv _ Hov).
  unfold total_tokens in *. split; [specialize (W1 t); lia|].
  intros (S1 & S2 & S3 & S4 & S5) Ch. assert (Fi : fine est sc cfg (nonneg_setup su) h) by (unfold fine, nonneg_setup in *; tauto).
  assert (Sm : small_fees est sc cfg).
  { intros e1 o1 f1 Hf1. assert (Q := Ch _ _ _ Hf1). unfold half. destruct (Z.ltb_spec (c_min cfg) (2 * sc)) as [L|L]; [|exact Q].
    rewrite Z.div_small in Q by lia. lia. }
  specialize (W2 Fi Sm t). lia.
Qed.

(** ** Signs *)
Theorem C45_signs {E} (est : estimator E) enum sc above chk cfg ord ordb ordc ordv h e su ut e' r :
  0 < sc -> fair_t ord -> fair_t ordb -> fair_t ordc -> fair_t ordv -> (forall n, fair (enum n)) -> Forall wf_op h ->
  c_main cfg = MAIN -> plain_setup su -> sane est cfg h su ->
  th_select est enum sc above chk cfg ord ordb ordc ordv (final h) e su = (ut, SDone (e', r)) ->
  0 <= se_fee r /\ Forall nonneg_out (se_changes r).
Proof.
  intros Hsc Ho Hob Hoc Hov Hf Hw Hm [P1 P2] (S1 & S2 & S3 & S4 & S5) T.
  set (keys := map fst (ordb (asset_balances ord (su_in_assets su) (su_out_assets su)))).
  assert (KN : NoDup keys) by (unfold keys; rewrite (Permutation_map fst (Hob _)); apply NoDup_fst_map_to_list).
  assert (KM : MAIN ∉ keys).
  { unfold keys. rewrite keys_of by exact Hob. rewrite (asset_balances_keys ord _ _ _ Ho), P1, P2. intros [[? Q]|[? Q]]; discriminate. }
  assert (W := select_run est enum sc above chk cfg (su_change su) (su_fixed_out su) ordc keys _ _
    (nonneg_setup su) h Hf Hw Hm KN KM (th_start ord e su) Hsc Hoc (start_books ord e su Ho) (start_inv est sc cfg ord ordb e su h Ho Hob)).
  destruct (th_select_done _ _ _ _ _ _ _ _ _ _ _ _ _ _ _ _ T) as (s & S & -> & D & ->). fold keys in S. rewrite S in W.
  assert (Fi : fine est sc cfg (nonneg_setup su) h) by (unfold fine, nonneg_setup in *; tauto).
  cbn [wp] in W. destruct W as (_ & _ & W). destruct (W Fi) as (G1 & G2 & G3). cbn [se_fee se_changes]. split.
  - destruct (t_bal s); cbn in *; [discriminate|lia|lia].
  - apply Forall_app. split; [|exact G3]. apply Forall_forall. intros o Hin. apply elem_of_list_fmap in Hin as ([t o'] & -> & Hin).
    rewrite (Hov (t_changes s)), elem_of_map_to_list in Hin. exact (G2 _ _ Hin).
Qed.

Lemma no_keys (ord : torder asset) (ordb : torder (balance Z)) su : fair_t ord -> fair_t ordb -> su_in_assets su = ∅ -> su_out_assets su = ∅ ->
  map fst (ordb (asset_balances ord (su_in_assets su) (su_out_assets su))) = [].
Proof.
  intros Ho Hob E1 E2. destruct (map fst _) as [|k ks] eqn:K; [reflexivity|]. exfalso.
  assert (Q : k ∈ map fst (ordb (asset_balances ord (su_in_assets su) (su_out_assets su)))) by (rewrite K; left).
  rewrite keys_of in Q by exact Hob. rewrite (asset_balances_keys ord _ _ _ Ho), E1, E2, lookup_empty in Q.
  destruct Q as [[? Q]|[? Q]]; discriminate.
Qed.

(** ** The fee *)
(** For a setup without tokens, an estimator with fixed prices and available outputs that are worth what they cost, the
    reported fee is at least the required one, and exactly that as soon as there is a change. *)
Theorem C45_fee {E} (est : estimator E) enum sc above chk cfg ord ordb ordc ordv h e su ut e' r a b :
  0 < sc -> fair_t ord -> fair_t ordb -> fair_t ordc -> fair_t ordv -> (forall n, fair (enum n)) -> Forall wf_op h ->
  c_main cfg = MAIN -> sane est cfg h su -> su_in_assets su = ∅ -> su_out_assets su = ∅ ->
  linear est a b -> Forall (fun u => a <= u_value u) (unspent h) ->
  th_select est enum sc above chk cfg ord ordb ordc ordv (final h) e su = (ut, SDone (e', r)) ->
  exists f, e_min_fee est e' = Some f /\ f <= se_fee r /\ (se_changes r <> [] -> se_fee r = f).
Proof.
  intros Hsc Ho Hob Hoc Hov Hf Hw Hm (S1 & S2 & S3 & S4 & S5) E1 E2 Li Wo T.
  assert (Fi : fine est sc cfg (nonneg_setup su) h) by (unfold fine, nonneg_setup in *; tauto).
  assert (K0 := no_keys ord ordb su Ho Hob E1 E2).
  assert (I0 := start_inv est sc cfg ord ordb e su h Ho Hob). rewrite K0 in I0.
  assert (W := select_fee est enum sc above chk cfg (su_change su) (su_fixed_out su) ordc _ h a b Hf Hw Hm Li Fi Wo (th_start ord e su) Hoc I0 eq_refl).
  destruct (th_select_done _ _ _ _ _ _ _ _ _ _ _ _ _ _ _ _ T) as (s & S & -> & D & ->). rewrite K0 in S. rewrite S in W.
  cbn [wp] in W. destruct W as ((f & F1 & F2) & X). exists f. cbn [se_fee se_changes]. split; [exact F1|]. split; [exact F2|].
  intro Ne. destruct X as [[X1 X2]|X].
  - exfalso. apply Ne. rewrite X1, X2. assert (Q := Hov ∅). rewrite map_to_list_empty in Q. apply Permutation_nil_r in Q. rewrite Q. reflexivity.
  - unfold exactly in X. rewrite F1 in X. injection X as ->. reflexivity.
Qed.

(** The estimator is told of each chosen input and each change once: any quantity of it that grows by a with an input and by b
    with an output, such as the fee it requires or the size it reports, ends up accordingly. *)
Theorem C45_estimator_informed {E} (est : estimator E) enum sc above chk cfg ord ordb ordc ordv avail e su ut e' r m a b f0 :
  fair_t ordc -> fair_t ordv -> counted est m a b -> m e = Some f0 ->
  th_select est enum sc above chk cfg ord ordb ordc ordv avail e su = (ut, SDone (e', r)) ->
  m e' = Some (f0 + a * Z.of_nat (length (se_chosen r)) + b * Z.of_nat (length (se_changes r))).
Proof.
  intros Hoc Hov Hm F0 T. destruct (th_select_done _ _ _ _ _ _ _ _ _ _ _ _ _ _ _ _ T) as (s & S & -> & D & ->).
  assert (W := select_told est enum sc above chk cfg (su_change su) (su_fixed_out su) m a b f0 Hm ordc
    (map fst (ordb (asset_balances ord (su_in_assets su) (su_out_assets su)))) avail (th_start ord e su) Hoc).
  rewrite S in W. cbn [wp] in W. unfold told, changes_of in W. cbn [se_chosen se_changes]. rewrite W.
  - f_equal. rewrite app_length, map_length. assert (Q := Permutation_length (Hov (t_changes s))). unfold size, map_size. lia.
  - cbn [th_start t_est t_sel t_changes t_extra length]. rewrite F0, map_size_empty. f_equal. lia.
Qed.

(** For an estimator with fixed prices the fee left to the network covers its price for exactly the transaction returned. *)
Corollary C45_fee_of_result {E} (est : estimator E) enum sc above chk cfg ord ordb ordc ordv h e su ut e' r a b f0 :
  0 < sc -> fair_t ord -> fair_t ordb -> fair_t ordc -> fair_t ordv -> (forall n, fair (enum n)) -> Forall wf_op h ->
  c_main cfg = MAIN -> sane est cfg h su -> su_in_assets su = ∅ -> su_out_assets su = ∅ ->
  linear est a b -> Forall (fun u => a <= u_value u) (unspent h) -> e_min_fee est e = Some f0 ->
  th_select est enum sc above chk cfg ord ordb ordc ordv (final h) e su = (ut, SDone (e', r)) ->
  f0 + a * Z.of_nat (length (se_chosen r)) + b * Z.of_nat (length (se_changes r)) <= se_fee r /\
  (se_changes r <> [] -> se_fee r = f0 + a * Z.of_nat (length (se_chosen r)) + b * Z.of_nat (length (se_changes r))).
Proof.
  intros Hsc Ho Hob Hoc Hov Hf Hw Hm Sa E1 E2 Li Wo F0 T.
  destruct (C45_fee _ _ _ _ _ _ _ _ _ _ _ _ _ _ _ _ _ _ Hsc Ho Hob Hoc Hov Hf Hw Hm Sa E1 E2 Li Wo T) as (f & F1 & F2 & F3).
  assert (X : counted est (e_min_fee est) a b).
  { intros x y Hx. destruct (Li x) as (y' & Y & A & B & C). rewrite Hx in Y. injection Y as <-. split; [|split; [|split; [|exact C]]].
    - intros u x' W. destruct (A u) as (_ & x1 & W1 & Y1). rewrite W1 in W. injection W as <-. exact Y1.
    - intros u x' W. destruct (A u) as (_ & x1 & W1 & _). rewrite W1 in W. discriminate.
    - intros o x' W. destruct (B o) as (_ & x1 & W1 & Y1). rewrite W1 in W. injection W as <-. exact Y1. }
  rewrite (C45_estimator_informed _ _ _ _ _ _ _ _ _ _ _ _ _ _ _ _ _ _ _ _ Hoc Hov X F0 T) in F1. injection F1 as <-. auto.
Qed.

(** Whenever such a call fails, every output is still available. *)
Theorem C45_failure_keeps_inputs {E} (est : estimator E) enum sc above chk cfg ord ordb ordc ordv h e su ut e' a b :
  0 < sc -> fair_t ord -> fair_t ordb -> fair_t ordc -> (forall n, fair (enum n)) -> Forall wf_op h ->
  c_main cfg = MAIN -> sane est cfg h su -> su_in_assets su = ∅ -> su_out_assets su = ∅ ->
  linear est a b -> Forall (fun u => a <= u_value u) (unspent h) ->
  th_select est enum sc above chk cfg ord ordb ordc ordv (final h) e su = (ut, SFail e') -> ut = final h.
Proof.
  intros Hsc Ho Hob Hoc Hf Hw Hm (S1 & S2 & S3 & S4 & S5) E1 E2 Li Wo T.
  assert (Fi : fine est sc cfg (nonneg_setup su) h) by (unfold fine, nonneg_setup in *; tauto).
  assert (K0 := no_keys ord ordb su Ho Hob E1 E2).
  assert (I0 := start_inv est sc cfg ord ordb e su h Ho Hob). rewrite K0 in I0.
  assert (W := select_fee est enum sc above chk cfg (su_change su) (su_fixed_out su) ordc _ h a b Hf Hw Hm Li Fi Wo (th_start ord e su) Hoc I0 eq_refl).
  assert (W2 := select_run est enum sc above chk cfg (su_change su) (su_fixed_out su) ordc [] _ _
    (nonneg_setup su) h Hf Hw Hm ltac:(constructor) ltac:(apply not_elem_of_nil) (th_start ord e su) Hsc Hoc (start_books ord e su Ho) I0).
  unfold th_select in T. change (t_abal (th_start ord e su)) with (asset_balances ord (su_in_assets su) (su_out_assets su)) in T.
  rewrite K0 in T. destruct (select _ _ _ _ _ _ _ _ _ _ _ _) as [s [ut'| | |]]; try discriminate; [|injection T; congruence].
  cbn [wp] in W, W2. destruct W as ((f & F1 & F2) & _). destruct W2 as (_ & _ & G). specialize (G Fi). destruct G as (G1 & _).
  assert (0 <= f) by (apply (proj1 (S1 (t_est s))); exact F1).
  destruct (t_bal s); [|discriminate|discriminate]. cbn in G1, F2. lia.
Qed.

(** ** The change outputs *)
(** Each goes to the change address and holds no token, or exactly one, named as the store names it and with no more than
    the greatest main value of the configuration. *)
Theorem C45_changes {E} (est : estimator E) enum sc above chk cfg ord ordb ordc ordv avail e su ut e' r :
  0 < sc -> fees_nonneg est -> fair_t ord -> fair_t ordb -> fair_t ordc -> fair_t ordv -> c_main cfg = MAIN -> plain_setup su ->
  th_select est enum sc above chk cfg ord ordb ordc ordv avail e su = (ut, SDone (e', r)) ->
  forall o, o ∈ se_changes r -> su_change su = Some (o_addr o) /\ o_extra o = None /\
    (o_assets o = [] \/ exists a, o_assets o = [a] /\ get_asset_ids avail (a_fp a) = Some (a_policy a, a_name a) /\ a_fp a <> MAIN /\
                                  o_value o <= c_max cfg).
Proof.
  intros Hsc Hfe Ho Hob Hoc Hov Hm [P1 P2] T.
  set (keys := map fst (ordb (asset_balances ord (su_in_assets su) (su_out_assets su)))).
  assert (KM : c_main cfg ∉ keys).
  { rewrite Hm. unfold keys. rewrite keys_of by exact Hob. rewrite (asset_balances_keys ord _ _ _ Ho), P1, P2. intros [[? Q]|[? Q]]; discriminate. }
  assert (Kn : keys = [] \/ exists t, is_Some (t_abal (th_start ord e su) !! t)).
  { destruct keys as [|k ks] eqn:K; [left; reflexivity|right]. exists k. cbn [th_start t_abal]. rewrite <- (keys_of ordb) by exact Hob. fold keys. rewrite K. left. }
  destruct (th_select_done _ _ _ _ _ _ _ _ _ _ _ _ _ _ _ _ T) as (s & S & -> & D & ->). fold keys in S.
  assert (W := select_neat est enum sc above chk cfg (su_change su) (su_fixed_out su) (st_dict avail) keys Hsc Hfe ordc avail (th_start ord e su) Hoc KM).
  rewrite S in W. cbn [wp] in W.
  destruct W as [N1 N2]. { split; [split; [intros t o Q; cbn [th_start t_changes] in Q; rewrite lookup_empty in Q; discriminate|constructor]|]. split; [reflexivity|exact Kn]. }
  cbn [se_changes]. intros o Hin.
  assert (Fin : forall t o, t <> c_main cfg -> one_token cfg (st_dict avail) t o -> exists a, o_assets o = [a] /\
    get_asset_ids avail (a_fp a) = Some (a_policy a, a_name a) /\ a_fp a <> MAIN /\ o_value o <= c_max cfg).
  { intros t o' Ht (p & n & q & Q1 & Q2 & Q3). exists (Asset p n t q). rewrite <- Hm. auto. }
  apply elem_of_app in Hin as [Hin|Hin].
  - apply elem_of_list_fmap in Hin as ([t o'] & -> & Hin). rewrite (Hov (t_changes s)), elem_of_map_to_list in Hin.
    destruct (N1 _ _ Hin) as [[M1 M2] C]. cbn [snd]. split; [exact M1|]. split; [exact M2|].
    destruct C as [[_ C]|[C1 C2]]; [left; exact C|right; eapply Fin; eauto].
  - rewrite Forall_forall in N2. destruct (N2 _ Hin) as [[M1 M2] C]. split; [exact M1|]. split; [exact M2|].
    destruct C as [C|(t & C1 & C2)]; [left; exact C|right; eapply Fin; eauto].
Qed.

(** Without tokens there are at most two, and a single one is worth at least the least value of an output. *)
Theorem C45_single_change {E} (est : estimator E) enum sc above chk cfg ord ordb ordc ordv h e su ut e' r m :
  fair_t ord -> fair_t ordb -> fair_t ordc -> fair_t ordv -> c_main cfg = MAIN -> su_in_assets su = ∅ -> su_out_assets su = ∅ ->
  (forall e o m', snd (e_min_value est e o) = Some m' -> m <= m') ->
  th_select est enum sc above chk cfg ord ordb ordc ordv (final h) e su = (ut, SDone (e', r)) ->
  (length (se_changes r) <= 2)%nat /\ forall o, se_changes r = [o] -> m <= o_value o.
Proof.
  intros Ho Hob Hoc Hov Hm E1 E2 Hmin T. assert (K0 := no_keys ord ordb su Ho Hob E1 E2).
  assert (I0 := start_inv est sc cfg ord ordb e su h Ho Hob). rewrite K0 in I0.
  destruct (th_select_done _ _ _ _ _ _ _ _ _ _ _ _ _ _ _ _ T) as (s & S & -> & D & ->). rewrite K0 in S. cbn [se_changes].
  assert (W := select_least est enum sc above chk cfg (su_change su) (su_fixed_out su) ordc _ h Hm m (th_start ord e su) Hmin Hoc I0 eq_refl).
  rewrite S in W. cbn [wp] in W. destruct W as [[C X]|[o [C X]]]; rewrite C.
  - assert (Q := Hov ∅). rewrite map_to_list_empty in Q. apply Permutation_nil_r in Q. rewrite Q, X. cbn. split; [lia|discriminate].
  - assert (Q := Hov {[c_main cfg := o]}). rewrite map_to_list_singleton in Q. apply Permutation_singleton_r in Q. rewrite Q.
    destruct X as [[X Hle]|[o' X]]; rewrite X; cbn; (split; [lia|]); intros o1 Q1; [injection Q1 as <-; exact Hle|discriminate].
Qed.

(** ** Which inputs *)
(** For a setup without tokens and fixed prices: the inputs are taken largest first among the outputs without tokens, and
    unless even the last one was needed, at least the configured number of outputs is left available and the
    transaction, with its changes, is within the size limit (when an input's fee is worth its own size and two outputs'). *)
Theorem C45_choice {E} (est : estimator E) enum sc above chk cfg ord ordb ordc ordv h e su ut e' r a b f0 k k2 mx :
  0 < sc -> fair_t ord -> fair_t ordb -> fair_t ordc -> fair_t ordv -> (forall n, fair (enum n)) -> Forall wf_op h ->
  c_main cfg = MAIN -> sane est cfg h su -> su_in_assets su = ∅ -> su_out_assets su = ∅ ->
  linear est a b -> sized est k k2 mx -> (mx < 2 ^ 64)%N -> (k + 2 * k2 <= Z.to_N (a / sc))%N -> e_min_fee est e = Some f0 ->
  th_select est enum sc above chk cfg ord ordb ordc ordv (final h) e su = (ut, SDone (e', r)) ->
  let left := unspent (spend h (se_chosen r)) in
  (forall u, u ∈ se_chosen r -> u_assets u = []) /\
  StronglySorted (fun u w => u_value w <= u_value u) (se_chosen r) /\
  (forall u w, u ∈ se_chosen r -> w ∈ left -> u_assets w = [] -> u_value w <= u_value u) /\
  ((exists l u, se_chosen r = l ++ [u] /\ su_in su + value_in l < su_out su + f0 + a * Z.of_nat (length l)) \/
   (c_num cfg <= N.of_nat (length left))%N /\ exists n, e_size est e' = Some n /\ (n <= mx)%N).
Proof.
  intros Hsc Ho Hob Hoc Hov Hf Hw Hm (S1 & S2 & S3 & S4 & S5) E1 E2 Li Hs Hmx Hk F0 T.
  assert (Fi : fine est sc cfg (nonneg_setup su) h) by (unfold fine, nonneg_setup in *; tauto).
  assert (K0 := no_keys ord ordb su Ho Hob E1 E2).
  assert (I0 := start_inv est sc cfg ord ordb e su h Ho Hob). rewrite K0 in I0.
  destruct (th_select_done _ _ _ _ _ _ _ _ _ _ _ _ _ _ _ _ T) as (s & S & -> & D & ->). rewrite K0 in S. cbn [se_chosen].
  assert (W := select_extra est enum sc above chk cfg (su_change su) (su_fixed_out su) ordc _ h a b Hf Hw Hm Li Fi
     (su_in su - su_out su) f0 mx k k2 (th_start ord e su) Hs Hmx Hk Hoc I0 eq_refl eq_refl).
  rewrite S in W. cbn [wp] in W. destruct W as ((G1 & G2 & G3) & C).
  { split; [cbn; rewrite F0; f_equal; lia|]. split.
    - cbn [th_start t_bal t_sel]. rewrite zbal_sub_value_signed, zbal_add_value_signed. change (value_in []) with 0. cbn. lia.
    - split; [constructor|]. split; intros u; [intros w Hu|intros Hu]; inversion Hu. }
  split; [exact G3|]. split; [exact G1|]. split; [exact G2|]. destruct C as [(l & u & C1 & C2)|[C1 (n & C2 & C3)]].
  - left. exists l, u. split; [exact C1|lia].
  - right. split; [exact C1|]. exists n. split; [exact C2|lia].
Qed.

(** ** When it cannot succeed *)
Section Needs.
  Context {E : Type} (est : estimator E) (enum : nat -> enumeration) (sc : Z) (above : Z -> Z -> N -> bool) (chk : bool)
          (cfg : tconfig) (addr : option string) (outputs : list uout).
  Definition measurable (s : thermo E) : Prop :=
    outputs <> [] /\ t_sel s <> [] /\ exists e u f, e_fee_in est e u = Some f /\ sc <= f.

  Lemma remaining_needs L s : 0 < sc -> wp L (remaining est sc chk outputs s) (fun s' _ => s' = s /\ measurable s).
  Proof.
    intro Hsc. unfold remaining, measurable. destruct outputs as [|o os]; [exact I|]. destruct (t_sel s) as [|u us] eqn:Es; [exact I|].
    apply wp_bind, wp_lift; intros fo _. apply wp_bind, wp_lift; intros so _. apply wp_bind, wp_lift; intros fi Hfi.
    apply wp_bind, wp_lift; intros si Hsi. destruct (usize_mul _ _ _) as [r1|]; [|exact I].
    destruct (usize_mul _ _ _) as [r2|]; [|exact I]. do 2 (apply wp_bind, wp_lift; intros ? _).
    destruct (N.eqb_spec si 0) as [->|Hn]; [exact I|]. cbn [wp]. split; [reflexivity|]. split; [discriminate|]. split; [discriminate|].
    exists (t_est s), u, fi. split; [exact Hfi|]. unfold to_usize in Hsi. destruct (Z.ltb_spec fi 0) as [?|?]; [discriminate|].
    destruct (fi / sc <? Z.of_N two64); [|discriminate]. injection Hsi as <-.
    destruct (Z.le_gt_cases sc fi) as [?|Hlt]; [assumption|]. exfalso. apply Hn. rewrite Z.div_small by lia. reflexivity.
  Qed.

  Lemma extra_inputs_needs l : 0 < sc -> forall fuel empty i s ut,
    wp True (extra_inputs est enum sc chk cfg outputs fuel l empty i s ut) (fun s' _ => measurable s').
  Proof.
    intro Hsc. induction fuel as [|fuel IH]; intros empty i s ut; cbn [extra_inputs]; apply wp_bind;
      (eapply wp_mono; [apply remaining_needs, Hsc|]); cbn beta; intros s' n [-> M]; destruct (n =? 0)%N; cbn [wp]; auto.
    destruct (l !! i); [|exact I]. destruct (empty !! i) as [[|]|]; [| |exact I].
    - destruct (forallb id empty); [exact M|apply IH].
    - destruct (N.of_nat _ <=? c_num cfg)%N; [apply IH|].
      destruct (select_input_for est enum s ut t) as [s1 [u1| | |]]; cbn [wp]; auto.
  Qed.

  Lemma balance_excess_of_sel L s ut t :
    wp L (balance_excess_of est chk cfg addr s ut t) (fun s' _ => t_sel s' = t_sel s).
  Proof.
    unfold balance_excess_of. apply wp_bind, current_balance_of_wp. intros b _. destruct b; [reflexivity|reflexivity|].
    apply wp_bind, wp_lift. intros a _. apply wp_bind, current_balance_wp. intros f _. cbn zeta. apply wp_bind.
    eapply wp_mono; [apply (change_entry_run est sc cfg True [])|]. cbn beta. intros s' o (_ & B & _).
    destruct (credit _ _ _ _) as [o'|]; [|exact I]. cbn [wp]. unfold clamp.
    destruct (_ <? _); [exact B|]. destruct (_ <? _); exact B.
  Qed.
  Lemma return_excess_sel L : forall l s ut, wp L (return_excess est chk cfg addr l s ut) (fun s' _ => t_sel s' = t_sel s).
  Proof.
    induction l as [|t l IH]; intros s ut; [reflexivity|]. cbn [return_excess]. apply wp_bind.
    eapply wp_mono; [apply balance_excess_of_sel|]. cbn beta. intros s1 [] H1. rewrite <- H1. apply IH.
  Qed.
  Lemma balance_excess_sel L s : wp L (balance_excess est cfg addr s) (fun s' _ => t_sel s' = t_sel s).
  Proof.
    unfold balance_excess. apply wp_bind, current_balance_wp. intros f _.
    destruct (zbal_sub_value _ _); [reflexivity|reflexivity|]. apply wp_bind, wp_lift. intros ad _.
    destruct (t_changes s !! c_main cfg); [reflexivity|]. apply wp_bind, min_value_wp. intros e m _.
    destruct (_ <? m); [reflexivity|]. apply wp_bind, wp_lift. intros g _. destruct (_ <? m + g); [reflexivity|].
    apply wp_bind, add_out_wp. intro e'. reflexivity.
  Qed.
  Lemma split_all_sel ut : forall l s, wp True (split_all est sc above cfg ut l s) (fun s' _ => t_sel s' = t_sel s).
  Proof.
    induction l as [|[t o] l IH]; intro s; [reflexivity|]. cbn [split_all]. apply wp_bind.
    apply (wp_mono _ _ (fun s' _ => t_sel s' = t_sel s)); [|intros s1 [] H1; rewrite <- H1; apply IH].
    unfold split_one. destruct (get_balance_of ut t); [|reflexivity]. destruct (o_assets o).
    - destruct (bool_decide _); [|reflexivity]. destruct (c_num cfg =? 0)%N; [exact I|]. apply wp_bind, wp_lift. intros f _. cbn zeta.
      destruct (_ || _); [reflexivity|]. destruct (above _ _ _); [|reflexivity]. apply add_out_wp. reflexivity.
    - destruct (c_num_assets cfg =? 0)%N; [exact I|]. destruct (above _ _ _); [|reflexivity]. cbn zeta. apply wp_bind, wp_lift. intros f _.
      destruct (_ || _); [reflexivity|]. apply wp_bind, add_out_wp. reflexivity.
  Qed.

  Lemma select_needs ordc keys avail s : 0 < sc ->
    wp True (select est enum sc above chk cfg addr outputs ordc keys avail s) (fun s' _ => measurable s').
  Proof.
    intro Hsc. unfold select. apply wp_bind. apply (wp_mono _ _ (fun _ _ => True)); [destruct (fund_assets _ _ _ _ _ _ _ _) as [? [| | |]]; exact I|].
    intros s1 ut1 _. apply wp_bind. apply (wp_mono _ _ (fun _ _ => True)); [destruct (main_until_balanced _ _ _ _ _ _) as [? [| | |]]; exact I|].
    intros s2 ut2 _. cbn zeta. apply wp_bind. eapply wp_mono; [apply extra_inputs_needs, Hsc|]. intros s3 ut3 M3.
    apply wp_bind. eapply wp_mono; [apply return_excess_sel|]. cbn beta. intros s4 [] H4.
    apply wp_bind. eapply wp_mono; [apply balance_excess_sel|]. cbn beta. intros s5 [] H5.
    apply wp_bind. eapply wp_mono; [apply split_all_sel|]. cbn beta. intros s6 [] H6.
    cbn [wp]. unfold measurable in *. rewrite H6, H5, H4. exact M3.
  Qed.
End Needs.

(** A result always has a chosen input, even where the fixed inputs would have been enough, and a fixed output; and an
    estimator for which an input costs less than one unit never gets a result. *)
Theorem C45_needs {E} (est : estimator E) enum sc above chk cfg ord ordb ordc ordv avail e su ut e' r :
  0 < sc -> th_select est enum sc above chk cfg ord ordb ordc ordv avail e su = (ut, SDone (e', r)) ->
  se_chosen r <> [] /\ se_fixed_out r <> [] /\ exists e1 u f, e_fee_in est e1 u = Some f /\ sc <= f.
Proof.
  intros Hsc H. destruct (th_select_done _ _ _ _ _ _ _ _ _ _ _ _ _ _ _ _ H) as (s & S & -> & D & ->).
  assert (W := select_needs est enum sc above chk cfg (su_change su) (su_fixed_out su) ordc
    (map fst (ordb (asset_balances ord (su_in_assets su) (su_out_assets su)))) avail (th_start ord e su) Hsc).
  rewrite S in W. destruct W as (A & B & C). auto.
Qed.
Corollary C45_never_with_free_inputs {E} (est : estimator E) enum sc above chk cfg ord ordb ordc ordv avail e su :
  0 < sc -> (forall e u f, e_fee_in est e u = Some f -> f < sc) ->
  forall ut e' r, th_select est enum sc above chk cfg ord ordb ordc ordv avail e su <> (ut, SDone (e', r)).
Proof. intros Hsc Hf ut e' r H. destruct (C45_needs _ _ _ _ _ _ _ _ _ _ _ _ _ _ _ _ Hsc H) as (_ & _ & e1 & u & f & A & B). specialize (Hf _ _ _ A). lia. Qed.

(** ** Concrete cases *)
(** x > total / n, exactly *)
Definition more (x total : Z) (n : N) : bool := total <? x * Z.of_N n.
Definition tu (i : N) (v q : Z) : utxo := Utxo ("t", i) "me" v (if q =? 0 then [] else [Asset "p" "a" "A" q]) "".
Definition tcase (cfg : tconfig) (h : list store_op) (ins : list utxo) (outs : list uout) :=
  th_select (flat 2 1 1) (fun _ => natural) 1 more false cfg tnatural tnatural tnatural tnatural (final h) (0, 1)%N
    (from_fixed ins outs (Some "me")).

Definition cfg_usual := Tconfig 2 2 10 20 MAIN.
Definition h_usual := [Insert (tu 0 100 60); Insert (tu 1 5 7); Insert (tu 2 30 0); Insert (tu 3 40 0); Insert (tu 4 50 0); Insert (tu 5 60 0);
                       Insert (tu 6 8 5); Insert (tu 7 9 3)].
Definition out_usual := Uout "you" 15 [Asset "p" "a" "A" 6] None.
(** token inputs are accumulated, the token change and the main change are split in two *)
(** token inputs are accumulated, the token change is split in two *)
Example C45_case_runs :
  match tcase cfg_usual h_usual [] [out_usual] with
  | (ut, SDone (e', r)) =>
      se_chosen r = [tu 0 100 60; tu 1 5 7] /\ store_len ut = 6%nat /\
      se_changes r = [Uout "me" 63 [] None; Uout "me" 9 [Asset "p" "a" "A" 31] None; Uout "me" 10 [Asset "p" "a" "A" 30] None] /\
      se_fee r = 8 /\ e' = (2, 4)%N
  | _ => False
  end.
Proof. vm_compute. repeat split; reflexivity. Qed.

Lemma tnatural_fair {A} : fair_t (@tnatural A).
Proof. intro m. reflexivity. Qed.
Lemma flat_sane cfg h su : 0 <= c_min cfg <= c_max cfg -> Forall nonneg_in (unspent h) -> nonneg_setup su -> sane (flat 2 1 1) cfg h su.
Proof.
  intros A B C. split; [|split; [|split; [|split]]]; auto.
  - intro e. cbn. split; [intros f H; injection H as <-; lia|]. split; intros u f H; injection H as <-; lia.
  - cbn. intros e o e' m H. injection H as <- <-. lia.
Qed.
Lemma flat_linear : linear (flat 2 1 1) 1 1.
Proof.
  intros [i o]. exists (2 + 1 * Z.of_N i + 1 * Z.of_N o). split; [reflexivity|]. split; [|split; [|reflexivity]].
  - intro u. split; [reflexivity|]. eexists. split; [reflexivity|]. cbn. f_equal. lia.
  - intro u. split; [reflexivity|]. eexists. split; [reflexivity|]. cbn. f_equal. lia.
Qed.
Lemma nonneg_totals ins outs c : Forall nonneg_in ins -> Forall nonneg_out outs -> nonneg_setup (from_fixed ins outs c).
Proof.
  intros A B. destruct (C39_totals ins outs c) as (T1 & T2 & T3 & T4 & _). unfold nonneg_setup. rewrite T1, T2.
  split; [apply value_in_nonneg, A|]. split; [apply value_out_nonneg, B|].
  split; intros t a H.
  - assert (Q := T3 t). unfold amount in Q. rewrite H in Q. rewrite Q. apply token_in_nonneg, A.
  - assert (Q := T4 t). unfold amount in Q. rewrite H in Q. rewrite Q. apply token_out_nonneg, B.
Qed.
Lemma nonneg_tu i v q : 0 <= v -> 0 <= q -> nonneg_in (tu i v q).
Proof. intros. split; [exact H|]. unfold tu. cbn [u_assets]. destruct (q =? 0); [constructor|]. constructor; [exact H0|constructor]. Qed.
Lemma wf_tu i v q : wf_op (Insert (tu i v q)).
Proof. unfold wf_op, wf_utxo, tu. cbn [u_assets]. destruct (q =? 0); apply (bool_decide_unpack _); by vm_compute. Qed.

(** the hypotheses of C45_tokens, C45_inputs and C45_signs hold of it *)
Example C45_case_hyps :
  (forall n : nat, fair ((fun _ => natural) n)) /\ Forall wf_op h_usual /\ c_main cfg_usual = MAIN /\
  plain_setup (from_fixed [] [out_usual] (Some "me")) /\ sane (flat 2 1 1) cfg_usual h_usual (from_fixed [] [out_usual] (Some "me")) /\
  cheap_outputs (flat 2 1 1) 1 cfg_usual.
Proof.
  split; [intros n m; reflexivity|]. split; [unfold h_usual; repeat (apply Forall_cons; split; [apply wf_tu|]); apply Forall_nil; exact I|].
  split; [reflexivity|]. split; [split; vm_compute; reflexivity|]. split.
  - apply flat_sane; [cbn; lia| |].
    + change (unspent h_usual) with [tu 0 100 60; tu 1 5 7; tu 2 30 0; tu 3 40 0; tu 4 50 0; tu 5 60 0; tu 6 8 5; tu 7 9 3].
      repeat (apply Forall_cons; split; [apply nonneg_tu; lia|]); apply Forall_nil; exact I.
    + apply nonneg_totals; [constructor|]. repeat (constructor; cbn; try lia).
  - intros e o f H. injection H as <-. vm_compute. reflexivity.
Qed.

(** the fee of a selection without tokens *)
Definition h_main := [Insert (tu 0 30 0); Insert (tu 1 40 0); Insert (tu 2 50 0); Insert (tu 3 50 0)].
Example C45_fee_case :
  linear (flat 2 1 1) 1 1 /\ Forall (fun u => 1 <= u_value u) (unspent h_main) /\
  sane (flat 2 1 1) cfg_usual h_main (from_fixed [] [Uout "you" 10 [] None] (Some "me")) /\ Forall wf_op h_main /\
  match tcase cfg_usual h_main [] [Uout "you" 10 [] None] with
  | (_, SDone (e', r)) => se_changes r = [Uout "me" 41 [] None; Uout "me" 42 [] None] /\ se_fee r = 7 /\
                          e_min_fee (flat 2 1 1) e' = Some 7
  | _ => False
  end.
Proof.
  split; [exact flat_linear|].
  change (unspent h_main) with [tu 0 30 0; tu 1 40 0; tu 2 50 0; tu 3 50 0].
  split; [repeat (apply Forall_cons; split; [cbn; lia|]); apply Forall_nil; exact I|].
  split. { apply flat_sane; [cbn; lia| |apply nonneg_totals; [constructor|repeat (constructor; cbn; try lia)]].
    change (unspent h_main) with [tu 0 30 0; tu 1 40 0; tu 2 50 0; tu 3 50 0].
    repeat (apply Forall_cons; split; [apply nonneg_tu; lia|]); apply Forall_nil; exact I. }
  split; [unfold h_main; repeat (apply Forall_cons; split; [apply wf_tu|]); apply Forall_nil; exact I|].
  vm_compute. repeat split; reflexivity.
Qed.

(** ** What does not hold *)
(** With a least main value too small for two outputs, splitting a token change gives up after it has taken half of
    the tokens away: 49 of the 99 tokens due back are nowhere in the result. *)
Theorem C45_tokens_conserved_refuted : exists cfg h su, 
  (exists r, 
    snd (th_select (flat 2 1 1) (fun _ => natural) 1 more false cfg tnatural tnatural tnatural tnatural (final h) (0, 1)%N su) = SDone r /\
    amount "A" (su_out_assets su) + token_out "A" (se_changes r.2) = 51 /\
    amount "A" (su_in_assets su) + token_in "A" (se_chosen r.2) = 100) /\
  c_main cfg = MAIN /\ plain_setup su /\ sane (flat 2 1 1) cfg h su /\ Forall wf_op h.
Proof.
  exists (Tconfig 20 20 0 3 MAIN), [Insert (tu 0 100 100); Insert (tu 1 5 1)], (from_fixed [] [Uout "you" 10 [Asset "p" "a" "A" 1] None] (Some "me")).
  split.
  - assert (H : match tcase (Tconfig 20 20 0 3 MAIN) [Insert (tu 0 100 100); Insert (tu 1 5 1)] [] [Uout "you" 10 [Asset "p" "a" "A" 1] None] with
                | (_, SDone r) => token_out "A" (se_changes r.2) = 50 /\ token_in "A" (se_chosen r.2) = 100 | _ => False end)
      by (vm_compute; split; reflexivity).
    unfold tcase in H. destruct (th_select _ _ _ _ _ _ _ _ _ _ _ _ _) as [ut [r| | |]]; try contradiction.
    exists r. split; [reflexivity|]. destruct H as [H1 H2]. rewrite H1, H2. split; vm_compute; reflexivity.
  - split; [reflexivity|]. split; [split; vm_compute; reflexivity|]. split.
    + apply flat_sane; [cbn; lia| |apply nonneg_totals; [constructor|repeat (constructor; cbn; try lia)]].
      change (unspent _) with [tu 0 100 100; tu 1 5 1].
      repeat (apply Forall_cons; split; [apply nonneg_tu; lia|]); apply Forall_nil; exact I.
    + repeat (apply Forall_cons; split; [apply wf_tu|]); apply Forall_nil; exact I.
Qed.

(** A token change made after the fee has been provided for is topped up to the upper limit out of the fee: the
    reported fee can be below the required one, even with fixed prices. *)
Theorem C45_fee_covered_refuted : exists cfg h su r,
  snd (th_select (flat 2 1 1) (fun _ => natural) 1 more false cfg tnatural tnatural tnatural tnatural (final h) (0, 1)%N su) = SDone r /\
  e_min_fee (flat 2 1 1) r.1 = Some 6 /\ se_fee r.2 = 2 /\
  c_main cfg = MAIN /\ 0 <= c_min cfg <= c_max cfg /\ Forall nonneg_in (unspent h) /\ Forall wf_op h /\
  Forall (fun u => 1 <= u_value u) (unspent h).
Proof.
  set (cfg := Tconfig 0 20 17 19 MAIN). set (h := [Insert (tu 0 30 5); Insert (tu 1 1 1)]).
  set (su := from_fixed [] [Uout "you" 10 [Asset "p" "a" "A" 5] None] (Some "me")).
  assert (H : match tcase cfg h [] [Uout "you" 10 [Asset "p" "a" "A" 5] None] with
              | (_, SDone r) => e_min_fee (flat 2 1 1) r.1 = Some 6 /\ se_fee r.2 = 2 | _ => False end)
    by (vm_compute; split; reflexivity).
  unfold tcase in H. fold su in H. exists cfg, h, su.
  destruct (th_select _ _ _ _ _ _ _ _ _ _ _ _ _) as [ut [r| | |]]; try contradiction. exists r. destruct H as [H1 H2].
  split; [reflexivity|]. split; [exact H1|]. split; [exact H2|]. split; [reflexivity|]. split; [cbn; lia|].
  change (unspent h) with [tu 0 30 5; tu 1 1 1].
  split; [repeat (apply Forall_cons; split; [apply nonneg_tu; lia|]); apply Forall_nil; exact I|].
  split; [unfold h; repeat (apply Forall_cons; split; [apply wf_tu|]); apply Forall_nil; exact I|].
  repeat (apply Forall_cons; split; [cbn; lia|]); apply Forall_nil; exact I.
Qed.

(** Without tokens too, when an extra input is worth less than it costs. *)
Theorem C45_fee_of_dust_refuted : exists cfg h su r,
  snd (th_select (flat 2 1 1) (fun _ => natural) 1 more false cfg tnatural tnatural tnatural tnatural (final h) (0, 1)%N su) = SDone r /\
  e_min_fee (flat 2 1 1) r.1 = Some 5 /\ se_fee r.2 = 4 /\ su_in_assets su = ∅ /\ su_out_assets su = ∅ /\ c_main cfg = MAIN.
Proof.
  set (cfg := Tconfig 0 2 10 20 MAIN). set (h := [Insert (tu 0 14 0); Insert (tu 1 0 0)]).
  set (su := from_fixed [] [Uout "you" 10 [] None] (Some "me")).
  assert (H : match tcase cfg h [] [Uout "you" 10 [] None] with
              | (_, SDone r) => e_min_fee (flat 2 1 1) r.1 = Some 5 /\ se_fee r.2 = 4 | _ => False end)
    by (vm_compute; split; reflexivity).
  unfold tcase in H. fold su in H. exists cfg, h, su.
  destruct (th_select _ _ _ _ _ _ _ _ _ _ _ _ _) as [ut [r| | |]]; try contradiction. exists r. destruct H as [H1 H2].
  split; [reflexivity|]. split; [exact H1|]. split; [exact H2|]. repeat split; reflexivity.
Qed.

(** A change that is large enough to be created can be split into two that are both below the least value the estimator
    asks of an output. *)
Definition flat_min (m : Z) : estimator (N * N) :=
  Estimator (e_min_fee (flat 2 1 1)) (e_fee_in (flat 2 1 1)) (e_add_in (flat 2 1 1)) (e_fee_out (flat 2 1 1)) (e_add_out (flat 2 1 1))
    (fun e _ => (e, Some m)) (e_size (flat 2 1 1)) (e_max (flat 2 1 1)).
Theorem C45_changes_above_minimum_refuted : exists h su r,
  snd (th_select (flat_min 50) (fun _ => natural) 1 more false cfg_usual tnatural tnatural tnatural tnatural (final h) (0, 1)%N su) = SDone r /\
  length (se_changes r.2) = 2%nat /\ Forall (fun o => snd (e_min_value (flat_min 50) r.1 o) = Some 50 /\ o_value o < 50) (se_changes r.2) /\
  su_in_assets su = ∅ /\ su_out_assets su = ∅.
Proof.
  exists h_main, (from_fixed [] [Uout "you" 10 [] None] (Some "me")).
  assert (H : match th_select (flat_min 50) (fun _ => natural) 1 more false cfg_usual tnatural tnatural tnatural tnatural (final h_main) (0, 1)%N
                      (from_fixed [] [Uout "you" 10 [] None] (Some "me")) with
              | (_, SDone r) => se_changes r.2 = [Uout "me" 41 [] None; Uout "me" 42 [] None] | _ => False end)
    by (vm_compute; reflexivity).
  destruct (th_select _ _ _ _ _ _ _ _ _ _ _ _ _) as [ut [r| | |]]; try contradiction. exists r. rewrite H.
  split; [reflexivity|]. split; [reflexivity|]. split; [|split; reflexivity].
  repeat (apply Forall_cons; split; [split; [reflexivity|cbn; lia]|]). apply Forall_nil. exact I.
Qed.
Example C45_choice_case : sized (flat 2 1 1) 0 0 100 /\ (0 + 2 * 0 <= Z.to_N (1 / 1))%N /\
  match tcase cfg_usual h_main [] [Uout "you" 10 [] None] with
  | (_, SDone (_, r)) => se_chosen r = [tu 3 50 0; tu 2 50 0] | _ => False end.
Proof.
  split; [intro e; exists 0%N; repeat split; reflexivity|]. split; [vm_compute; discriminate|]. vm_compute. reflexivity.
Qed.

(** The same top-up can leave a debt: the call fails, and the inputs it had taken are no longer available. *)
Theorem C45_failure_keeps_inputs_refuted : exists cfg h su e',
  snd (th_select (flat 2 1 1) (fun _ => natural) 1 more false cfg tnatural tnatural tnatural tnatural (final h) (0, 1)%N su) = SFail e' /\
  store_len (final h) = 2%nat /\
  store_len (fst (th_select (flat 2 1 1) (fun _ => natural) 1 more false cfg tnatural tnatural tnatural tnatural (final h) (0, 1)%N su)) = 0%nat /\
  sane (flat 2 1 1) cfg h su.
Proof.
  set (cfg := Tconfig 0 20 17 25 MAIN). set (h := [Insert (tu 0 30 5); Insert (tu 1 1 1)]).
  set (su := from_fixed [] [Uout "you" 10 [Asset "p" "a" "A" 5] None] (Some "me")).
  assert (H : match tcase cfg h [] [Uout "you" 10 [Asset "p" "a" "A" 5] None] with
              | (ut, SFail r) => store_len ut = 0%nat | _ => False end)
    by (vm_compute; reflexivity).
  unfold tcase in H. fold su in H. exists cfg, h, su.
  destruct (th_select _ _ _ _ _ _ _ _ _ _ _ _ _) as [ut [|e'| |]]; try contradiction. exists e'.
  split; [reflexivity|]. split; [vm_compute; reflexivity|]. split; [exact H|].
  apply flat_sane; [cbn; lia| |apply nonneg_totals; [constructor|repeat (constructor; cbn; try lia)]].
  change (unspent h) with [tu 0 30 5; tu 1 1 1].
  repeat (apply Forall_cons; split; [apply nonneg_tu; lia|]); apply Forall_nil; exact I.
Qed.

(** An excess of a token that no available output has ever had is a panic. *)
Theorem C45_no_panic_refuted : exists h su,
  snd (th_select (flat 2 1 1) (fun _ => natural) 1 more false cfg_usual tnatural tnatural tnatural tnatural (final h) (0, 1)%N su) = SPanic /\
  su_change su <> None /\ plain_setup su.
Proof.
  exists [Insert (tu 0 30 0)], (from_fixed [Utxo ("f", 0%N) "me" 40 [Asset "p" "b" "B" 5] ""] [Uout "you" 10 [] None] (Some "me")).
  split; [|split; [discriminate|split; vm_compute; reflexivity]].
  assert (H : match tcase cfg_usual [Insert (tu 0 30 0)] [Utxo ("f", 0%N) "me" 40 [Asset "p" "b" "B" 5] ""] [Uout "you" 10 [] None] with
              | (_, SPanic) => True | _ => False end) by (vm_compute; exact I).
  unfold tcase in H. destruct (th_select _ _ _ _ _ _ _ _ _ _ _ _ _) as [ut [| | |]]; try contradiction. reflexivity.
Qed.

(** Fixed inputs that cover everything are refused, whatever is available. *)
Example C45_covered_setup_fails :
  match tcase cfg_usual [Insert (tu 0 30 0)] [Utxo ("f", 0%N) "me" 40 [] ""] [Uout "you" 10 [] None] with
  | (ut, SFail _) => store_len ut = 1%nat | _ => False end.
Proof. vm_compute. reflexivity. Qed.

Definition C45_all := (@C45_main_value, @C45_totals, @C45_inputs, @C45_tokens, @C45_signs, @C45_fee, @C45_estimator_informed, @C45_fee_of_result, @C45_failure_keeps_inputs, @C45_changes, @C45_single_change, @C45_choice, @C45_needs, @C45_never_with_free_inputs).
Print Assumptions C45_all.
Print Assumptions C45_tokens_conserved_refuted.
Print Assumptions C45_fee_covered_refuted.
Print Assumptions C45_fee_of_dust_refuted.
Print Assumptions C45_failure_keeps_inputs_refuted.
Print Assumptions C45_no_panic_refuted.
Print Assumptions C45_changes_above_minimum_refuted.
