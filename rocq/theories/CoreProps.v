(** Property theorems C01-C07: amounts, balances, counters.  Proofs are in *Proofs.v. *)
From Coq Require Import ZArith NArith QArith Qround Ascii String List Permutation.
From Verif Require Import ValueModel ValueSpec ValueProofs BalanceModel BalanceSpec BalanceProofs
  CounterModel CounterProofs.
Import ListNotations.
Open Scope Q_scope.

(** ** C01 *)

(** native units: normalising divides by exactly 10^decimals, and going back is the identity
    (as numbers, and for the [==] of Value) *)
Theorem C01_native_roundtrip : forall u v n,
  normalize u v = Some n ->
  amount n == amount v * pow10 (- decimals_of u) /\
  exists w, from_normalized u n = Some w /\ amount w == amount v /\ dec_eqb w v = true.
Proof.
  intros u v n H.
  destruct u; cbn [normalize] in H; try discriminate; injection H as <-; cbn [from_normalized decimals_of];
  first [ split; [change (pow10 (-0)) with (pow10 0); rewrite pow10_0; ring|exists v; split; [reflexivity|split; [reflexivity|apply dec_eqb_correct; reflexivity]]]
        | split; [apply amount_vscale|eexists; split; [reflexivity|split; [apply vscale_vscale|apply dec_eqb_correct, vscale_vscale]]] ].
Qed.

Theorem C01_native_roundtrip_back : forall u n w,
  from_normalized u n = Some w ->
  amount w == amount n * pow10 (decimals_of u) /\
  exists n', normalize u w = Some n' /\ amount n' == amount n.
Proof.
  intros u n w H.
  destruct u; cbn [from_normalized] in H; try discriminate; injection H as <-; cbn [normalize decimals_of];
  first [ split; [rewrite pow10_0; ring|exists n; split; reflexivity]
        | split; [apply amount_vscale|eexists; split; [reflexivity|apply vscale_vscale']] ].
Qed.

(** the native units are exactly those with a rule-free conversion *)
Theorem C01_native_units : forall u v,
  normalize u v <> None <-> u <> Normalized /\ u <> Regulated.
Proof. intros u v; destruct u; cbn [normalize]; split; intros; try split; try tauto; congruence. Qed.

(** token rules, both chains, both directions *)
Theorem C01_rule_roundtrip : forall v r,
  amount (normalize_from_mainchain v r) == amount v * pow10 (- main_precision r) /\
  amount (normalize_from_sidechain v r) == amount v * pow10 (- side_precision r) /\
  amount (from_normalized_to_mainchain (normalize_from_mainchain v r) r) == amount v /\
  amount (from_normalized_to_sidechain (normalize_from_sidechain v r) r) == amount v /\
  amount (normalize_from_mainchain (from_normalized_to_mainchain v r) r) == amount v /\
  amount (normalize_from_sidechain (from_normalized_to_sidechain v r) r) == amount v.
Proof.
  exact (fun v r => conj (amount_vscale _ _) (conj (amount_vscale _ _) (conj (vscale_vscale _ _)
    (conj (vscale_vscale _ _) (conj (vscale_vscale' _ _) (vscale_vscale' _ _)))))).
Qed.

(** the default rule, for ERC20 tokens: a whole amount on the main chain, 18 decimal places on the side chain *)
Theorem C01_default_rule : forall v, let r := rule_erc20 in
  amount (normalize_from_mainchain v r) == amount v /\ amount (from_normalized_to_mainchain v r) == amount v /\
  amount (from_normalized_to_sidechain (normalize_from_mainchain v r) r) == amount v * inject_Z 1000000000000000000 /\
  amount (from_normalized_to_mainchain (normalize_from_sidechain v r) r) * inject_Z 1000000000000000000 == amount v.
Proof.
  intros v r. unfold normalize_from_mainchain, from_normalized_to_mainchain, from_normalized_to_sidechain, normalize_from_sidechain.
  rewrite !amount_vscale. cbn [main_precision side_precision r rule_erc20 Z.opp].
  change (pow10 0) with 1%Q. change (pow10 18) with (inject_Z 1000000000000000000). change (pow10 (-18)) with (/ inject_Z 1000000000000000000)%Q.
  repeat split; field; discriminate.
Qed.

(** lovelace/ADA, wei/ether, micro-algo/algo *)
Theorem C01_coin_roundtrip : forall v,
  amount (to_lovelace v) == amount v * inject_Z 1000000 /\
  amount (to_ada (to_lovelace v)) == amount v /\ amount (to_lovelace (to_ada v)) == amount v /\
  amount (to_wei v) == amount v * inject_Z 1000000000000000000 /\
  amount (to_ether (to_wei v)) == amount v /\ amount (to_wei (to_ether v)) == amount v /\
  amount (to_microalgo v) == amount v * inject_Z 1000000 /\
  amount (to_algo (to_microalgo v)) == amount v /\ amount (to_microalgo (to_algo v)) == amount v.
Proof.
  exact (fun v => conj (amount_vscale _ _) (conj (vscale_vscale' _ 6) (conj (vscale_vscale _ 6)
   (conj (amount_vscale _ _) (conj (vscale_vscale' _ 18) (conj (vscale_vscale _ 18)
   (conj (amount_vscale _ _) (conj (vscale_vscale' _ 6) (vscale_vscale _ 6))))))))).
Qed.

Example C01_example : normalize Lovelace (Dec 1234567 0) = Some (Dec 1234567 6) /\
  amount (Dec 1234567 6) == 1234567 # 1000000.
Proof. split; reflexivity. Qed.

(** ** C02 *)
Theorem C02_order_and_sums : forall u x y nx ny,
  normalize u x = Some nx -> normalize u y = Some ny ->
  dec_cmp nx ny = dec_cmp x y /\ dec_cmp nx ny = (amount nx ?= amount ny) /\
  (exists s, normalize u (v_add x y) = Some s /\ amount s == amount nx + amount ny) /\
  (exists d, normalize u (v_sub x y) = Some d /\ amount d == amount nx - amount ny).
Proof.
  intros u x y nx ny Hx Hy.
  destruct u; cbn [normalize] in *; try discriminate; injection Hx as <-; injection Hy as <-;
  (split; [first [reflexivity|apply vscale_cmp]|]); (split; [apply dec_cmp_correct|]);
  (split; eexists; (split; [reflexivity|])); unfold v_add, v_sub;
  rewrite ?vscale_add, ?vscale_sub, ?amount_add, ?amount_sub; reflexivity.
Qed.

Theorem C02_rules_order_and_sums : forall p x y,
  dec_cmp (vscale x p) (vscale y p) = dec_cmp x y /\
  amount (vscale (v_add x y) p) == amount (v_add (vscale x p) (vscale y p)) /\
  amount (vscale (v_sub x y) p) == amount (v_sub (vscale x p) (vscale y p)).
Proof. exact (fun p x y => conj (vscale_cmp x y p) (conj (vscale_add x y p) (vscale_sub x y p))). Qed.

(** arithmetic on amounts is exact: +, -, sum of a list, multiplication by an integer *)
Theorem C02_exact_arithmetic : forall x y l n,
  amount (v_add x y) == amount x + amount y /\ amount (v_sub x y) == amount x - amount y /\
  amount (v_sum l) == fold_right Qplus 0 (map amount l) /\
  amount (v_mul_int x n) == inject_Z n * amount x.
Proof. exact (fun x y l n => conj (amount_add x y) (conj (amount_sub x y) (conj (amount_sum l) (amount_mul_int x n)))). Qed.

(** amounts written with at most [k] decimals behave as integers of unit 10^-k:
    this justifies the integer amounts of the store and selection models *)
Theorem C02_common_scale : forall k x y, (scale x <= k)%Z -> (scale y <= k)%Z ->
  inject_Z (units k x) == amount x * pow10 k /\
  units k (v_add x y) = (units k x + units k y)%Z /\
  units k (v_sub x y) = (units k x - units k y)%Z /\
  Z.compare (units k x) (units k y) = dec_cmp x y.
Proof.
  exact (fun k x y Hx Hy => conj (units_amount k x Hx) (conj (units_add k x y Hx Hy)
    (conj (units_sub k x y Hx Hy) (units_cmp k x y Hx Hy)))).
Qed.

Example C02_example : dec_cmp (Dec 15 1) (Dec 1499 3) = Gt /\ v_add (Dec 15 1) (Dec 1499 3) = Dec 2999 3.
Proof. split; reflexivity. Qed.

(** ** C03 *)
Lemma places_max u : max_decimals u = places u.
Proof. destruct u; reflexivity. Qed.

(** exactly when parsing succeeds, for any text and whatever BigDecimal parser is underneath *)
Theorem C03_accepts : forall parse u t v,
  value_from_str_with parse u t = inl v <->
  parse t = Some v /\ (scale v <= places u)%Z /\ 0 <= amount v.
Proof. intros. rewrite <- places_max. apply from_str_ok. Qed.

Theorem C03_rejects : forall parse u t e,
  value_from_str_with parse u t = inr e <->
  match e with
  | InvalidDecimal => parse t = None
  | InvalidDecimalPoint => exists v, parse t = Some v /\ (places u < scale v)%Z
  | Negative => exists v, parse t = Some v /\ (scale v <= places u)%Z /\ amount v < 0
  end.
Proof. intros. rewrite <- places_max. apply from_str_err. Qed.

Theorem C03_print_parse : forall u v,
  0 <= amount v -> (scale v <= places u)%Z ->
  exists w, value_from_str u (show v) = inl w /\ amount w == amount v.
Proof. intros u v. rewrite <- places_max. apply from_str_show. Qed.

(** serialisation: any amount (any sign, any number of decimals) survives text *)
Theorem C03_serialize_deserialize : forall v,
  exists w, value_deserialize (show v) = Some w /\ amount w == amount v.
Proof. exact parse_show_amount. Qed.

(** finding: deserialisation does not apply the checks of parsing *)
Theorem C03_deserialize_checks_refuted : exists t v,
  value_deserialize t = Some v /\ amount v < 0 /\ value_from_str Lovelace t = inr Negative.
Proof. exists ["-"; "5"]%char, (Dec (-5) 0). repeat split. Qed.

Example C03_example : show (Dec 10205 3) = ["1"; "0"; "."; "2"; "0"; "5"]%char /\
  value_from_str Ada (show (Dec 10205 3)) = inl (Dec 10205 3) /\
  value_from_str Lovelace (show (Dec 10205 3)) = inr InvalidDecimalPoint /\
  value_from_str Ada (show (Dec (-5) 9)) = inr InvalidDecimalPoint.
Proof. repeat split. Qed.

(** ** C04 *)
Theorem C04_truncate_floor : forall v, 0 <= amount v ->
  amount (truncate v) == inject_Z (Qfloor (amount v)).
Proof. exact truncate_nonneg. Qed.

Theorem C04_truncate_idempotent : forall v, amount (truncate (truncate v)) == amount (truncate v).
Proof. exact truncate_idem. Qed.

(** finding: every negative amount is truncated to 0, also a whole one *)
Theorem C04_truncate_negative : forall v, amount v < 0 -> truncate v = dec_of_Z 0.
Proof. exact truncate_neg. Qed.

Theorem C04_truncate_whole_refuted : exists v, scale v = 0%Z /\ ~ amount (truncate v) == amount v.
Proof. exists (Dec (-5) 0). split; [reflexivity|]. intro H. discriminate H. Qed.

Example C04_example : truncate (Dec 1029 3) = Dec 1 0 /\ truncate (Dec 123456 1) = Dec 12345 0 /\
  truncate (Dec 5 (-3)) = Dec 5000 0 /\ 0 <= amount (Dec 1029 3).
Proof. repeat split. discriminate. Qed.

(** ** C05 *)
Theorem C05_balance_total : forall l, nonneg_ops l -> reports (dbal_run Balanced l) (total l).
Proof. exact run_from_zero. Qed.

(** what the three questions answer *)
Theorem C05_status : forall l, nonneg_ops l -> let b := dbal_run Balanced l in
  (in_debt b = true <-> total l < 0) /\ (balanced b = true <-> total l == 0) /\ (in_excess b = true <-> 0 < total l).
Proof.
  intros l H b. assert (R := run_from_zero l H). fold b in R. destruct b as [v| |v]; cbn in R |- *.
  - destruct R as [R _]. split; [tauto|]. split; (split; [discriminate|]); intro G; exfalso.
    + rewrite G in R. discriminate R.
    + exact (Qlt_irrefl _ (Qlt_trans _ _ _ R G)).
  - rewrite R. split; [|split; [split; reflexivity|]]; (split; [discriminate|]); intro G; exfalso; discriminate G.
  - destruct R as [R _]. split; [|split; [|tauto]]; (split; [discriminate|]); intro G; exfalso.
    + exact (Qlt_irrefl _ (Qlt_trans _ _ _ R G)).
    + rewrite G in R. discriminate R.
Qed.

(** Two balances, each reached from a balanced one, are equal exactly when the totals are. *)
Theorem C05_equal : forall l1 l2, nonneg_ops l1 -> nonneg_ops l2 ->
  (dbal_eqb (dbal_run Balanced l1) (dbal_run Balanced l2) = true <-> total l1 == total l2).
Proof.
  intros l1 l2 H1 H2. assert (R1 := run_from_zero l1 H1). assert (R2 := run_from_zero l2 H2). split.
  - intro E. unfold dbal_eqb in E. destruct (dbal_run Balanced l1) as [x| |x], (dbal_run Balanced l2) as [y| |y]; cbn [reports bal_eqb] in *;
      try discriminate E; try (apply dec_eqb_correct in E); try Lqa.lra.
  - intro E. apply reports_eqb with (t := total l1); [exact R1|]. apply (reports_comp _ (total l2)); [symmetry; exact E|exact R2].
Qed.

Theorem C05_balance_order_free : forall l1 l2, Permutation l1 l2 -> nonneg_ops l1 ->
  dbal_eqb (dbal_run Balanced l1) (dbal_run Balanced l2) = true.
Proof. exact run_perm. Qed.

(** without the sign condition the signed total is still right … *)
Theorem C05_signed_total : forall b l, signed (dbal_run b l) == signed b + total l.
Proof. exact (fun b l => run_signed l b). Qed.

(** … but the reported status can be wrong (finding: crediting a negative amount) *)
Theorem C05_negative_amount_refuted : exists l,
  total l < 0 /\ in_excess (dbal_run Balanced l) = true.
Proof. exists [Credit (Dec (-5) 0)]. split; reflexivity. Qed.

Example C05_example : nonneg_ops [Credit (Dec 15 1); Debit (Dec 2 0); Credit (Dec 3 1)] /\
  dbal_run Balanced [Credit (Dec 15 1); Debit (Dec 2 0); Credit (Dec 3 1)] = Debt (Dec 2 1).
Proof. split; [repeat constructor; discriminate|reflexivity]. Qed.

(** ** C06 *)
Theorem C06_balance_sum : forall a b, signed (dbal_add a b) == signed a + signed b.
Proof. exact add_signed. Qed.

Theorem C06_balance_sum_normal : forall a b, normal a -> normal b ->
  reports (dbal_add a b) (signed a + signed b) /\ dbal_eqb (dbal_add a b) (dbal_add b a) = true.
Proof. exact (fun a b Ha Hb => conj (add_reports a b Ha Hb) (add_comm a b Ha Hb)). Qed.

Example C06_example : normal (Debt (Dec 7 0)) /\ normal (Excess (Dec 75 1)) /\
  dbal_add (Debt (Dec 7 0)) (Excess (Dec 75 1)) = Excess (Dec 5 1).
Proof. repeat split. Qed.

(** ** C07 *)
Open Scope N_scope.
Theorem C07_checked_add : forall a b,
  checked_add a b = if a + b <? 2 ^ 64 then Some (a + b) else None.
Proof. exact checked_add_spec. Qed.

Theorem C07_saturating : forall a b,
  saturating_add a b = N.min (a + b) (2 ^ 64 - 1) /\
  Z.of_N (saturating_sub a b) = Z.max 0 (Z.of_N a - Z.of_N b).
Proof. exact (fun a b => conj (saturating_add_spec a b) (saturating_sub_Z a b)). Qed.

Theorem C07_next : forall a,
  checked_next a = (if a <? 2 ^ 64 - 1 then Some (a + 1) else None) /\
  saturating_next a = N.min (a + 1) (2 ^ 64 - 1).
Proof. exact (fun a => conj (checked_next_spec a) (saturating_add_spec a 1)). Qed.

Theorem C07_range_and_monotone : forall a b, is_u64 a ->
  (is_u64 (saturating_add a b) /\ is_u64 (saturating_sub a b) /\
   (forall c, checked_add a b = Some c -> is_u64 c)) /\
  forall a' b', a <= a' -> b <= b' ->
   saturating_add a b <= saturating_add a' b' /\ saturating_sub a b' <= saturating_sub a' b /\
   (forall c', checked_add a' b' = Some c' -> exists c, checked_add a b = Some c /\ c <= c').
Proof. exact (fun a b Ha => conj (counters_in_range a b Ha) (fun a' b' => counters_monotone a a' b b')). Qed.

Example C07_example : checked_next u64_max = None /\ saturating_add u64_max 5 = u64_max /\ saturating_sub 3 5 = 0 /\
  is_u64 u64_max.
Proof. repeat split. discriminate. Qed.

(** one traversal for all theorems of this file: what the tuple assumes is what any of them assumes *)
Definition all_CoreProps := (@C01_native_roundtrip, @C01_native_roundtrip_back, @C01_native_units, @C01_rule_roundtrip, @C01_default_rule, @C01_coin_roundtrip, @C02_order_and_sums, @C02_rules_order_and_sums, @C02_exact_arithmetic, @C02_common_scale, @C03_accepts, @C03_rejects, @C03_print_parse, @C03_serialize_deserialize, @C03_deserialize_checks_refuted, @C04_truncate_floor, @C04_truncate_idempotent, @C04_truncate_negative, @C04_truncate_whole_refuted, @C05_balance_total, @C05_status, @C05_equal, @C05_balance_order_free, @C05_signed_total, @C05_negative_amount_refuted, @C06_balance_sum, @C06_balance_sum_normal, @C07_checked_add, @C07_saturating, @C07_next, @C07_range_and_monotone).
Print Assumptions all_CoreProps.
