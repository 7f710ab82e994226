From Coq Require Import ZArith NArith QArith Qabs Qround Ascii String List Bool Lia.
From Verif Require Import ValueModel ValueSpec ValueProofs DivModel.
Import ListNotations.
Open Scope Z_scope.

Lemma count_digits_spec : forall fuel n, 0 < n < 2 ^ (Z.of_nat fuel + 1) ->
  1 <= count_digits fuel n /\ 10 ^ (count_digits fuel n - 1) <= n < 10 ^ count_digits fuel n.
Proof.
  induction fuel as [|f IH]; intros n H; cbn [count_digits].
  - change (2 ^ (Z.of_nat 0 + 1)) with 2 in H. change (10 ^ (1 - 1)) with 1. change (10 ^ 1) with 10. lia.
  - destruct (Z.ltb_spec n 10); [change (10 ^ (1 - 1)) with 1; change (10 ^ 1) with 10; lia|].
    assert (D : n = 10 * (n / 10) + n mod 10) by (apply Z.div_mod; lia). assert (M := Z.mod_pos_bound n 10 ltac:(lia)).
    rewrite Nat2Z.inj_succ in H. replace (Z.succ (Z.of_nat f) + 1) with (Z.succ (Z.of_nat f + 1)) in H by lia.
    rewrite Z.pow_succ_r in H by lia.
    destruct (IH (n / 10)) as (A & B & C); [lia|]. split; [lia|].
    replace (1 + count_digits f (n / 10) - 1) with (Z.succ (count_digits f (n / 10) - 1)) by lia.
    replace (1 + count_digits f (n / 10)) with (Z.succ (count_digits f (n / 10))) by lia.
    rewrite !Z.pow_succ_r by lia. lia.
Qed.
Lemma decimal_digits_spec n : 0 < n ->
  1 <= decimal_digits n /\ 10 ^ (decimal_digits n - 1) <= n < 10 ^ decimal_digits n.
Proof.
  intro H. apply count_digits_spec. split; [exact H|]. rewrite Z2Nat.id by apply Z.log2_nonneg.
  replace (Z.log2 n + 1) with (Z.succ (Z.log2 n)) by lia. apply Z.log2_spec, H.
Qed.

Lemma shift_up_spec : forall fuel num den scale num' scale', 0 < num -> 0 < den -> den <= num * 2 ^ Z.of_nat fuel ->
  shift_up fuel num den scale = (num', scale') ->
  exists j, 0 <= j /\ num' = num * 10 ^ j /\ scale' = scale + j /\ den <= num' /\ (j = 0 \/ num' < 10 * den).
Proof.
  induction fuel as [|f IH]; intros num den scale num' scale' Hn Hd B H; cbn [shift_up] in H.
  { change (2 ^ Z.of_nat 0) with 1 in B. injection H as <- <-. exists 0. change (10 ^ 0) with 1. lia. }
  destruct (Z.ltb_spec num den) as [L|L].
  - rewrite Nat2Z.inj_succ, Z.pow_succ_r in B by lia.
    assert (P : 0 < 2 ^ Z.of_nat f) by (apply Z.pow_pos_nonneg; lia).
    destruct (IH (num * 10) den (scale + 1) num' scale') as (j & A1 & A2 & A3 & A4 & A5); [lia|lia|nia|exact H|].
    exists (Z.succ j). rewrite Z.pow_succ_r by lia. split; [lia|]. split; [lia|]. split; [lia|]. split; [exact A4|right].
    destruct A5 as [->|A5]; [|exact A5]. change (10 ^ 0) with 1 in A2. lia.
  - injection H as <- <-. exists 0. change (10 ^ 0) with 1. lia.
Qed.

Lemma long_division_spec den : 0 < den -> forall fuel q r scale q' r' scale' k, 0 < q -> 0 <= r < 10 * den ->
  10 ^ k <= q -> 0 <= k -> long_division fuel q r den scale = (q', r', scale') ->
  exists j, 0 <= j <= Z.of_nat fuel /\ scale' = scale + j /\ 0 <= r' < 10 * den /\
    10 * q' * den + r' = (10 * q * den + r) * 10 ^ j /\ 0 < q' /\ q' < (q + 1) * 10 ^ j /\ (r' = 0 \/ 10 ^ (k + Z.of_nat fuel) <= q').
Proof.
  intro Hd. induction fuel as [|f IH]; intros q r scale q' r' scale' k Hq Hr Hk K0 H; cbn [long_division] in H.
  - injection H as <- <- <-. exists 0. change (10 ^ 0) with 1. change (Z.of_nat 0) with 0. rewrite !Z.add_0_r.
    split; [lia|]. split; [reflexivity|]. split; [exact Hr|]. split; [lia|]. split; [exact Hq|]. split; [lia|right; exact Hk].
  - destruct (Z.eqb_spec r 0) as [->|R].
    + injection H as <- <- <-. exists 0. change (10 ^ 0) with 1. rewrite Z.add_0_r.
      split; [lia|]. split; [reflexivity|]. split; [lia|]. split; [lia|]. split; [exact Hq|]. split; [lia|left; reflexivity].
    + assert (D : r = den * (r / den) + r mod den) by (apply Z.div_mod; lia). assert (M := Z.mod_pos_bound r den Hd).
      assert (0 <= r / den < 10) by (split; [apply Z.div_pos; lia|apply Z.div_lt_upper_bound; lia]).
      destruct (IH (q * 10 + r / den) (r mod den * 10) (scale + 1) q' r' scale' (k + 1)) as (j & A1 & A2 & A3 & A4 & A5 & A6 & A7);
        [lia|lia| |lia|exact H|].
      { rewrite Z.pow_add_r by lia. change (10 ^ 1) with 10. lia. }
      exists (j + 1). rewrite Nat2Z.inj_succ. assert (P : 0 < 10 ^ j) by (apply Z.pow_pos_nonneg; lia).
      rewrite Z.pow_add_r by lia. change (10 ^ 1) with 10.
      split; [lia|]. split; [lia|]. split; [exact A3|].
      split. { rewrite A4. transitivity ((10 * q * den + (den * (r / den) + r mod den)) * (10 ^ j * 10)); [ring|rewrite <- D; reflexivity]. }
      split; [exact A5|]. split. { eapply Z.lt_le_trans; [exact A6|]. transitivity ((q + 1) * 10 * 10 ^ j); [|apply Z.eq_le_incl; ring]. apply Z.mul_le_mono_nonneg_r; lia. }
      destruct A7 as [A7|A7]; [left; exact A7|right]. replace (k + Z.succ (Z.of_nat f)) with (k + 1 + Z.of_nat f) by lia. exact A7.
Qed.

(** the quotient of positive integers: exact, or one hundred digits or more of it, rounded to the nearest *)
Lemma divide_pos_spec num den scale : 0 < num -> 0 < den ->
  exists q j, 0 <= j /\ divide_pos num den scale = Dec q (scale + j) /\ 0 < q /\
    (q * den = num * 10 ^ j /\ (num < 10 ^ 100 -> q < 10 ^ 100) \/
     num * 10 ^ j mod den <> 0 /\ 10 ^ 99 <= num * 10 ^ j / den /\ (num < 10 ^ 100 -> num * 10 ^ j / den < 10 ^ 100) /\
     q = num * 10 ^ j / den + (if den <=? 2 * (num * 10 ^ j mod den) then 1 else 0)).
Proof.
  intros Hn Hd. unfold divide_pos. destruct (shift_up _ num den scale) as [num1 s1] eqn:E.
  assert (B : den <= num * 2 ^ Z.of_nat (S (Z.to_nat (Z.log2 den)))).
  { rewrite Nat2Z.inj_succ, Z2Nat.id by apply Z.log2_nonneg. assert (L := proj2 (Z.log2_spec den Hd)).
    assert (P : 0 < 2 ^ Z.succ (Z.log2 den)) by lia. nia. }
  destruct (shift_up_spec _ _ _ _ _ _ Hn Hd B E)
    as (j1 & J1 & -> & -> & G & LJ). clear E.
  set (num1 := num * 10 ^ j1) in *.
  assert (D : num1 = den * (num1 / den) + num1 mod den) by (apply Z.div_mod; lia). assert (M := Z.mod_pos_bound num1 den Hd).
  assert (Q1 : 1 <= num1 / den) by (apply Z.div_le_lower_bound; lia).
  destruct (decimal_digits_spec (num1 / den)) as (C0 & C1 & C2); [lia|].
  (* few digits to begin with *)
  assert (S0 : num < 10 ^ 100 -> num1 / den < 10 ^ 100).
  { intro S. apply Z.div_lt_upper_bound; [lia|]. destruct LJ as [->|L].
    - unfold num1. change (10 ^ 0) with 1. rewrite Z.mul_1_r. assert (0 < 10 ^ 100) by reflexivity. nia.
    - assert (10 <= 10 ^ 100) by (vm_compute; discriminate). nia. }
  destruct (Z.eqb_spec (num1 mod den) 0) as [R|R].
  - exists (num1 / den), j1. split; [exact J1|]. split; [reflexivity|]. split; [lia|]. left. split; [|exact S0]. fold num1. rewrite D at 2. rewrite R. ring.
  - destruct (long_division _ _ _ _ _) as [[q' r'] s'] eqn:L.
    assert (P1 : 0 < num1 / den) by lia. assert (P2 : 0 <= num1 mod den * 10 < 10 * den) by lia.
    assert (P3 : 0 <= decimal_digits (num1 / den) - 1) by lia.
    destruct (long_division_spec den Hd _ _ _ _ _ _ _ _ P1 P2 C1 P3 L)
      as (j2 & J2 & -> & R' & Inv & Q' & Up & Big). clear L.
    set (c := decimal_digits (num1 / den)) in *.
    exists (if r' =? 0 then q' else q' + (if 5 <=? r' / den then 1 else 0)), (j1 + j2). split; [lia|]. split; [f_equal; lia|].
    split; [destruct (r' =? 0), (5 <=? r' / den); lia|].
    assert (Inv2 : 10 * (num * 10 ^ (j1 + j2)) = 10 * q' * den + r').
    { rewrite Inv. rewrite Z.pow_add_r by lia. replace (num * (10 ^ j1 * 10 ^ j2)) with (num1 * 10 ^ j2) by (unfold num1; ring). nia. }
    assert (Few : num < 10 ^ 100 -> q' < 10 ^ 100).
    { intro S. specialize (S0 S). assert (Hc : c <= 100).
      { destruct (Z.le_gt_cases c 100) as [|X]; [assumption|]. assert (10 ^ 100 <= 10 ^ (c - 1)) by (apply Z.pow_le_mono_r; lia). lia. }
      assert (P : 0 < 10 ^ j2) by (apply Z.pow_pos_nonneg; lia).
      assert (X : q' < 10 ^ c * 10 ^ j2) by nia. rewrite <- Z.pow_add_r in X by lia.
      assert (10 ^ (c + j2) <= 10 ^ 100) by (apply Z.pow_le_mono_r; unfold PRECISION in J2; lia). lia. }
    destruct (Z.eqb_spec r' 0) as [->|R2].
    + left. split; [lia|exact Few].
    + right. set (N := num * 10 ^ (j1 + j2)) in *.
      assert (Dv : N / den = q') by (symmetry; apply (Z.div_unique N den q' (N - q' * den)); lia).
      assert (Md : N mod den = N - q' * den) by (rewrite Z.mod_eq by lia; rewrite Dv; lia).
      rewrite Dv, Md. split; [lia|]. split.
      { destruct Big as [Big|Big]; [lia|]. etransitivity; [|exact Big]. apply Z.pow_le_mono_r; unfold PRECISION; lia. }
      split; [exact Few|]. f_equal.
      assert (T : 5 <= r' / den <-> den <= 2 * (N - q' * den)).
      { clear - Inv2 Hd. split; intro T.
        - assert (X := Z.mul_div_le r' den Hd). assert (Y := Z.mul_le_mono_nonneg_l _ _ den ltac:(lia) T). lia.
        - apply Z.div_le_lower_bound; lia. }
      clear - T. destruct (Z.leb_spec 5 (r' / den)) as [A|A], (Z.leb_spec den (2 * (N - q' * den))) as [B|B];
        [reflexivity|apply T in A; lia|apply T in B; lia|reflexivity].
Qed.

(** the same with signs and the shortcuts *)
Lemma dec_div_spec v n r : dec_div v n = Some r ->
  0 < Z.of_N n /\ exists j, 0 <= j /\ scale r = scale v + j /\ Z.sgn (digits r) = Z.sgn (digits v) /\
    (digits r * Z.of_N n = digits v * 10 ^ j /\ (Z.abs (digits v) < 10 ^ 100 -> Z.abs (digits r) < 10 ^ 100) \/
     Z.abs (digits v) * 10 ^ j mod Z.of_N n <> 0 /\ 10 ^ 99 <= Z.abs (digits v) * 10 ^ j / Z.of_N n /\
     (Z.abs (digits v) < 10 ^ 100 -> Z.abs (digits v) * 10 ^ j / Z.of_N n < 10 ^ 100) /\
     Z.abs (digits r) = Z.abs (digits v) * 10 ^ j / Z.of_N n +
       (if Z.of_N n <=? 2 * (Z.abs (digits v) * 10 ^ j mod Z.of_N n) then 1 else 0)).
Proof.
  unfold dec_div. set (den := Z.of_N n). destruct (Z.eqb_spec den 0) as [|D0]; [discriminate|]. assert (Hd : 0 < den) by lia.
  intro H. split; [exact Hd|].
  destruct (Z.eqb_spec (digits v) 0) as [V0|V0]; cbn [orb] in H.
  { injection H as <-. exists 0. change (10 ^ 0) with 1. rewrite V0, Z.add_0_r. split; [lia|]. split; [reflexivity|]. split; [reflexivity|].
    left. split; [lia|]. intros _. reflexivity. }
  destruct (Z.eqb_spec den 1) as [->|D1]; cbn [orb] in H.
  { injection H as <-. exists 0. change (10 ^ 0) with 1. rewrite Z.add_0_r. split; [lia|]. split; [reflexivity|]. split; [reflexivity|].
    left. split; [lia|auto]. }
  destruct (Z.eqb_spec (digits v) den) as [E|E].
  { injection H as <-. exists 0. change (10 ^ 0) with 1. cbn [digits ValueModel.scale]. rewrite E, Z.add_0_r. split; [lia|]. split; [reflexivity|].
    split; [rewrite (Z.sgn_pos den) by lia; reflexivity|]. left. split; [lia|]. intros _. reflexivity. }
  destruct (Z.ltb_spec (digits v) 0) as [L|L].
  - destruct (divide_pos_spec (- digits v) den (scale v) ltac:(lia) Hd) as (q & j & J & Eq & Q & S). rewrite Eq in H. injection H as <-.
    exists j. unfold dec_opp. cbn [digits ValueModel.scale]. rewrite Z.abs_opp, (Z.abs_neq (digits v)), (Z.abs_eq q) by lia.
    split; [exact J|]. split; [reflexivity|]. split; [rewrite !Z.sgn_neg by lia; reflexivity|].
    destruct S as [[S1 S2]|S]; [left; split; [lia|exact S2]|right; exact S].
  - destruct (divide_pos_spec (digits v) den (scale v) ltac:(lia) Hd) as (q & j & J & Eq & Q & S). rewrite Eq in H. injection H as <-.
    exists j. cbn [digits ValueModel.scale]. rewrite (Z.abs_eq (digits v)), (Z.abs_eq q) by lia.
    split; [exact J|]. split; [reflexivity|]. split; [rewrite !Z.sgn_pos by lia; reflexivity|]. exact S.
Qed.

(** equality of a quotient and a decimal, in integers *)
Lemma quotient_eq p a q b den m : 0 < den -> a <= m -> b <= m ->
  (amount (Dec p a) / inject_Z den == amount (Dec q b))%Q <-> p * 10 ^ (m - a) = q * den * 10 ^ (m - b).
Proof.
  intros Hd Ha Hb.
  assert (Nd : ~ (inject_Z den == 0)%Q) by (intro G; apply (inject_Z_inj den 0) in G; lia).
  assert (A := amount_rescale m (Dec p a) Ha). assert (B := amount_rescale m (Dec q b) Hb).
  unfold rescale in A, B. cbn [digits scale] in A, B. split; intro H.
  - apply inject_Z_inj. rewrite A. replace (q * den * 10 ^ (m - b)) with (q * 10 ^ (m - b) * den) by ring. rewrite inject_Z_mult, B, <- H. field. exact Nd.
  - apply (Qmult_cancel_pow10 m). apply (Qmult_inj_r _ _ (inject_Z den) Nd).
    transitivity (amount (Dec p a) * pow10 m)%Q; [field; exact Nd|].
    rewrite <- B, <- A, <- inject_Z_mult, H. apply inject_Z_injective. ring.
Qed.
Lemma quotient_lt p a q b den m : 0 < den -> a <= m -> b <= m ->
  (amount (Dec p a) / inject_Z den < amount (Dec q b))%Q <-> p * 10 ^ (m - a) < q * den * 10 ^ (m - b).
Proof.
  intros Hd Ha Hb.
  assert (Nd : ~ (inject_Z den == 0)%Q) by (intro G; apply (inject_Z_inj den 0) in G; lia).
  assert (Pd : (0 < inject_Z den)%Q) by (change 0%Q with (inject_Z 0); rewrite <- Zlt_Qlt; exact Hd).
  assert (A := amount_rescale m (Dec p a) Ha). assert (B := amount_rescale m (Dec q b) Hb).
  unfold rescale in A, B. cbn [digits scale] in A, B. rewrite Zlt_Qlt. rewrite A.
  replace (q * den * 10 ^ (m - b)) with (q * 10 ^ (m - b) * den) by ring. rewrite inject_Z_mult, B.
  assert (C := pow10_pos m). split; intro H.
  - apply (Qmult_lt_r _ _ (inject_Z den) Pd) in H. apply (Qmult_lt_r _ _ _ C) in H.
    assert (E : (amount (Dec p a) / inject_Z den * inject_Z den * pow10 m == amount (Dec p a) * pow10 m)%Q) by (field; exact Nd).
    rewrite E in H. assert (E2 : (amount (Dec q b) * inject_Z den * pow10 m == amount (Dec q b) * pow10 m * inject_Z den)%Q) by ring.
    rewrite E2 in H. exact H.
  - apply (Qmult_lt_r _ _ (inject_Z den) Pd). apply (Qmult_lt_r _ _ _ C).
    assert (E : (amount (Dec p a) / inject_Z den * inject_Z den * pow10 m == amount (Dec p a) * pow10 m)%Q) by (field; exact Nd).
    rewrite E. assert (E2 : (amount (Dec q b) * inject_Z den * pow10 m == amount (Dec q b) * pow10 m * inject_Z den)%Q) by ring.
    rewrite E2. exact H.
Qed.

(** the result is off by at most half a unit of its last decimal *)
Lemma div_error v n r j : 0 < Z.of_N n -> Z.sgn (digits r) = Z.sgn (digits v) ->
  (digits r * Z.of_N n = digits v * 10 ^ j \/
   Z.abs (digits r) = Z.abs (digits v) * 10 ^ j / Z.of_N n + (if Z.of_N n <=? 2 * (Z.abs (digits v) * 10 ^ j mod Z.of_N n) then 1 else 0)) ->
  2 * Z.abs (digits r * Z.of_N n - digits v * 10 ^ j) <= Z.of_N n.
Proof.
  intros Hd Sg C. destruct C as [C|C4]; [rewrite C, Z.sub_diag; cbn; lia|].
  remember (Z.of_N n) as den. remember (Z.abs (digits v) * 10 ^ j) as N.
  assert (D := Z.div_mod N den ltac:(lia)). assert (M := Z.mod_pos_bound N den Hd).
  assert (X : digits r * den - digits v * 10 ^ j = Z.sgn (digits v) * (Z.abs (digits r) * den - N)).
  { rewrite HeqN. assert (E1 := Z.abs_sgn (digits r)). assert (E2 := Z.abs_sgn (digits v)). rewrite Sg in E1. revert E1 E2.
    generalize (Z.sgn (digits v)), (Z.abs (digits r)), (Z.abs (digits v)), (10 ^ j). intros z a b p <- <-. ring. }
  rewrite X, Z.abs_mul. assert (S1 : 0 <= Z.abs (Z.sgn (digits v)) <= 1) by (destruct (digits v); cbn; lia).
  assert (S2 : 2 * Z.abs (Z.abs (digits r) * den - N) <= den).
  { rewrite C4. clear - D M Hd. destruct (Z.leb_spec den (2 * (N mod den))) as [L|L].
    - replace ((N / den + 1) * den - N) with (den - N mod den) by lia. lia.
    - replace ((N / den + 0) * den - N) with (- (N mod den)) by lia. lia. }
  clear - S1 S2. revert S1 S2. assert (0 <= Z.abs (Z.abs (digits r) * den - N)) by apply Z.abs_nonneg. revert H.
  generalize (Z.abs (Z.sgn (digits v))), (Z.abs (Z.abs (digits r) * den - N)). intros. nia.
Qed.

(** ** Hash *)
Lemma show_nat_aux_app : forall f n acc, show_nat_aux f n acc = show_nat_aux f n [] ++ acc.
Proof.
  induction f as [|f IH]; intros n acc; cbn [show_nat_aux]; [reflexivity|].
  destruct (n <? 10); [reflexivity|]. rewrite IH, (IH _ [_]), <- app_assoc. reflexivity.
Qed.
Lemma show_nat_aux_fuel : forall f f' n acc, 0 <= n < 2 ^ Z.of_nat f -> 0 <= n < 2 ^ Z.of_nat f' -> (0 < f)%nat -> (0 < f')%nat ->
  show_nat_aux f n acc = show_nat_aux f' n acc.
Proof.
  induction f as [|f IH]; intros [|f'] n acc H H' F F'; try lia. cbn [show_nat_aux].
  destruct (Z.ltb_spec n 10); [reflexivity|]. rewrite Nat2Z.inj_succ, Z.pow_succ_r in H, H' by lia.
  assert (D := Z.div_mod n 10 ltac:(lia)). assert (M := Z.mod_pos_bound n 10 ltac:(lia)).
  apply IH; [lia|lia| |]; [destruct f|destruct f']; try lia; change (2 ^ Z.of_nat 0) with 1 in *; lia.
Qed.
Lemma show_nat_ten n : 0 < n -> show_nat (10 * n) = show_nat n ++ ["0"%char].
Proof.
  intro H. unfold show_nat at 1. cbn [show_nat_aux]. destruct (Z.ltb_spec (10 * n) 10); [lia|].
  replace (10 * n) with (n * 10) by ring. rewrite Z.mod_mul, Z.div_mul by lia. rewrite show_nat_aux_app. unfold show_nat.
  change (digit_char 0) with "0"%char. f_equal.
  assert (L := Z.log2_nonneg n). assert (Sp := Z.log2_spec n H).
  assert (L2 : Z.succ (Z.log2 n) <= Z.log2 (n * 10)) by (rewrite <- Z.log2_double by lia; apply Z.log2_le_mono; lia).
  apply show_nat_aux_fuel; try lia.
  - split; [lia|]. apply Z.lt_le_trans with (2 ^ Z.succ (Z.log2 n)); [lia|]. apply Z.pow_le_mono_r; lia.
  - rewrite Nat2Z.inj_succ, Z2Nat.id by lia. lia.
Qed.
Lemma show_int_ten d : d <> 0 -> show_int (d * 10) = show_int d ++ ["0"%char].
Proof.
  intro H. unfold show_int. destruct (Z.ltb_spec d 0), (Z.ltb_spec (d * 10) 0); try lia.
  - replace (- (d * 10)) with (10 * - d) by ring. rewrite show_nat_ten by lia. reflexivity.
  - replace (d * 10) with (10 * d) by ring. apply show_nat_ten. lia.
Qed.
Lemma zeros_succ k : 0 <= k -> zeros (k + 1) = "0"%char :: zeros k.
Proof. intro H. unfold zeros. replace (Z.to_nat (k + 1)) with (S (Z.to_nat k)) by lia. reflexivity. Qed.
Lemma hash_ten d s : d <> 0 -> hash_text (Dec (d * 10) (s + 1)) = hash_text (Dec d s).
Proof.
  intro H. unfold hash_text. cbn [digits scale]. rewrite (show_int_ten d H).
  destruct (Z.eqb_spec (d * 10) 0), (Z.eqb_spec d 0); try lia.
  destruct (Z.ltb_spec 0 (s + 1)) as [A|A], (Z.ltb_spec 0 s) as [B|B]; try lia.
  - rewrite rev_app_distr. cbn [rev app]. replace (Z.to_nat (s + 1)) with (S (Z.to_nat s)) by lia. reflexivity.
  - assert (s = 0) as -> by lia. rewrite rev_app_distr. change (Z.to_nat (0 + 1)) with 1%nat. change (zeros (- 0)) with (@nil ascii).
    rewrite app_nil_r. cbn [rev app drop_zeros]. change (Ascii.eqb "0" "0") with true. cbn iota.
    rewrite <- (rev_involutive (show_int d)) at 2. reflexivity.
  - rewrite <- app_assoc. cbn [app]. replace (- s) with (- (s + 1) + 1) by lia. rewrite zeros_succ by lia. reflexivity.
Qed.
Lemma hash_shift d s k : d <> 0 -> 0 <= k -> hash_text (Dec (d * 10 ^ k) (s + k)) = hash_text (Dec d s).
Proof.
  intros H K. revert k K. apply natlike_ind.
  - rewrite Z.mul_1_r, Z.add_0_r. reflexivity.
  - intros k K IH. rewrite <- IH. rewrite Z.pow_succ_r by exact K. replace (d * (10 * 10 ^ k)) with (d * 10 ^ k * 10) by ring.
    replace (s + Z.succ k) with (s + k + 1) by lia. apply hash_ten. assert (0 < 10 ^ k) by (apply Z.pow_pos_nonneg; lia). nia.
Qed.
