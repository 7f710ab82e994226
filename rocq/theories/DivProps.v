(** C60: dividing an amount by a count.  C61: equal amounts have equal hashes. *)
From Coq Require Import ZArith NArith QArith Qabs Qround Ascii String List Bool Lia.
From Verif Require Import ValueModel ValueSpec ValueProofs DivModel DivProofs.
From Verif Require ThermoModel.
Import ListNotations.
Open Scope Q_scope.

(** the exact quotient *)
Definition quotient (v : dec) (n : N) : Q := amount v / inject_Z (Z.of_N n).

(** it panics exactly on a division by zero *)
Theorem C60_panics v n : dec_div v n = None <-> n = 0%N.
Proof.
  unfold dec_div. destruct (Z.eqb_spec (Z.of_N n) 0) as [E|E].
  - split; [intros _; lia|reflexivity].
  - split; [|lia]. intro H. exfalso. revert H. cbn zeta. destruct ((digits v =? 0)%Z || (Z.of_N n =? 1)%Z); [discriminate|].
    destruct (digits v =? Z.of_N n)%Z; [discriminate|]. destruct (digits v <? 0)%Z; discriminate.
Qed.

(** the result is the nearest number with its decimals, and if it is not the exact quotient then it has at least a hundred
    significant digits *)
Theorem C60_nearest v n r : dec_div v n = Some r ->
  Qabs (amount r - quotient v n) <= (1 # 2) * pow10 (- scale r) /\
  (amount r == quotient v n \/ (10 ^ 99 <= Z.abs (digits r))%Z).
Proof.
  intro H. destruct (dec_div_spec v n r H) as (Hd & j & J & Sc & Sg & C).
  assert (K : (2 * Z.abs (digits r * Z.of_N n - digits v * 10 ^ j) <= Z.of_N n)%Z).
  { apply div_error; [exact Hd|exact Sg|]. destruct C as [[C _]|(_ & _ & _ & C)]; [left|right]; exact C. }
  remember (Z.of_N n) as den eqn:Eden.
  assert (Nd : ~ inject_Z den == 0) by (intro G; apply (inject_Z_inj den 0) in G; lia).
  split.
  - assert (E : amount r - quotient v n == inject_Z (digits r * den - digits v * 10 ^ j) / inject_Z den * pow10 (- scale r)).
    { unfold quotient. rewrite <- Eden. rewrite (amount_alt r), (amount_alt v). unfold Z.sub. rewrite inject_Z_plus, inject_Z_opp, !inject_Z_mult.
      rewrite (pow10_Z j J). assert (P : pow10 (- scale v) == pow10 j * pow10 (- scale r)).
      { rewrite <- pow10_plus. replace (j + - scale r)%Z with (- scale v)%Z by lia. reflexivity. }
      rewrite P. field. exact Nd. }
    rewrite E, Qabs_Qmult. assert (P := pow10_pos (- scale r)). rewrite (Qabs_pos (pow10 _)) by (apply Qlt_le_weak; exact P).
    apply Qmult_le_compat_r; [|apply Qlt_le_weak; exact P].
    unfold Qdiv. rewrite Qabs_Qmult. assert (Pd : 0 < inject_Z den) by (change 0 with (inject_Z 0); rewrite <- Zlt_Qlt; exact Hd).
    assert (Pi : 0 < / inject_Z den) by (apply Qinv_lt_0_compat; exact Pd).
    rewrite (Qabs_pos (/ _)) by (apply Qlt_le_weak; exact Pi).
    apply (Qmult_lt_0_le_reg_r _ _ (2 * inject_Z den)).
    { setoid_replace 0 with (2 * 0) by reflexivity. apply Qmult_lt_l; [reflexivity|exact Pd]. }
    clear E. revert K. generalize (digits r * den - digits v * 10 ^ j)%Z. intros y K.
    assert (Ey : Qabs (inject_Z y) == inject_Z (Z.abs y)) by reflexivity. rewrite Ey.
    assert (L : inject_Z (Z.abs y) * / inject_Z den * (2 * inject_Z den) == inject_Z (2 * Z.abs y)).
    { rewrite inject_Z_mult. change (inject_Z 2) with 2. field. exact Nd. }
    rewrite L. assert (R : (1 # 2) * (2 * inject_Z den) == inject_Z den) by (field). rewrite R. rewrite <- Zle_Qle. exact K.
  - destruct C as [[C _]|(_ & C2 & _ & C4)].
    + left. symmetry. unfold quotient. rewrite <- Eden. destruct v as [p a], r as [q b]. cbn [digits scale] in *.
      apply (quotient_eq p a q b den b Hd); [lia|lia|]. replace (b - a)%Z with j by lia. rewrite Z.sub_diag, Z.pow_0_r. lia.
    + right. rewrite C4. clear - C2. destruct (_ <=? _)%Z; lia.
Qed.

(** a quotient that a hundred digits can write is found exactly *)
Theorem C60_exact v n r d s : dec_div v n = Some r -> quotient v n == amount (Dec d s) -> (Z.abs d < 10 ^ 100)%Z ->
  amount r == quotient v n.
Proof.
  intros H E B. destruct (dec_div_spec v n r H) as (Hd & j & J & Sc & Sg & C).
  destruct C as [[C _]|(C1 & C2 & _ & _)].
  { symmetry. unfold quotient. destruct v as [p a], r as [q b]. cbn [digits scale] in *.
    apply (quotient_eq p a q b _ b Hd); [lia|lia|]. replace (b - a)%Z with j by lia. rewrite Z.sub_diag, Z.pow_0_r. lia. }
  exfalso. unfold quotient in E. destruct v as [p a], r as [q b]. cbn [digits scale] in *. clear H Sg.
  remember (Z.of_N n) as den. clear Heqden n. destruct (Z.le_gt_cases s b) as [L|L].
  - apply (quotient_eq p a d s den b Hd ltac:(lia) L) in E. replace (b - a)%Z with j in E by lia. apply C1.
    assert (E2 : (Z.abs p * 10 ^ j = Z.abs d * 10 ^ (b - s) * den)%Z).
    { assert (P1 : (0 < 10 ^ j)%Z) by (apply Z.pow_pos_nonneg; lia). assert (P2 : (0 < 10 ^ (b - s))%Z) by (apply Z.pow_pos_nonneg; lia).
      rewrite <- (Z.abs_eq (10 ^ j)), <- (Z.abs_eq (10 ^ (b - s))), <- (Z.abs_eq den) by lia. rewrite <- !Z.abs_mul, E. f_equal. ring. }
    rewrite E2. apply Z.mod_mul. lia.
  - apply (quotient_eq p a d s den s Hd ltac:(lia) ltac:(lia)) in E. rewrite Z.sub_diag, Z.pow_0_r, Z.mul_1_r in E.
    replace (s - a)%Z with (j + (s - b))%Z in E by lia. rewrite Z.pow_add_r in E by lia.
    assert (E2 : (Z.abs p * 10 ^ j * 10 ^ (s - b) = Z.abs d * den)%Z).
    { assert (P1 : (0 < 10 ^ j)%Z) by (apply Z.pow_pos_nonneg; lia). assert (P2 : (0 < 10 ^ (s - b))%Z) by (apply Z.pow_pos_nonneg; lia).
      rewrite <- (Z.abs_eq (10 ^ j)), <- (Z.abs_eq (10 ^ (s - b))), <- (Z.abs_eq den) by lia. rewrite <- !Z.abs_mul, <- E. f_equal. ring. }
    assert (P3 : (10 <= 10 ^ (s - b))%Z) by (change 10%Z with (10 ^ 1)%Z at 1; apply Z.pow_le_mono_r; lia).
    assert (D : (den * (Z.abs p * 10 ^ j / den) <= Z.abs p * 10 ^ j)%Z) by (apply Z.mul_div_le; lia).
    assert (T : (10 ^ 100 = 10 * 10 ^ 99)%Z) by reflexivity. rewrite T in B. clear T. assert (H0 : (0 <= 10 ^ 99)%Z) by discriminate.
    revert H0 E2 P3 D B C2. generalize (Z.abs p * 10 ^ j / den)%Z. generalize (Z.abs p * 10 ^ j)%Z, (10 ^ (s - b))%Z, (Z.abs d), (10 ^ 99)%Z. clear - Hd.
    intros N t dd h x H0 E2 P3 D B C2.
    assert (den * h <= N)%Z by (apply Z.le_trans with (den * x)%Z; [apply Z.mul_le_mono_nonneg_l; lia|exact D]).
    assert (dd * den < 10 * h * den)%Z by (apply Z.mul_lt_mono_pos_r; lia).
    assert (N * 10 <= N * t)%Z by (destruct (Z.le_gt_cases 0 N); [apply Z.mul_le_mono_nonneg_l; lia|assert (0 <= den * h)%Z by (apply Z.mul_nonneg_nonneg; lia); lia]).
    lia.
Qed.

(** dividing the opposite gives the opposite *)
Theorem C60_opposite v n : dec_div (dec_opp v) n = option_map dec_opp (dec_div v n).
Proof.
  assert (S : forall x s, (0 < x)%Z -> divide_pos x x s = Dec 1 s).
  { intros x s Hx. unfold divide_pos. cbn [shift_up]. destruct (Z.ltb_spec x x); [lia|]. rewrite Z.div_same, Z.mod_same by lia. reflexivity. }
  unfold dec_div, dec_opp. cbn [digits scale]. destruct (Z.eqb_spec (Z.of_N n) 0); [reflexivity|].
  destruct (Z.eqb_spec (digits v) 0) as [E|E], (Z.eqb_spec (- digits v) 0) as [F|F]; try lia; cbn [orb]; [reflexivity|].
  destruct (Z.eqb_spec (Z.of_N n) 1); [reflexivity|].
  destruct (Z.eqb_spec (- digits v) (Z.of_N n)) as [A|A], (Z.eqb_spec (digits v) (Z.of_N n)) as [B|B]; try lia;
  destruct (Z.ltb_spec (- digits v) 0), (Z.ltb_spec (digits v) 0); try lia; cbn [option_map]; rewrite ?Z.opp_involutive;
    rewrite <- ?A, <- ?B, ?S by lia; try reflexivity.
  f_equal. cbn [digits scale]. destruct (divide_pos _ _ _). cbn. rewrite Z.opp_involutive. reflexivity.
Qed.

(** how an amount is written makes no difference, up to a hundred digits *)
Theorem C60_same_amount v w n r r' : dec_div v n = Some r -> dec_div w n = Some r' -> amount v == amount w ->
  (Z.abs (digits v) < 10 ^ 100)%Z -> (Z.abs (digits w) < 10 ^ 100)%Z -> amount r == amount r'.
Proof.
  intros H H' E Bv Bw.
  assert (Eq : quotient v n == quotient w n) by (unfold quotient; rewrite E; reflexivity).
  destruct (dec_div_spec v n r H) as (Hd & j & J & Sc & Sg & C). destruct (dec_div_spec w n r' H') as (_ & j' & J' & Sc' & Sg' & C').
  assert (X : forall u x i, dec_div u n = Some x -> (0 <= i)%Z -> scale x = (scale u + i)%Z -> (digits x * Z.of_N n = digits u * 10 ^ i)%Z -> amount x == quotient u n).
  { intros u x i _ I0 S0 D0. symmetry. unfold quotient. destruct u as [p a], x as [q b]. cbn [digits scale] in *.
    apply (quotient_eq p a q b _ b Hd); [lia|lia|]. replace (b - a)%Z with i by lia. rewrite Z.sub_diag, Z.pow_0_r. lia. }
  destruct C as [[C B]|(C1 & C2 & C3 & C4)].
  { assert (A := X v r j H J Sc C). rewrite A, Eq. symmetry. destruct r as [q b]. apply (C60_exact w n r' q b H'); [|exact (B Bv)].
    rewrite <- Eq, <- A. reflexivity. }
  destruct C' as [[C' B']|(C1' & C2' & C3' & C4')].
  { assert (A := X w r' j' H' J' Sc' C'). rewrite A, <- Eq. destruct r' as [q b]. apply (C60_exact v n r q b H); [|exact (B' Bw)].
    rewrite Eq, <- A. reflexivity. }
  clear X. specialize (C3 Bv). specialize (C3' Bw).
  remember (Z.of_N n) as den eqn:Eden.
  (* both at the decimals of the results *)
  assert (Y : forall u u' x x' i i', amount u == amount u' -> (0 <= i)%Z -> (0 <= i')%Z -> scale x = (scale u + i)%Z -> scale x' = (scale u' + i')%Z ->
    (scale x <= scale x')%Z -> (digits u' * 10 ^ i' = digits u * 10 ^ i * 10 ^ (scale x' - scale x))%Z).
  { intros u u' x x' i i' Eu I0 I1 S0 S1 Le. apply inject_Z_inj. rewrite !inject_Z_mult, !pow10_Z by lia.
    rewrite (amount_alt u), (amount_alt u') in Eu. apply (Qmult_inj_r _ _ (pow10 (- scale u' - i'))).
    { intro G. assert (P := pow10_pos (- scale u' - i')). rewrite G in P. discriminate P. }
    rewrite <- !Qmult_assoc, <- !pow10_plus. replace (i' + (- scale u' - i'))%Z with (- scale u')%Z by lia.
    replace (i + (scale x' - scale x + (- scale u' - i')))%Z with (- scale u)%Z by lia. symmetry. exact Eu. }
  assert (Ab : forall a i, (0 <= i)%Z -> (Z.abs (a * 10 ^ i) = Z.abs a * 10 ^ i)%Z).
  { intros a i I0. rewrite Z.abs_mul, (Z.abs_eq (10 ^ i)); [reflexivity|]. apply Z.pow_nonneg. lia. }
  assert (Big : forall N N' t, (1 <= t)%Z -> N' = (N * 10 ^ t)%Z -> (10 ^ 99 <= N / den)%Z -> (N' / den < 10 ^ 100)%Z -> False).
  { intros N N' t T -> G1 G2. assert (T10 : (10 * 10 ^ 99 <= N * 10 ^ t / den)%Z).
    { apply Z.div_le_lower_bound; [lia|]. assert (D : (den * (N / den) <= N)%Z) by (apply Z.mul_div_le; lia).
      assert (P3 : (10 <= 10 ^ t)%Z) by (change 10%Z with (10 ^ 1)%Z at 1; apply Z.pow_le_mono_r; lia).
      assert (H0 : (0 <= 10 ^ 99)%Z) by discriminate. revert H0 D P3 G1. clear - Hd. generalize (10 ^ 99)%Z, (N / den)%Z, (10 ^ t)%Z.
      intros h x p H0 D P3 G1. assert (den * h <= N)%Z by (apply Z.le_trans with (den * x)%Z; [apply Z.mul_le_mono_nonneg_l; lia|exact D]).
      assert (0 <= den * h)%Z by (apply Z.mul_nonneg_nonneg; lia).
      assert (N * 10 <= N * p)%Z by (apply Z.mul_le_mono_nonneg_l; lia). lia. }
    assert (Tn : (10 ^ 100 = 10 * 10 ^ 99)%Z) by reflexivity. rewrite Tn in G2. clear Tn. revert T10 G2. generalize (10 ^ 99)%Z. intros. lia. }
  rewrite <- Ab in * by assumption.
  destruct (Z.lt_trichotomy (scale r) (scale r')) as [L|[L|L]].
  - exfalso. specialize (Y v w r r' j j' E J J' Sc Sc' ltac:(lia)). apply (Big (Z.abs (digits v * 10 ^ j)) (Z.abs (digits w * 10 ^ j')) (scale r' - scale r)%Z); auto; [lia|].
    rewrite Y, Ab by lia. reflexivity.
  - specialize (Y v w r r' j j' E J J' Sc Sc' ltac:(lia)). rewrite L, Z.sub_diag, Z.pow_0_r, Z.mul_1_r in Y.
    rewrite Y in C4'. assert (Ed : Z.abs (digits r) = Z.abs (digits r')) by (rewrite C4, C4'; reflexivity).
    assert (Es : Z.sgn (digits r) = Z.sgn (digits r')).
    { rewrite Sg, Sg'. apply (f_equal Z.sgn) in Y. rewrite !Z.sgn_mul in Y. rewrite !(Z.sgn_pos (10 ^ _)) in Y by (apply Z.pow_pos_nonneg; lia). rewrite !Z.mul_1_r in Y. symmetry. exact Y. }
    assert (digits r = digits r') as Er by (rewrite <- (Z.abs_sgn (digits r)), <- (Z.abs_sgn (digits r')), Ed, Es; reflexivity).
    rewrite !amount_alt, Er, L. reflexivity.
  - exfalso. symmetry in E. specialize (Y w v r' r j' j E J' J Sc' Sc ltac:(lia)). apply (Big (Z.abs (digits w * 10 ^ j')) (Z.abs (digits v * 10 ^ j)) (scale r - scale r')%Z); auto; [lia|].
    rewrite Y, Ab by lia. reflexivity.
Qed.

(** with more digits it can make a difference: 2 * 10^120 and 2 * 10^121 tenths, divided by three *)
Theorem C60_same_amount_refuted : exists v w n r r', dec_div v n = Some r /\ dec_div w n = Some r' /\ amount v == amount w /\ ~ amount r == amount r'.
Proof.
  set (v := Dec (2 * 10 ^ 120) 0). set (w := Dec (2 * 10 ^ 121) 1).
  destruct (dec_div v 3) as [r|] eqn:E; [|apply C60_panics in E; discriminate].
  destruct (dec_div w 3) as [r'|] eqn:E'; [|apply C60_panics in E'; discriminate].
  exists v, w, 3%N, r, r'. split; [exact E|]. split; [exact E'|]. split; [vm_compute; reflexivity|].
  vm_compute in E, E'. injection E as <-. injection E' as <-. vm_compute. discriminate.
Qed.

(** comparing an amount with the n-th part of another one, as the thermostat does, decides exactly as without rounding *)
Theorem C60_threshold v n r w : dec_div v n = Some r -> (Z.abs (digits v) < 10 ^ 99)%Z -> (scale w <= scale v)%Z ->
  dec_ltb r w = true <-> quotient v n < amount w.
Proof.
  intros H B Sw. destruct (dec_div_spec v n r H) as (Hd & j & J & Sc & Sg & C).
  assert (K : (2 * Z.abs (digits r * Z.of_N n - digits v * 10 ^ j) <= Z.of_N n)%Z).
  { apply div_error; [exact Hd|exact Sg|]. destruct C as [[C _]|(_ & _ & _ & C)]; [left|right]; exact C. }
  rewrite dec_ltb_correct. unfold quotient.
  remember (Z.of_N n) as den eqn:Eden.
  assert (A : amount r < amount w <-> (digits r < digits w * 10 ^ (scale r - scale w))%Z).
  { assert (Q := quotient_lt (digits r) (scale r) (digits w) (scale w) 1 (scale r) ltac:(lia) ltac:(lia) ltac:(lia)).
    destruct r as [q b], w as [y c]. cbn [digits scale] in *. rewrite Z.sub_diag, Z.pow_0_r, !Z.mul_1_r in Q. rewrite <- Q.
    setoid_replace (amount (Dec q b) / inject_Z 1) with (amount (Dec q b)) by (change (inject_Z 1) with 1; field). reflexivity. }
  rewrite A. assert (Q := quotient_lt (digits v) (scale v) (digits w) (scale w) den (scale v) Hd ltac:(lia) Sw).
  destruct v as [p a], r as [q b], w as [y c]. cbn [digits scale] in *. rewrite Q, Z.sub_diag, Z.pow_0_r, Z.mul_1_r. clear Q A.
  replace (b - c)%Z with (a - c + j)%Z by lia. rewrite Z.pow_add_r by lia. rewrite (Z.mul_assoc y). replace (y * den * 10 ^ (a - c))%Z with (y * 10 ^ (a - c) * den)%Z by ring.
  assert (P1 : (0 < 10 ^ j)%Z) by (apply Z.pow_pos_nonneg; lia).
  assert (D : (q * den = p * 10 ^ j)%Z \/ (den < 10 ^ j)%Z).
  { destruct C as [[C _]|(C1 & C2 & _ & _)]; [left; exact C|right].
    assert (D : (den * (Z.abs p * 10 ^ j / den) <= Z.abs p * 10 ^ j)%Z) by (apply Z.mul_div_le; lia).
    assert (H0 : (0 < 10 ^ 99)%Z) by reflexivity.
    revert B C2 D P1 H0. clear - Hd. generalize (Z.abs p * 10 ^ j / den)%Z. generalize (10 ^ j)%Z, (10 ^ 99)%Z. assert (0 <= Z.abs p)%Z by apply Z.abs_nonneg. revert H. generalize (Z.abs p).
    intros x X0 t h z B C2 D P1 H0. destruct (Z.le_gt_cases t den) as [L|L]; [exfalso|exact L].
    assert (den * h <= den * z)%Z by (apply Z.mul_le_mono_nonneg_l; lia).
    assert (x * t <= x * den)%Z by (apply Z.mul_le_mono_nonneg_l; lia).
    assert (x * den < h * den)%Z by (apply Z.mul_lt_mono_pos_r; lia). lia. }
  revert K P1 D. clear - Hd. generalize (y * 10 ^ (a - c))%Z, (10 ^ j)%Z. intros X t K P1 D.
  destruct D as [D|D].
  - rewrite (Z.mul_lt_mono_pos_r den q (X * t)) by exact Hd. rewrite D. replace (X * t * den)%Z with (X * den * t)%Z by ring. symmetry. apply Z.mul_lt_mono_pos_r, P1.
  - split; intro L.
    + destruct (Z.le_gt_cases (X * den) p) as [G|G]; [exfalso|exact G].
      assert (X * den * t <= p * t)%Z by (apply Z.mul_le_mono_nonneg_r; lia).
      assert (q * den <= (X * t - 1) * den)%Z by (apply Z.mul_le_mono_nonneg_r; lia). lia.
    + destruct (Z.le_gt_cases (X * t) q) as [G|G]; [exfalso|exact G].
      assert ((p + 1) * t <= X * den * t)%Z by (apply Z.mul_le_mono_nonneg_r; lia).
      assert (X * t * den <= q * den)%Z by (apply Z.mul_le_mono_nonneg_r; lia). lia.
Qed.

(** hence the test of thermostat.rs:421 and 450, on amounts with k decimals, is [total <? x * n] *)
Theorem C60_thermostat_pivot total k n x r : dec_div (Dec total k) n = Some r -> (Z.abs total < 10 ^ 99)%Z ->
  dec_ltb r (Dec x k) = (total <? x * Z.of_N n)%Z.
Proof.
  intros H B. destruct (dec_div_spec _ n r H) as (Hd & _).
  assert (T := C60_threshold (Dec total k) n r (Dec x k) H B ltac:(cbn; lia)). unfold quotient in T.
  rewrite (quotient_lt total k x k _ k Hd ltac:(lia) ltac:(lia)), Z.sub_diag, Z.pow_0_r, !Z.mul_1_r in T.
  destruct (dec_ltb r (Dec x k)); symmetry.
  - apply Z.ltb_lt, T. reflexivity.
  - apply Z.ltb_ge. destruct (Z.le_gt_cases (x * Z.of_N n) total) as [L|L]; [exact L|]. apply T in L. discriminate L.
Qed.

(** and (x / 2).truncate() of thermostat.rs:422-427 and 452-453 is the model's [half] *)
Theorem C60_thermostat_half v k r : (0 <= k)%Z -> (Z.abs v < 10 ^ 99)%Z -> dec_div (Dec v k) 2 = Some r ->
  amount (truncate r) == amount (Dec (ThermoModel.half (10 ^ k) v) k).
Proof.
  intros Hk B H. assert (E : amount r == quotient (Dec v k) 2).
  { apply (C60_exact (Dec v k) 2 r (v * 5) (k + 1) H).
    - unfold quotient. apply (quotient_eq v k (v * 5) (k + 1) 2 (k + 1)); [lia|lia|lia|]. replace (k + 1 - k)%Z with 1%Z by lia. rewrite Z.sub_diag. change (10 ^ 0)%Z with 1%Z. change (10 ^ 1)%Z with 10%Z. lia.
    - rewrite Z.abs_mul. change (Z.abs 5) with 5%Z. assert (T : (10 ^ 100 = 10 * 10 ^ 99)%Z) by reflexivity. rewrite T. revert B. assert (H0 : (0 < 10 ^ 99)%Z) by reflexivity. revert H0. generalize (10 ^ 99)%Z. intros. lia. }
  assert (Pk : (0 < 10 ^ k)%Z) by (apply Z.pow_pos_nonneg; lia).
  assert (Ev : amount (Dec v k) == inject_Z v / inject_Z (10 ^ k)).
  { rewrite pow10_Z by exact Hk. rewrite <- (amount_dec_scale v k). field. intro G. assert (P := pow10_pos k). rewrite G in P. discriminate P. }
  assert (Eq : quotient (Dec v k) 2 == inject_Z v / inject_Z (2 * 10 ^ k)).
  { unfold quotient. rewrite Ev, inject_Z_mult. change (inject_Z (Z.of_N 2)) with 2. change (inject_Z 2) with 2. field.
    intro G. apply (inject_Z_inj _ 0) in G. lia. }
  assert (Eh : amount (Dec (ThermoModel.half (10 ^ k) v) k) == inject_Z (if (v <? 2 * 10 ^ k)%Z then 0 else v / (2 * 10 ^ k))).
  { unfold ThermoModel.half. destruct (v <? 2 * 10 ^ k)%Z.
    - rewrite amount_alt. cbn [digits]. ring.
    - rewrite amount_alt. cbn [digits scale]. rewrite inject_Z_mult, pow10_Z by exact Hk. rewrite <- Qmult_assoc, pow10_opp_l. ring. }
  rewrite Eh. destruct (Z.lt_ge_cases v 0) as [L|L].
  - rewrite truncate_neg.
    + destruct (Z.ltb_spec v (2 * 10 ^ k)); [reflexivity|lia].
    + rewrite E, Eq. apply Qlt_shift_div_r; [change 0 with (inject_Z 0); rewrite <- Zlt_Qlt; lia|]. rewrite Qmult_0_l. change 0 with (inject_Z 0). rewrite <- Zlt_Qlt. exact L.
  - rewrite truncate_nonneg.
    + rewrite (Qfloor_comp _ _ E), (Qfloor_comp _ _ Eq). rewrite <- Zdiv_Qdiv. destruct (Z.ltb_spec v (2 * 10 ^ k)) as [G|G]; [|reflexivity].
      rewrite Z.div_small by lia. reflexivity.
    + rewrite E, Eq. apply Qle_shift_div_l; [change 0 with (inject_Z 0); rewrite <- Zlt_Qlt; lia|]. rewrite Qmult_0_l. change 0 with (inject_Z 0). rewrite <- Zle_Qle. exact L.
Qed.

(** n shares may together exceed the amount: two thirds, three times *)
Theorem C60_shares_refuted : exists v n r, dec_div v n = Some r /\ amount v < amount (v_mul_int r (Z.of_N n)).
Proof.
  destruct (dec_div (Dec 2 0) 3) as [r|] eqn:E; [|apply C60_panics in E; discriminate].
  exists (Dec 2 0), 3%N, r. split; [exact E|]. vm_compute in E. injection E as <-. vm_compute. reflexivity.
Qed.

(** ** C61 *)
(** equal amounts have equal hashes, whatever their decimals *)
Theorem C61_hash v w : amount v == amount w -> hash_text v = hash_text w.
Proof.
  intro E. assert (Z0 : forall u, amount u == 0 <-> digits u = 0%Z).
  { intro u. rewrite amount_alt. split.
    - intro G. apply Qmult_integral in G. destruct G as [G|G]; [apply (inject_Z_inj _ 0) in G; exact G|]. assert (P := pow10_pos (- scale u)). rewrite G in P. discriminate P.
    - intros ->. ring. }
  destruct (Z.eq_dec (digits v) 0) as [Ev|Ev].
  { assert (Ew : digits w = 0%Z) by (apply Z0; rewrite <- E; apply Z0; exact Ev). unfold hash_text. rewrite Ev, Ew. reflexivity. }
  assert (Ew : digits w <> 0%Z) by (intro G; apply Z0 in G; rewrite <- E in G; apply Z0 in G; auto).
  set (m := Z.max (scale v) (scale w)). assert (Lv : (scale v <= m)%Z) by (unfold m; lia). assert (Lw : (scale w <= m)%Z) by (unfold m; lia). clearbody m.
  assert (R : (digits v * 10 ^ (m - scale v) = digits w * 10 ^ (m - scale w))%Z).
  { apply inject_Z_inj. assert (A := amount_rescale m v Lv). assert (B := amount_rescale m w Lw). unfold rescale in A, B. rewrite A, B, E. reflexivity. }
  destruct v as [d s], w as [d' s']. cbn [digits scale] in *.
  rewrite <- (hash_shift d s (m - s) Ev) by lia. rewrite <- (hash_shift d' s' (m - s') Ew) by lia. rewrite R. f_equal. f_equal. lia.
Qed.
(** amounts that differ may share a hash: the decimal point is left out *)
Theorem C61_hash_point : hash_text (Dec 15 1) = hash_text (Dec 15 0) /\ ~ amount (Dec 15 1) == amount (Dec 15 0).
Proof. split; [reflexivity|]. vm_compute. discriminate. Qed.

(** ** The unit of a converted amount *)
(** an amount in the smallest unit, converted to whole coins and back, is the same amount in the same unit: for lovelace and
    wei *)
Theorem C01_tag_round_trip u v t : u = Lovelace \/ u = Wei -> to_coin (u, v) = Some t ->
  exists t', to_base t = Some t' /\ fst t' = u /\ amount (snd t') == amount v.
Proof.
  intros [-> | ->] H; injection H as <-; eexists; (split; [reflexivity|]); (split; [reflexivity|]); cbn [snd fst].
  - unfold to_lovelace, to_ada. rewrite !amount_vscale, <- Qmult_assoc, <- pow10_plus. change (_ + _)%Z with 0%Z. rewrite pow10_0. ring.
  - unfold to_wei, to_ether. rewrite !amount_vscale, <- Qmult_assoc, <- pow10_plus. change (_ + _)%Z with 0%Z. rewrite pow10_0. ring.
Qed.
(** an amount of microalgos comes back as wei, 10^12 times as large *)
Theorem C01_tag_round_trip_refuted v : exists t t', to_coin (MicroAlgo, v) = Some t /\ to_base t = Some t' /\
  fst t' = Wei /\ amount (snd t') == pow10 12 * amount v.
Proof.
  eexists _, _. split; [reflexivity|]. split; [reflexivity|]. split; [reflexivity|]. cbn [snd fst].
  unfold to_wei, to_algo. rewrite !amount_vscale, <- Qmult_assoc, <- pow10_plus. change (_ + _)%Z with 12%Z. ring.
Qed.

(** ** Non-vacuity *)
Example ex_third : option_map (fun r => (digits r mod 10, scale r)%Z) (dec_div (Dec 2 0) 3) = Some (7, 100)%Z.
Proof. vm_compute. reflexivity. Qed.
Example ex_exact : dec_div (Dec 1 0) 8 = Some (Dec 125 3) /\ dec_div (Dec (-1) 0) 8 = Some (Dec (-125) 3).
Proof. split; vm_compute; reflexivity. Qed.
Example ex_pivot : exists r, dec_div (Dec 1000000 6) 7 = Some r /\ dec_ltb r (Dec 142857 6) = false /\ dec_ltb r (Dec 142858 6) = true.
Proof.
  destruct (dec_div (Dec 1000000 6) 7) as [r|] eqn:E; [|apply C60_panics in E; discriminate].
  exists r. split; [reflexivity|]. rewrite !(C60_thermostat_pivot 1000000 6 7 _ r E eq_refl). split; reflexivity.
Qed.
Example ex_half : exists r, dec_div (Dec 5000001 6) 2 = Some r /\ amount (truncate r) == 2.
Proof.
  destruct (dec_div (Dec 5000001 6) 2) as [r|] eqn:E; [|apply C60_panics in E; discriminate].
  exists r. split; [reflexivity|]. rewrite (C60_thermostat_half 5000001 6 r ltac:(lia) eq_refl E). vm_compute. reflexivity.
Qed.
Example ex_same : exists r r', dec_div (Dec 2 0) 3 = Some r /\ dec_div (Dec 2000 3) 3 = Some r' /\ amount r == amount r' /\ ~ amount r == quotient (Dec 2 0) 3.
Proof.
  destruct (dec_div (Dec 2 0) 3) as [r|] eqn:E; [|apply C60_panics in E; discriminate].
  destruct (dec_div (Dec 2000 3) 3) as [r'|] eqn:E'; [|apply C60_panics in E'; discriminate].
  exists r, r'. split; [reflexivity|]. split; [reflexivity|]. split; [exact (C60_same_amount _ _ _ _ _ E E' eq_refl eq_refl eq_refl)|].
  vm_compute in E. injection E as <-. vm_compute. discriminate.
Qed.
Example ex_hash : hash_text (Dec 1500 3) = hash_text (Dec 15 1) /\ hash_text (Dec 15 (-2)) = hash_text (Dec 1500 0).
Proof. split; apply C61_hash; vm_compute; reflexivity. Qed.

Definition all_div := (@C60_panics, @C60_nearest, @C60_exact, @C60_opposite, @C60_same_amount, @C60_same_amount_refuted, @C60_threshold,
  @C60_thermostat_pivot, @C60_thermostat_half, @C60_shares_refuted, @C61_hash, @C61_hash_point, @C01_tag_round_trip, @C01_tag_round_trip_refuted).
Print Assumptions all_div.
