From Coq Require Import ZArith QArith Qround Qpower Ascii String List Bool Lia Lqa.
From Verif Require Import ValueModel ValueSpec.
Import ListNotations.
Open Scope Z_scope.

Lemma ten_nz : ~ (inject_Z 10 == 0)%Q.
Proof. intro H. discriminate H. Qed.

Lemma pow10_plus a b : (pow10 (a + b) == pow10 a * pow10 b)%Q.
Proof. apply Qpower_plus. exact ten_nz. Qed.

Lemma pow10_pos a : (0 < pow10 a)%Q.
Proof. apply Qpower_0_lt. reflexivity. Qed.

Lemma pow10_Z n : 0 <= n -> (inject_Z (10 ^ n) == pow10 n)%Q.
Proof. intro H. unfold pow10. rewrite Zpower_Qpower by exact H. reflexivity. Qed.

Lemma pow10_0 : (pow10 0 == 1)%Q.
Proof. reflexivity. Qed.

Lemma pow10_opp_l a : (pow10 a * pow10 (- a) == 1)%Q.
Proof. rewrite <- pow10_plus. replace (a + - a) with 0 by lia. reflexivity. Qed.

Lemma amount_alt v : (amount v == inject_Z (digits v) * pow10 (- scale v))%Q.
Proof. reflexivity. Qed.

Lemma amount_mul x y : (amount (dec_mul x y) == amount x * amount y)%Q.
Proof.
  rewrite !amount_alt. unfold dec_mul; cbn [digits scale].
  rewrite inject_Z_mult. replace (- (scale x + scale y)) with (- scale x + - scale y) by lia.
  rewrite pow10_plus. ring.
Qed.

Lemma amount_rescale s x : scale x <= s -> (inject_Z (rescale s x) == amount x * pow10 s)%Q.
Proof.
  intro H. unfold rescale. rewrite inject_Z_mult, pow10_Z by lia.
  rewrite amount_alt. replace (s - scale x) with (- scale x + s) by lia.
  rewrite pow10_plus. ring.
Qed.

Lemma amount_dec_scale d s : (amount (Dec d s) * pow10 s == inject_Z d)%Q.
Proof.
  rewrite amount_alt; cbn [digits scale].
  rewrite <- Qmult_assoc, (Qmult_comm (pow10 (- s))), pow10_opp_l. ring.
Qed.

Lemma Qmult_cancel_pow10 s x y : (x * pow10 s == y * pow10 s)%Q -> (x == y)%Q.
Proof.
  intro H. apply (Qmult_inj_r x y (pow10 s)); [|exact H].
  intro E. pose proof (pow10_pos s) as P. rewrite E in P. discriminate P.
Qed.

Lemma amount_add x y : (amount (dec_add x y) == amount x + amount y)%Q.
Proof.
  unfold dec_add. set (s := Z.max (scale x) (scale y)).
  apply (Qmult_cancel_pow10 s). rewrite amount_dec_scale, inject_Z_plus.
  rewrite !amount_rescale by (subst s; lia). ring.
Qed.

Lemma amount_sub x y : (amount (dec_sub x y) == amount x - amount y)%Q.
Proof.
  unfold dec_sub. set (s := Z.max (scale x) (scale y)).
  apply (Qmult_cancel_pow10 s). rewrite amount_dec_scale.
  unfold Z.sub. rewrite inject_Z_plus, inject_Z_opp.
  rewrite !amount_rescale by (subst s; lia). ring.
Qed.

Lemma dec_cmp_correct x y : dec_cmp x y = (amount x ?= amount y)%Q.
Proof.
  unfold dec_cmp. set (s := Z.max (scale x) (scale y)).
  pose proof (amount_rescale s x ltac:(subst s; lia)) as Hx.
  pose proof (amount_rescale s y ltac:(subst s; lia)) as Hy.
  pose proof (pow10_pos s) as Hp.
  destruct (Z.compare_spec (rescale s x) (rescale s y)) as [H|H|H]; symmetry.
  - apply Qeq_alt. apply (Qmult_cancel_pow10 s). rewrite <- Hx, <- Hy, H. reflexivity.
  - apply Qlt_alt. rewrite Zlt_Qlt in H. rewrite Hx, Hy in H.
    apply Qmult_lt_r in H; assumption.
  - apply Qgt_alt. rewrite Zlt_Qlt in H. rewrite Hx, Hy in H.
    apply Qmult_lt_r in H; assumption.
Qed.

Lemma dec_eqb_correct x y : dec_eqb x y = true <-> (amount x == amount y)%Q.
Proof.
  unfold dec_eqb. rewrite dec_cmp_correct. rewrite Qeq_alt.
  destruct (amount x ?= amount y)%Q; split; congruence.
Qed.

Lemma dec_ltb_correct x y : dec_ltb x y = true <-> (amount x < amount y)%Q.
Proof.
  unfold dec_ltb. rewrite dec_cmp_correct. rewrite Qlt_alt.
  destruct (amount x ?= amount y)%Q; split; congruence.
Qed.

Lemma amount_vscale v s : (amount (vscale v s) == amount v * pow10 (- s))%Q.
Proof.
  unfold vscale. rewrite amount_mul. rewrite (amount_alt (dec_new 1 s)).
  cbn [dec_new digits scale]. ring.
Qed.

Lemma vscale_vscale v s : (amount (vscale (vscale v s) (- s)) == amount v)%Q.
Proof.
  rewrite !amount_vscale. rewrite <- Qmult_assoc, pow10_opp_l. ring.
Qed.

Lemma vscale_vscale' v s : (amount (vscale (vscale v (- s)) s) == amount v)%Q.
Proof.
  rewrite !amount_vscale. rewrite <- Qmult_assoc, (Qmult_comm (pow10 (- - s))).
  rewrite pow10_opp_l. ring.
Qed.

Lemma vscale_cmp x y s : dec_cmp (vscale x s) (vscale y s) = dec_cmp x y.
Proof.
  rewrite !dec_cmp_correct. rewrite !amount_vscale.
  pose proof (pow10_pos (- s)) as Hp.
  destruct (amount x ?= amount y)%Q eqn:E.
  - apply Qeq_alt in E. apply Qeq_alt. rewrite E. reflexivity.
  - apply Qlt_alt in E. apply Qlt_alt. apply Qmult_lt_r; assumption.
  - apply Qgt_alt in E. apply Qgt_alt. apply Qmult_lt_r; assumption.
Qed.

Lemma vscale_add x y s :
  (amount (vscale (dec_add x y) s) == amount (dec_add (vscale x s) (vscale y s)))%Q.
Proof. rewrite amount_add, !amount_vscale, amount_add. ring. Qed.

Lemma vscale_sub x y s :
  (amount (vscale (dec_sub x y) s) == amount (dec_sub (vscale x s) (vscale y s)))%Q.
Proof. rewrite amount_sub, !amount_vscale, amount_sub. ring. Qed.

Lemma amount_sum_acc l acc :
  (amount (fold_left dec_add l acc) == amount acc + fold_right Qplus 0 (map amount l))%Q.
Proof.
  revert acc. induction l as [|x l IH]; intro acc; cbn [fold_left fold_right map].
  - ring.
  - rewrite IH, amount_add. ring.
Qed.

Lemma amount_sum l : (amount (v_sum l) == fold_right Qplus 0 (map amount l))%Q.
Proof.
  unfold v_sum. rewrite amount_sum_acc.
  assert (H : (amount (dec_of_Z 0) == 0)%Q) by reflexivity. rewrite H. ring.
Qed.

Lemma amount_mul_int v n : (amount (v_mul_int v n) == inject_Z n * amount v)%Q.
Proof. unfold v_mul_int. rewrite !amount_alt; cbn [digits scale]. rewrite inject_Z_mult. ring. Qed.

(** * Common scale: justification for modelling amounts by integers elsewhere *)
Definition units (k : Z) (v : dec) : Z := rescale k v.

Lemma units_amount k v : scale v <= k -> (inject_Z (units k v) == amount v * pow10 k)%Q.
Proof. apply amount_rescale. Qed.

Lemma inject_Z_inj a b : (inject_Z a == inject_Z b)%Q -> a = b.
Proof. unfold Qeq, inject_Z; simpl. lia. Qed.

Lemma units_add k x y : scale x <= k -> scale y <= k ->
  units k (dec_add x y) = units k x + units k y.
Proof.
  intros Hx Hy. apply inject_Z_inj. rewrite inject_Z_plus.
  rewrite !units_amount by (cbn; lia). rewrite amount_add. ring.
Qed.

Lemma units_sub k x y : scale x <= k -> scale y <= k ->
  units k (dec_sub x y) = units k x - units k y.
Proof.
  intros Hx Hy. apply inject_Z_inj. unfold Z.sub at 1. rewrite inject_Z_plus, inject_Z_opp.
  rewrite !units_amount by (cbn; lia). rewrite amount_sub. ring.
Qed.

Lemma units_cmp k x y : scale x <= k -> scale y <= k ->
  (units k x ?= units k y) = dec_cmp x y.
Proof.
  intros Hx Hy. rewrite dec_cmp_correct.
  pose proof (units_amount k x Hx) as Ex. pose proof (units_amount k y Hy) as Ey.
  pose proof (pow10_pos k) as Hp.
  destruct (Z.compare_spec (units k x) (units k y)) as [H|H|H]; symmetry.
  - apply Qeq_alt. apply (Qmult_cancel_pow10 k). rewrite <- Ex, <- Ey, H. reflexivity.
  - apply Qlt_alt. rewrite Zlt_Qlt in H. rewrite Ex, Ey in H. apply Qmult_lt_r in H; assumption.
  - apply Qgt_alt. rewrite Zlt_Qlt in H. rewrite Ex, Ey in H. apply Qmult_lt_r in H; assumption.
Qed.

(** * Text *)
Fixpoint dval (acc : Z) (ds : list Z) : Z :=
  match ds with [] => acc | d :: r => dval (acc * 10 + d) r end.
Definition is_digit (d : Z) : Prop := 0 <= d < 10.

Lemma char_digit_char d : is_digit d -> char_digit (digit_char d) = Some d.
Proof.
  intros [H0 H1].
  assert (d = 0 \/ d = 1 \/ d = 2 \/ d = 3 \/ d = 4 \/ d = 5 \/ d = 6 \/ d = 7 \/ d = 8 \/ d = 9) as C by lia.
  repeat (destruct C as [C|C]; [subst d; reflexivity|]). subst d; reflexivity.
Qed.

Lemma digit_char_not_dot d : is_digit d -> is_dot (digit_char d) = false.
Proof.
  intros [H0 H1].
  assert (d = 0 \/ d = 1 \/ d = 2 \/ d = 3 \/ d = 4 \/ d = 5 \/ d = 6 \/ d = 7 \/ d = 8 \/ d = 9) as C by lia.
  repeat (destruct C as [C|C]; [subst d; reflexivity|]). subst d; reflexivity.
Qed.

Definition sign_char (c : ascii) : bool := Ascii.eqb c "-" || Ascii.eqb c "+".
Lemma digit_char_not_sign d : is_digit d -> sign_char (digit_char d) = false.
Proof.
  intros [H0 H1].
  assert (d = 0 \/ d = 1 \/ d = 2 \/ d = 3 \/ d = 4 \/ d = 5 \/ d = 6 \/ d = 7 \/ d = 8 \/ d = 9) as C by lia.
  repeat (destruct C as [C|C]; [subst d; reflexivity|]). subst d; reflexivity.
Qed.

Lemma read_digits_map acc ds : Forall is_digit ds ->
  read_digits acc (map digit_char ds) = Some (dval acc ds).
Proof.
  intro H. revert acc. induction H as [|d ds Hd H IH]; intro acc; cbn [map read_digits dval]; [reflexivity|].
  rewrite char_digit_char by exact Hd. apply IH.
Qed.

Lemma dval_app acc a b : dval acc (a ++ b) = dval (dval acc a) b.
Proof. revert acc. induction a as [|d a IH]; intro acc; cbn [dval app]; [reflexivity|apply IH]. Qed.

Lemma dval_acc acc ds : dval acc ds = acc * 10 ^ Z.of_nat (length ds) + dval 0 ds.
Proof.
  revert acc. induction ds as [|d ds IH]; intro acc; cbn [dval length].
  - change (10 ^ Z.of_nat 0) with 1. lia.
  - rewrite IH, (IH (0 * 10 + d)). rewrite Nat2Z.inj_succ, Z.pow_succ_r by lia. ring.
Qed.

Lemma dval_bound ds : Forall is_digit ds -> 0 <= dval 0 ds < 10 ^ Z.of_nat (length ds).
Proof.
  induction 1 as [|d ds Hd H IH]; cbn [dval length].
  - change (10 ^ Z.of_nat 0) with 1. lia.
  - rewrite dval_acc. rewrite Nat2Z.inj_succ, Z.pow_succ_r by lia. unfold is_digit in Hd. nia.
Qed.

Lemma dval_repeat0 acc n : dval acc (repeat 0 n) = acc * 10 ^ Z.of_nat n.
Proof.
  rewrite dval_acc, repeat_length.
  assert (dval 0 (repeat 0 n) = 0) as ->; [|lia].
  induction n as [|n IH]; cbn [repeat dval]; auto.
Qed.

Lemma show_nat_aux_digits fuel n acc ds :
  0 <= n < 2 ^ Z.of_nat fuel -> (0 < fuel)%nat -> acc = map digit_char ds -> Forall is_digit ds ->
  exists es, show_nat_aux fuel n acc = map digit_char (es ++ ds) /\ Forall is_digit es /\
             dval 0 es = n /\ es <> [] /\ (n < 10 ^ (Z.of_nat (length es))) .
Proof.
  revert n acc ds. induction fuel as [|f IH]; intros n acc ds Hn Hf Hacc Hds; [lia|].
  cbn [show_nat_aux].
  assert (Hm : is_digit (n mod 10)) by (apply Z.mod_pos_bound; lia).
  destruct (Z.ltb_spec n 10) as [Hlt|Hge].
  - exists [n mod 10]. subst acc. cbn [app map]. split; [reflexivity|].
    split; [repeat constructor; apply Hm|]. cbn [dval length].
    rewrite Z.mod_small by lia. change (10 ^ Z.of_nat 1) with 10.
    repeat split; try lia; congruence.
  - assert (Hf2 : (0 < f)%nat).
    { destruct f; [|lia]. change (2 ^ Z.of_nat 1) with 2 in Hn. lia. }
    destruct (IH (n / 10) (digit_char (n mod 10) :: acc) ((n mod 10) :: ds)) as (es & E & Fd & V & NE & B).
    + rewrite Nat2Z.inj_succ, Z.pow_succ_r in Hn by lia.
      assert (n = 10 * (n / 10) + n mod 10) by (apply Z.div_mod; lia).
      unfold is_digit in Hm. split; [apply Z.div_pos; lia|]. lia.
    + exact Hf2.
    + subst acc. reflexivity.
    + constructor; assumption.
    + exists (es ++ [n mod 10]). rewrite <- app_assoc. cbn [app].
      split; [exact E|]. split; [apply Forall_app; split; [exact Fd|repeat constructor; apply Hm]|].
      rewrite dval_app, V. cbn [dval]. rewrite app_length. cbn [length].
      assert (n = 10 * (n / 10) + n mod 10) as En by (apply Z.div_mod; lia).
      split; [lia|]. split; [destruct es; cbn; congruence|].
      rewrite Nat2Z.inj_add, Z.pow_add_r by lia. change (10 ^ Z.of_nat 1) with 10.
      unfold is_digit in Hm. nia.
Qed.

Lemma show_nat_digits n : 0 <= n ->
  exists es, show_nat n = map digit_char es /\ Forall is_digit es /\ dval 0 es = n /\ es <> [].
Proof.
  intro Hn. unfold show_nat.
  destruct (show_nat_aux_digits (S (Z.to_nat (Z.log2 n))) n [] []) as (es & E & Fd & V & NE & _).
  - split; [exact Hn|]. rewrite Nat2Z.inj_succ, Z2Nat.id by apply Z.log2_nonneg.
    destruct (Z.eq_dec n 0) as [->|Hz]; [reflexivity|].
    apply Z.log2_spec. lia.
  - lia.
  - reflexivity.
  - constructor.
  - exists es. rewrite app_nil_r in E. auto.
Qed.

Lemma zeros_map n : zeros n = map digit_char (repeat 0 (Z.to_nat n)).
Proof. unfold zeros. induction (Z.to_nat n) as [|k IH]; cbn [repeat map]; [reflexivity|]. rewrite IH. reflexivity. Qed.

Lemma repeat0_digits n : Forall is_digit (repeat 0 n).
Proof. induction n as [|n IH]; cbn [repeat]; constructor; [unfold is_digit; lia|exact IH]. Qed.

Lemma split_dot_digits ds r : Forall is_digit ds ->
  split_dot (map digit_char ds ++ "."%char :: r) = (map digit_char ds, Some r).
Proof.
  induction 1 as [|d ds Hd H IH]; cbn [map app split_dot]; [reflexivity|].
  rewrite digit_char_not_dot by exact Hd. rewrite IH. reflexivity.
Qed.

Lemma split_dot_digits_only ds : Forall is_digit ds ->
  split_dot (map digit_char ds) = (map digit_char ds, None).
Proof.
  induction 1 as [|d ds Hd H IH]; cbn [map split_dot]; [reflexivity|].
  rewrite digit_char_not_dot by exact Hd. rewrite IH. reflexivity.
Qed.

(** the printed form of [n * 10^-s]: integer digits [a], then if [b] is not empty a dot and [b] *)
Lemma show_abs_form n s : 0 <= n ->
  exists a b, Forall is_digit a /\ Forall is_digit b /\ a <> [] /\
    show_abs n s = map digit_char a ++ (match b with [] => [] | _ => "."%char :: map digit_char b end) /\
    Z.of_nat (length b) = Z.max s 0 /\ dval 0 (a ++ b) = n * 10 ^ (Z.max s 0 - s).
Proof.
  intro Hn. destruct (show_nat_digits n Hn) as (es & E & Fd & V & NE).
  unfold show_abs. rewrite E. unfold tlen. rewrite map_length.
  set (len := Z.of_nat (length es)).
  assert (Hlen : 0 < len) by (subst len; destruct es; cbn; [congruence|lia]).
  destruct (Z.leb_spec len s) as [H1|H1].
  - exists [0], (repeat 0 (Z.to_nat (s - len)) ++ es).
    split; [repeat constructor; unfold is_digit; lia|].
    split; [apply Forall_app; split; [apply repeat0_digits|exact Fd]|].
    split; [congruence|]. split.
    + rewrite zeros_map, <- map_app.
      destruct (repeat 0 (Z.to_nat (s - len)) ++ es) as [|x xs] eqn:EE.
      * apply app_eq_nil in EE. destruct EE; congruence.
      * cbn [map app]. reflexivity.
    + split.
      * rewrite app_length, repeat_length. lia.
      * cbn [app dval]. change (0 * 10 + 0) with 0. rewrite dval_app, dval_repeat0, Z.mul_0_l, V.
        replace (Z.max s 0 - s) with 0 by lia. change (10 ^ 0) with 1. lia.
  - destruct (Z.ltb_spec len (len - s)) as [H2|H2].
    + exists (es ++ repeat 0 (Z.to_nat (len - s - len))), [].
      split; [apply Forall_app; split; [exact Fd|apply repeat0_digits]|].
      split; [constructor|]. split; [destruct es; cbn; congruence|]. split.
      * rewrite zeros_map, <- map_app, app_nil_r. reflexivity.
      * split; [cbn [length]; lia|]. rewrite app_nil_r, dval_app, V, dval_repeat0.
        rewrite Z2Nat.id by lia. f_equal. f_equal. lia.
    + exists (firstn (Z.to_nat (len - s)) es), (skipn (Z.to_nat (len - s)) es).
      assert (Hfs : Forall is_digit (firstn (Z.to_nat (len - s)) es) /\ Forall is_digit (skipn (Z.to_nat (len - s)) es)).
      { rewrite <- Forall_app, firstn_skipn. exact Fd. }
      destruct Hfs as [Hf Hs]. split; [exact Hf|]. split; [exact Hs|]. split.
      { destruct es as [|e es']; [congruence|].
        destruct (Z.to_nat (len - s)) eqn:EE; [lia|]. cbn [firstn]. congruence. }
      split.
      * rewrite firstn_map, skipn_map.
        destruct (skipn (Z.to_nat (len - s)) es) as [|x xs]; cbn [map]; [rewrite app_nil_r|]; reflexivity.
      * split.
        -- rewrite skipn_length. lia.
        -- rewrite firstn_skipn, V. replace (Z.max s 0 - s) with 0 by lia. change (10 ^ 0) with 1. lia.
Qed.

Lemma split_show_abs n s : 0 <= n ->
  exists a b, Forall is_digit a /\ Forall is_digit b /\ a <> [] /\
    Z.of_nat (length b) = Z.max s 0 /\ dval 0 (a ++ b) = n * 10 ^ (Z.max s 0 - s) /\
    split_dot (show_abs n s) = (map digit_char a, match b with [] => None | _ => Some (map digit_char b) end)
    /\ (exists x xs, show_abs n s = digit_char x :: xs /\ is_digit x).
Proof.
  intro Hn. destruct (show_abs_form n s Hn) as (a & b & Fa & Fb & NE & E & L & V).
  exists a, b. split; [exact Fa|]. split; [exact Fb|]. split; [exact NE|]. split; [exact L|]. split; [exact V|].
  split.
  - rewrite E. destruct b as [|x xs].
    + rewrite app_nil_r. apply split_dot_digits_only; exact Fa.
    + apply split_dot_digits; exact Fa.
  - rewrite E. destruct a as [|x xs]; [congruence|]. cbn [map app].
    eexists; eexists; split; [reflexivity|]. inversion Fa; assumption.
Qed.

Lemma parse_show_abs n s : 0 <= n ->
  parse_abs (show_abs n s) = Some (Dec (n * 10 ^ (Z.max s 0 - s)) (Z.max s 0)).
Proof.
  intro Hn. destruct (split_show_abs n s Hn) as (a & b & Fa & Fb & NE & L & V & Sp & _).
  assert (R : read_digits 0 (map digit_char a ++ map digit_char b) = Some (dval 0 (a ++ b))).
  { rewrite <- map_app. apply read_digits_map. apply Forall_app; auto. }
  assert (NE' : exists y ys, map digit_char a ++ map digit_char b = y :: ys).
  { destruct a as [|y ys]; [congruence|]. cbn [map app]. eauto. }
  destruct NE' as (y & ys & NE').
  unfold parse_abs. rewrite Sp.
  assert (L' : tlen (map digit_char b) = Z.max s 0) by (unfold tlen; rewrite map_length; exact L).
  rewrite V in R.
  destruct b as [|z zs]; cbv beta iota zeta.
  - cbn [map] in R, NE', L'. rewrite NE' in R |- *. rewrite R, L'. reflexivity.
  - rewrite NE' in R |- *. rewrite R, L'. reflexivity.
Qed.

Lemma parse_dec_nosign c r : sign_char c = false -> parse_dec (c :: r) = parse_abs (c :: r).
Proof.
  unfold sign_char. intro H. apply orb_false_iff in H as [H1 H2].
  destruct c as [b0 b1 b2 b3 b4 b5 b6 b7].
  destruct b0, b1, b2, b3, b4, b5, b6, b7; try reflexivity; discriminate.
Qed.

Lemma parse_show v :
  parse_dec (show v) = Some (Dec (digits v * 10 ^ (Z.max (scale v) 0 - scale v)) (Z.max (scale v) 0)).
Proof.
  unfold show. destruct (Z.ltb_spec (digits v) 0) as [H|H].
  - cbn [parse_dec]. rewrite parse_show_abs by lia. cbn [digits scale]. f_equal. f_equal. ring.
  - destruct (split_show_abs (digits v) (scale v) ltac:(lia)) as (a & b & _ & _ & _ & _ & _ & _ & x & xs & E & Hx).
    rewrite <- parse_show_abs by lia. rewrite E. apply parse_dec_nosign, digit_char_not_sign, Hx.
Qed.

Lemma amount_parsed v :
  (amount (Dec (digits v * 10 ^ (Z.max (scale v) 0 - scale v)) (Z.max (scale v) 0)) == amount v)%Q.
Proof.
  apply (Qmult_cancel_pow10 (Z.max (scale v) 0)). rewrite amount_dec_scale.
  symmetry. rewrite <- amount_rescale by lia. reflexivity.
Qed.

Lemma parse_show_amount v : exists w, parse_dec (show v) = Some w /\ (amount w == amount v)%Q.
Proof. eexists; split; [apply parse_show|apply amount_parsed]. Qed.

(** a printed amount with a non-negative scale is read back identically *)
Lemma parse_show_exact v : 0 <= scale v -> parse_dec (show v) = Some v.
Proof.
  intro H. rewrite parse_show. replace (Z.max (scale v) 0) with (scale v) by lia.
  rewrite Z.sub_diag. change (10 ^ 0) with 1. rewrite Z.mul_1_r. destruct v; reflexivity.
Qed.

Lemma amount_nonneg v : (0 <= amount v)%Q <-> 0 <= digits v.
Proof.
  rewrite amount_alt. pose proof (pow10_pos (- scale v)) as P. split; intro H.
  - destruct (Z.le_gt_cases 0 (digits v)) as [G|G]; [exact G|exfalso].
    rewrite Zlt_Qlt in G. assert ((inject_Z (digits v) * pow10 (- scale v) < 0 * pow10 (- scale v))%Q) as K.
    { apply Qmult_lt_r; assumption. }
    rewrite Qmult_0_l in K. apply (Qlt_not_le _ _ K H).
  - apply Qmult_le_0_compat; [|apply Qlt_le_weak; exact P].
    change 0%Q with (inject_Z 0). rewrite <- Zle_Qle. exact H.
Qed.

Lemma amount_neg v : (amount v < 0)%Q <-> digits v < 0.
Proof.
  pose proof (amount_nonneg v) as H. split; intro K.
  - destruct (Z.le_gt_cases 0 (digits v)) as [G|G]; [|exact G].
    apply H in G. exfalso. apply (Qlt_not_le _ _ K G).
  - destruct (Qlt_le_dec (amount v) 0) as [G|G]; [exact G|]. apply H in G. lia.
Qed.

Lemma from_str_ok parse u t v :
  value_from_str_with parse u t = inl v <->
  parse t = Some v /\ scale v <= max_decimals u /\ (0 <= amount v)%Q.
Proof.
  unfold value_from_str_with. destruct (parse t) as [w|]; [|split; [discriminate|intros [H _]; discriminate]].
  destruct (Z.ltb_spec (max_decimals u) (scale w)) as [H|H].
  - split; [discriminate|]. intros (E & Hs & _). injection E as ->. lia.
  - destruct (negb (0 <? digits w) && negb (digits w =? 0)) eqn:E.
    + split; [discriminate|]. intros (E2 & _ & Hn). injection E2 as ->. apply amount_nonneg in Hn. lia.
    + split.
      * intro G. injection G as ->. repeat split; [exact H|]. apply amount_nonneg. lia.
      * intros (E2 & _). injection E2 as ->. reflexivity.
Qed.

Lemma from_str_err parse u t e :
  value_from_str_with parse u t = inr e <->
  match e with
  | InvalidDecimal => parse t = None
  | InvalidDecimalPoint => exists v, parse t = Some v /\ max_decimals u < scale v
  | Negative => exists v, parse t = Some v /\ scale v <= max_decimals u /\ (amount v < 0)%Q
  end.
Proof.
  unfold value_from_str_with. destruct (parse t) as [w|] eqn:P.
  - destruct (Z.ltb_spec (max_decimals u) (scale w)) as [H|H].
    + split.
      * intro G; injection G as <-. exists w. split; [reflexivity|exact H].
      * destruct e; [discriminate|reflexivity|].
        intros (v & E & Hs & _). injection E as ->. lia.
    + destruct (negb (0 <? digits w) && negb (digits w =? 0)) eqn:E.
      * split.
        -- intro G; injection G as <-. exists w. split; [reflexivity|]. split; [exact H|]. apply amount_neg. lia.
        -- destruct e; [discriminate| |reflexivity].
           intros (v & E2 & Hs). injection E2 as ->. lia.
      * split; [discriminate|]. destruct e; [discriminate| |].
        -- intros (v & E2 & Hs). injection E2 as ->. lia.
        -- intros (v & E2 & Hs & Hn). injection E2 as ->. apply amount_neg in Hn. lia.
  - split.
    + intro G; injection G as <-. reflexivity.
    + destruct e; [reflexivity| |]; intros (v & E & _); discriminate.
Qed.

Lemma max_decimals_nonneg u : 0 <= max_decimals u.
Proof. destruct u; vm_compute; congruence. Qed.

Lemma from_str_show u v :
  (0 <= amount v)%Q -> scale v <= max_decimals u ->
  exists w, value_from_str u (show v) = inl w /\ (amount w == amount v)%Q.
Proof.
  intros Hn Hs. eexists. split; [|apply amount_parsed].
  apply from_str_ok. split; [apply parse_show|]. pose proof (max_decimals_nonneg u).
  split; [cbn [scale]; lia|]. rewrite amount_parsed. exact Hn.
Qed.

(** * Truncation *)
Lemma amount_dec0 n : (amount (Dec n 0) == inject_Z n)%Q.
Proof. rewrite amount_alt. cbn [digits scale]. change (pow10 (-0)) with (pow10 0). rewrite pow10_0. ring. Qed.

Lemma Qfloor_amount v : 0 <= scale v -> Qfloor (amount v) = digits v / 10 ^ scale v.
Proof.
  intro Hs. assert (P : 0 < 10 ^ scale v) by (apply Z.pow_pos_nonneg; lia).
  assert (E : (amount v == inject_Z (digits v) / inject_Z (10 ^ scale v))%Q).
  { apply (Qmult_inj_r _ _ (inject_Z (10 ^ scale v))).
    - intro G. apply inject_Z_inj in G. lia.
    - rewrite pow10_Z by exact Hs. destruct v as [d s]. cbn [digits scale] in *. rewrite amount_dec_scale.
      field. intro G. pose proof (pow10_pos s) as K. rewrite G in K. discriminate K. }
  rewrite (Qfloor_comp _ _ E). symmetry. apply Zdiv_Qdiv.
Qed.

Lemma truncate_nonneg v : (0 <= amount v)%Q ->
  (amount (truncate v) == inject_Z (Qfloor (amount v)))%Q.
Proof.
  intro Hn. unfold truncate. destruct (dec_ltb v (dec_of_Z 1)) eqn:E.
  - apply dec_ltb_correct in E.
    assert (amount (dec_of_Z 1) == 1)%Q as A by reflexivity. rewrite A in E.
    assert (Qfloor (amount v) = 0) as ->.
    { assert (H1 : 0 <= Qfloor (amount v)).
      { change 0 with (Qfloor (inject_Z 0)). apply Qfloor_resp_le. exact Hn. }
      pose proof (Qfloor_le (amount v)) as H2.
      assert (H3 : (inject_Z (Qfloor (amount v)) < inject_Z 1)%Q).
      { apply Qle_lt_trans with (amount v); assumption. }
      rewrite <- Zlt_Qlt in H3. lia. }
    reflexivity.
  - pose proof (proj1 (amount_nonneg v) Hn) as Hd.
    unfold show. destruct (Z.ltb_spec (digits v) 0) as [G|_]; [lia|].
    destruct (split_show_abs (digits v) (scale v) Hd) as (a & b & Fa & Fb & NE & L & V & Sp & _).
    rewrite Sp.
    assert (Hp : parse_dec (map digit_char a) = Some (Dec (dval 0 a) 0)).
    { destruct a as [|x xs]; [congruence|]. cbn [map].
      rewrite parse_dec_nosign by (apply digit_char_not_sign; inversion Fa; assumption).
      change (digit_char x :: map digit_char xs) with (map digit_char (x :: xs)).
      unfold parse_abs. rewrite split_dot_digits_only by exact Fa.
      cbv beta iota zeta. rewrite app_nil_r. pose proof (read_digits_map 0 _ Fa) as R.
      cbn [map] in R |- *. rewrite R. reflexivity. }
    rewrite Hp, amount_dec0. rewrite dval_app, dval_acc, L in V.
    pose proof (dval_bound b Fb) as Bb. rewrite L in Bb.
    assert (Q : Qfloor (amount v) = dval 0 a).
    { rewrite <- (Qfloor_comp _ _ (amount_parsed v)). rewrite Qfloor_amount by (cbn [scale]; lia).
      cbn [digits scale]. rewrite <- V.
      symmetry. apply Z.div_unique with (dval 0 b); [left; exact Bb|ring]. }
    rewrite Q. reflexivity.
Qed.

Lemma truncate_neg v : (amount v < 0)%Q -> truncate v = dec_of_Z 0.
Proof.
  intro H. unfold truncate.
  assert (dec_ltb v (dec_of_Z 1) = true) as ->; [|reflexivity].
  apply dec_ltb_correct. apply Qlt_trans with 0%Q; [exact H|]. reflexivity.
Qed.

Lemma truncate_idem v : (amount (truncate (truncate v)) == amount (truncate v))%Q.
Proof.
  destruct (Qlt_le_dec (amount v) 0) as [H|H].
  - rewrite (truncate_neg v H). rewrite truncate_nonneg by discriminate. reflexivity.
  - pose proof (truncate_nonneg v H) as E.
    assert (N : (0 <= amount (truncate v))%Q).
    { rewrite E. change 0%Q with (inject_Z 0). rewrite <- Zle_Qle.
      change 0 with (Qfloor (inject_Z 0)). apply Qfloor_resp_le. exact H. }
    rewrite (truncate_nonneg _ N). rewrite (Qfloor_comp _ _ E), Qfloor_Z. symmetry. exact E.
Qed.
