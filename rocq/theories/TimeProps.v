(** C37: slots, epochs and timestamps convert consistently. *)

From Coq Require Import NArith ZArith Lia List.
From Verif Require Import TimeModel.
Import ListNotations.
Local Open Scope N_scope.

(** ** What the numbers mean

    An era is a schedule: slot [first_slot] begins at [known_time], every slot
    lasts [slot_length], and epoch [start_epoch + k] consists of the
    [epoch_length_seconds] slots that follow the first [k] epochs.  These
    relations are the specification; nothing below uses the functions of the
    model. *)

(** Slot [s] is slot number [r] of epoch [ep]. *)
Definition slot_is (e : era) (s ep r : N) : Prop :=
  start_epoch e <= ep /\ r < epoch_length_seconds e /\
  s = first_slot e + (ep - start_epoch e) * epoch_length_seconds e + r.

(** Slot [s] begins at time [t]. *)
Definition slot_begins (e : era) (s t : N) : Prop :=
  first_slot e <= s /\ t = known_time e + (s - first_slot e) * slot_length e.

(** ** Arithmetic *)

Lemma add64_exact chk a b : a + b < two64 -> add64 chk a b = Val (a + b).
Proof.
  intros H. unfold add64. destruct (N.ltb_spec (a + b) two64); [auto|lia].
Qed.
Lemma mul64_exact chk a b : a * b < two64 -> mul64 chk a b = Val (a * b).
Proof.
  intros H. unfold mul64. destruct (N.ltb_spec (a * b) two64); [auto|lia].
Qed.
Lemma sub64_exact chk a b : b <= a -> sub64 chk a b = Val (a - b).
Proof.
  intros H. unfold sub64. destruct (N.leb_spec b a); [auto|lia].
Qed.
Lemma checked_sub_ge a b : b <= a -> checked_sub a b = Some (a - b).
Proof. intros H. unfold checked_sub. destruct (N.leb_spec b a); [auto|lia]. Qed.
Lemma checked_sub_lt a b : a < b -> checked_sub a b = None.
Proof. intros H. unfold checked_sub. destruct (N.leb_spec b a); [lia|auto]. Qed.
Lemma div64_exact a b : 0 < b -> div64 a b = Val (a / b).
Proof. intros H. unfold div64. destruct (N.eqb_spec b 0); [lia|auto]. Qed.
Lemma mod64_exact a b : 0 < b -> mod64 a b = Val (a mod b).
Proof. intros H. unfold mod64. destruct (N.eqb_spec b 0); [lia|auto]. Qed.

(** In a schedule every slot of the era has exactly one place. *)
Lemma slot_is_unique e s ep r ep' r' :
  slot_is e s ep r -> slot_is e s ep' r' -> ep = ep' /\ r = r'.
Proof.
  intros (A & B & C) (A' & B' & C').
  assert (ep - start_epoch e = ep' - start_epoch e /\ r = r') as [Q R].
  { apply (N.div_mod_unique (epoch_length_seconds e)); try assumption.
    rewrite !(N.mul_comm (epoch_length_seconds e)). lia. }
  split; [lia|exact R].
Qed.

Lemma slot_is_place e s :
  0 < epoch_length_seconds e -> first_slot e <= s ->
  slot_is e s (start_epoch e + (s - first_slot e) / epoch_length_seconds e)
    ((s - first_slot e) mod epoch_length_seconds e).
Proof.
  intros P F. split; [apply N.le_add_r|]. split; [apply N.mod_lt; lia|].
  pose proof (N.div_mod (s - first_slot e) (epoch_length_seconds e)
                ltac:(lia)) as D.
  set (q := (s - first_slot e) / epoch_length_seconds e) in *.
  replace (start_epoch e + q - start_epoch e) with q by lia.
  rewrite (N.mul_comm q). lia.
Qed.

(** ** C37 *)

(** The two epoch functions give the place of the slot in the schedule, for
    every era with a positive epoch length and every slot at or after its
    first one, in either build profile; the only exclusion is an epoch number
    that itself exceeds 64 bits. *)
Theorem C37_epoch_and_relative :
  forall chk e slot,
    0 < epoch_length_seconds e -> first_slot e <= slot -> is_u64 slot ->
    is_u64 (start_epoch e + slot) ->
    exists ep r,
      absolute_slot_to_epoch chk e slot = Val (Some ep) /\
      absolute_slot_to_relative e slot = Val (Some r) /\
      slot_is e slot ep r /\
      forall ep' r', slot_is e slot ep' r' -> ep' = ep /\ r' = r.
Proof.
  intros chk e s P F U V.
  set (q := (s - first_slot e) / epoch_length_seconds e).
  assert (q <= s) as Q.
  { subst q. transitivity (s - first_slot e); [|lia].
    apply N.div_le_upper_bound; [lia|].
    rewrite <- (N.mul_1_l (s - first_slot e)) at 1.
    apply N.mul_le_mono_r. lia. }
  exists (start_epoch e + q), ((s - first_slot e) mod epoch_length_seconds e).
  unfold absolute_slot_to_epoch, absolute_slot_to_relative.
  rewrite !checked_sub_ge, div64_exact, mod64_exact by assumption.
  unfold bind. fold q. unfold is_u64 in *. rewrite add64_exact by lia.
  pose proof (slot_is_place e s P F) as S. fold q in S.
  split; [reflexivity|]. split; [reflexivity|]. split; [exact S|].
  intros ep' r' S'. exact (slot_is_unique _ _ _ _ _ _ S' S).
Qed.

(** Conversely each place of the schedule is found again: the pair of
    functions is a bijection between the slots of the era and their places. *)
Theorem C37_place_to_slot :
  forall chk e slot ep r,
    slot_is e slot ep r -> is_u64 slot -> is_u64 ep ->
    absolute_slot_to_epoch chk e slot = Val (Some ep) /\
    absolute_slot_to_relative e slot = Val (Some r).
Proof.
  intros chk e s ep r S U V.
  assert (0 < epoch_length_seconds e) as P by (destruct S as (_ & B & _); lia).
  assert (first_slot e <= s) as F 
    by (destruct S as (_ & _ & ->); rewrite <- N.add_assoc; apply N.le_add_r).
  destruct (slot_is_unique _ _ _ _ _ _ S (slot_is_place e s P F)) as [E R].
  unfold absolute_slot_to_epoch, absolute_slot_to_relative.
  rewrite !checked_sub_ge, div64_exact, mod64_exact by assumption.
  unfold bind. rewrite add64_exact.
  - now rewrite <- E, <- R.
  - rewrite <- E. exact V.
Qed.

(** Slots before the era are refused. *)
Theorem C37_before_era_refused :
  forall chk e slot, slot < first_slot e ->
    absolute_slot_to_epoch chk e slot = Val None /\
    absolute_slot_to_relative e slot = Val None.
Proof.
  intros chk e s H. unfold absolute_slot_to_epoch, absolute_slot_to_relative.
  now rewrite !checked_sub_lt.
Qed.

(** ... and only those. *)
Theorem C37_refused_only_before_era :
  forall chk e slot,
    absolute_slot_to_epoch chk e slot = Val None \/
    absolute_slot_to_relative e slot = Val None ->
    slot < first_slot e.
Proof.
  intros chk e s H. destruct (N.lt_ge_cases s (first_slot e)) as [L|G]; [auto|].
  exfalso. unfold absolute_slot_to_epoch, absolute_slot_to_relative in H.
  rewrite checked_sub_ge in H by assumption.
  unfold div64, mod64, bind, add64 in H.
  destruct (epoch_length_seconds e =? 0); [destruct H; discriminate|].
  match type of H with context [?a <? ?b] => destruct (a <? b) end;
    destruct chk; destruct H; discriminate.
Qed.

(** Epochs are monotone in the slot. *)
Theorem C37_epoch_monotone :
  forall chk e s s' ep ep',
    0 < epoch_length_seconds e -> is_u64 (start_epoch e + s') ->
    s <= s' ->
    absolute_slot_to_epoch chk e s = Val (Some ep) ->
    absolute_slot_to_epoch chk e s' = Val (Some ep') ->
    ep <= ep'.
Proof.
  intros chk e s s' ep ep' P U L H H'.
  assert (first_slot e <= s) as F.
  { destruct (N.lt_ge_cases s (first_slot e)) as [X|X]; [|assumption].
    destruct (C37_before_era_refused chk e s X) as [Y _].
    rewrite Y in H. discriminate. }
  assert (is_u64 s') as U' by (unfold is_u64 in *; lia).
  assert (is_u64 s) as U'' by (unfold is_u64 in *; lia).
  destruct (C37_epoch_and_relative chk e s P F U'')
    as (a & r & A & _ & Sa & _); [unfold is_u64 in *; lia|].
  destruct (C37_epoch_and_relative chk e s' P ltac:(lia) U' U)
    as (a' & r' & A' & _ & Sa' & _).
  rewrite A in H. injection H as <-. rewrite A' in H'. injection H' as <-.
  destruct Sa as (X1 & X2 & X3), Sa' as (Y1 & Y2 & Y3).
  destruct (N.le_gt_cases a a') as [Q|Q]; [exact Q|exfalso].
  assert (a - start_epoch e >= (a' - start_epoch e) + 1) by lia.
  assert ((a - start_epoch e) * epoch_length_seconds e >=
          (a' - start_epoch e + 1) * epoch_length_seconds e).
  { apply N.le_ge, N.mul_le_mono_r. lia. }
  lia.
Qed.

(** The timestamp is the beginning of the slot, in either profile, as long as
    it fits 64 bits. *)
Theorem C37_timestamp :
  forall chk e slot t,
    slot_begins e slot t -> is_u64 t ->
    compute_timestamp chk e slot = Val t.
Proof.
  intros chk e s t (F & ->) U. unfold compute_timestamp, is_u64 in *.
  rewrite sub64_exact by assumption. unfold bind.
  rewrite mul64_exact by lia. apply add64_exact. assumption.
Qed.

(** Timestamps are strictly monotone (hence injective) when slots have a
    positive length: consecutive slots are exactly one slot length apart. *)
Theorem C37_timestamp_strictly_monotone :
  forall chk e s s' t t',
    0 < slot_length e -> first_slot e <= s -> s < s' ->
    is_u64 (known_time e + (s' - first_slot e) * slot_length e) ->
    compute_timestamp chk e s = Val t ->
    compute_timestamp chk e s' = Val t' ->
    t < t' /\ t' - t = (s' - s) * slot_length e.
Proof.
  intros chk e s s' t t' P F L U H H'. unfold is_u64 in U.
  assert ((s - first_slot e) * slot_length e + (s' - s) * slot_length e
          = (s' - first_slot e) * slot_length e) as D.
  { rewrite <- N.mul_add_distr_r. f_equal. lia. }
  assert (0 < (s' - s) * slot_length e) as Q by (apply N.mul_pos_pos; lia).
  rewrite (C37_timestamp chk e s
             (known_time e + (s - first_slot e) * slot_length e)) in H;
    [|split; [assumption|reflexivity]|unfold is_u64; lia].
  rewrite (C37_timestamp chk e s'
             (known_time e + (s' - first_slot e) * slot_length e)) in H';
    [|split; [lia|reflexivity]|unfold is_u64; lia].
  injection H as <-. injection H' as <-. lia.
Qed.

Theorem C37_timestamp_injective :
  forall chk e s s' t,
    0 < slot_length e -> first_slot e <= s -> first_slot e <= s' ->
    is_u64 (known_time e + (s - first_slot e) * slot_length e) ->
    is_u64 (known_time e + (s' - first_slot e) * slot_length e) ->
    compute_timestamp chk e s = Val t ->
    compute_timestamp chk e s' = Val t ->
    s = s'.
Proof.
  intros chk e s s' t P F F' U U' H H'.
  destruct (N.lt_trichotomy s s') as [L|[E|L]]; [|exact E|].
  - destruct (C37_timestamp_strictly_monotone chk e s s' t t P F L U' H H'). lia.
  - destruct (C37_timestamp_strictly_monotone chk e s' s t t P F' L U H' H). lia.
Qed.

(** [compute_timestamp] does not refuse slots before the era: a build with
    overflow checks panics, and one without returns a number, which differs
    from a panic and from a refusal. *)
Theorem C37_timestamp_before_era_refuted :
  exists e slot t,
    era_u64 e /\ 0 < slot_length e /\ slot < first_slot e /\
    compute_timestamp true e slot = Panics /\
    compute_timestamp false e slot = Val t.
Proof.
  exists SHELLEY_MAINNET, 4492799, 1596059090.
  unfold era_u64, is_u64. vm_compute. repeat split; reflexivity.
Qed.

(** The epoch functions divide the slot difference, and not the time
    difference, by the epoch length "in seconds": in an era whose slots do not
    last one second two slots can be further apart than an epoch's seconds
    and still be in the same epoch. *)
Theorem C37_epoch_in_seconds_refuted :
  exists e s s' t t' ep,
    era_u64 e /\ 0 < slot_length e /\ 0 < epoch_length_seconds e /\
    compute_timestamp true e s = Val t /\ compute_timestamp true e s' = Val t' /\
    absolute_slot_to_epoch true e s = Val (Some ep) /\
    absolute_slot_to_epoch true e s' = Val (Some ep) /\
    t + epoch_length_seconds e <= t'.
Proof.
  exists (Era 0 0 1506203091 20 432000), 0, 21600, 1506203091, 1506635091, 0.
  unfold era_u64, is_u64. vm_compute.
  repeat split; try reflexivity; intros H; discriminate H.
Qed.

(** For slots of one second, as in all the known eras, the epoch is the number
    of whole epoch durations since the era began. *)
Theorem C37_epoch_of_time :
  forall chk e slot t ep,
    slot_length e = 1 -> 0 < epoch_length_seconds e ->
    first_slot e <= slot -> is_u64 slot ->
    is_u64 (known_time e + slot) -> is_u64 (start_epoch e + slot) ->
    compute_timestamp chk e slot = Val t ->
    absolute_slot_to_epoch chk e slot = Val (Some ep) ->
    known_time e + (ep - start_epoch e) * epoch_length_seconds e <= t <
    known_time e + (ep - start_epoch e + 1) * epoch_length_seconds e.
Proof.
  intros chk e s t ep L P F U V W H H'.
  rewrite (C37_timestamp chk e s (known_time e + (s - first_slot e))) in H.
  2:{ split; [assumption|]. rewrite L. lia. }
  2:{ unfold is_u64 in *. lia. }
  injection H as <-.
  destruct (C37_epoch_and_relative chk e s P F U W) as (a & r & A & _ & S & _).
  rewrite A in H'. injection H' as <-.
  destruct S as (X & Y & Z). lia.
Qed.

(** ** Byron *)

(** A Byron epoch has 21600 slots of 20 seconds: the absolute slot is the
    number of slots before it. *)
Theorem C37_byron_slot :
  forall chk epoch r,
    is_u64 (epoch * 21600 + r) ->
    epoch_slot_to_absolute_byron chk epoch r = Val (epoch * 21600 + r).
Proof.
  intros chk ep r U. unfold epoch_slot_to_absolute_byron, is_u64 in *.
  rewrite div64_exact by reflexivity. unfold bind.
  change (EPOCH_LENGTH_IN_SECONDS / BYRON_SLOT_DURATION) with 21600.
  rewrite mul64_exact by lia. now apply add64_exact.
Qed.

(** Distinct Byron slots get distinct absolute slots, in the order in which
    they follow each other. *)
Theorem C37_byron_slot_ordered :
  forall chk ep r ep' r' s s',
    r < 21600 -> r' < 21600 ->
    is_u64 (ep * 21600 + r) -> is_u64 (ep' * 21600 + r') ->
    epoch_slot_to_absolute_byron chk ep r = Val s ->
    epoch_slot_to_absolute_byron chk ep' r' = Val s' ->
    (s < s' <-> ep < ep' \/ (ep = ep' /\ r < r')).
Proof.
  intros chk ep r ep' r' s s' R R' U U' H H'.
  rewrite C37_byron_slot in H, H' by assumption.
  injection H as <-. injection H' as <-. lia.
Qed.

(** ** Overflow *)

(** With overflow checks the functions return exactly what the schedule says,
    and panic in every other case: a number that does not fit is never
    returned. *)
Theorem C37_timestamp_checked :
  forall e slot t, is_u64 slot -> is_u64 (first_slot e) ->
    compute_timestamp true e slot = Val t <-> slot_begins e slot t /\ is_u64 t.
Proof.
  intros e s t U F. unfold compute_timestamp, slot_begins, is_u64 in *.
  unfold sub64. destruct (N.leb_spec (first_slot e) s) as [L|L].
  2: { cbn [bind]. split; [discriminate|]. intros [[X _] _]. lia. }
  cbn [bind]. unfold mul64.
  destruct (N.ltb_spec ((s - first_slot e) * slot_length e) two64) as [M|M].
  2: { cbn [bind]. split; [discriminate|]. intros [[_ ->] X]. lia. }
  cbn [bind]. unfold add64.
  destruct (N.ltb_spec (known_time e + (s - first_slot e) * slot_length e) two64).
  - split; [intros [= <-]; auto|]. intros [[_ ->] _]. reflexivity.
  - split; [discriminate|]. intros [[_ ->] X]. lia.
Qed.

(** Without overflow checks the result is that of the schedule modulo 2^64,
    in integers, also before the era. *)
Theorem C37_timestamp_wraps :
  forall e slot, is_u64 slot -> era_u64 e -> exists t,
    compute_timestamp false e slot = Val t /\
    Z.of_N t = ((Z.of_N (known_time e) +
      (Z.of_N slot - Z.of_N (first_slot e)) * Z.of_N (slot_length e)) mod 2 ^ 64)%Z.
Proof.
  intros e s U (F & _ & K & L & _). unfold compute_timestamp, is_u64 in *.
  assert (B : Z.of_N two64 = (2 ^ 64)%Z) by reflexivity.
  assert (S1 : exists d, sub64 false s (first_slot e) = Val d /\
            (Z.of_N d mod 2 ^ 64 = (Z.of_N s - Z.of_N (first_slot e)) mod 2 ^ 64)%Z).
  { unfold sub64. destruct (N.leb_spec (first_slot e) s).
    - eexists. split; [reflexivity|]. rewrite N2Z.inj_sub by assumption. reflexivity.
    - eexists. split; [reflexivity|]. rewrite N2Z.inj_sub, N2Z.inj_add, B by lia.
      replace (Z.of_N s + 2 ^ 64 - Z.of_N (first_slot e))%Z
        with (Z.of_N s - Z.of_N (first_slot e) + 1 * 2 ^ 64)%Z by lia.
      apply Z.mod_add. discriminate. }
  destruct S1 as (d & -> & Ed). cbn [bind].
  assert (S2 : forall a b, exists m, mul64 false a b = Val m /\
            (Z.of_N m mod 2 ^ 64 = (Z.of_N a * Z.of_N b) mod 2 ^ 64)%Z).
  { intros a b. unfold mul64. destruct (N.ltb_spec (a * b) two64).
    - eexists. split; [reflexivity|]. rewrite N2Z.inj_mul. reflexivity.
    - eexists. split; [reflexivity|]. rewrite N2Z.inj_mod, N2Z.inj_mul, B.
      apply Z.mod_mod. discriminate. }
  destruct (S2 d (slot_length e)) as (m & -> & Em). cbn [bind].
  assert (S3 : forall a b, exists m, add64 false a b = Val m /\
            (Z.of_N m = (Z.of_N a + Z.of_N b) mod 2 ^ 64)%Z).
  { intros a b. unfold add64. destruct (N.ltb_spec (a + b) two64).
    - eexists. split; [reflexivity|]. rewrite N2Z.inj_add, Z.mod_small; [reflexivity|]. rewrite <- B. lia.
    - eexists. split; [reflexivity|]. rewrite N2Z.inj_mod, N2Z.inj_add, B. reflexivity. }
  destruct (S3 (known_time e) m) as (t & -> & Et). exists t. split; [reflexivity|].
  rewrite Et, <- Z.add_mod_idemp_r, Em, <- Z.mul_mod_idemp_l, Ed,
    Z.mul_mod_idemp_l, Z.add_mod_idemp_r by discriminate. reflexivity.
Qed.

(** The same for epochs: with checks, the epoch is the one of the schedule or
    the call panics; without, it is that epoch modulo 2^64. *)
Theorem C37_epoch_overflow :
  forall e slot ep r, slot_is e slot ep r ->
    absolute_slot_to_epoch true e slot =
      (if ep <? two64 then Val (Some ep) else Panics) /\
    absolute_slot_to_epoch false e slot = Val (Some (ep mod two64)).
Proof.
  intros e s ep r S. assert (0 < epoch_length_seconds e) as P by (destruct S as (_ & B & _); lia).
  assert (first_slot e <= s) as F by (destruct S as (_ & _ & X); rewrite X, <- N.add_assoc; apply N.le_add_r).
  destruct (slot_is_unique e s _ _ _ _ S (slot_is_place e s P F)) as [E _].
  unfold absolute_slot_to_epoch. rewrite checked_sub_ge by exact F.
  rewrite div64_exact by exact P. cbn [bind]. unfold add64. rewrite <- E.
  destruct (N.ltb_spec ep two64) as [L|L]; cbn [bind]; [|split; reflexivity].
  rewrite N.mod_small by exact L. split; reflexivity.
Qed.

Theorem C37_byron_overflow :
  forall epoch r,
    epoch_slot_to_absolute_byron true epoch r =
      (if epoch * 21600 + r <? two64 then Val (epoch * 21600 + r) else Panics) /\
    (is_u64 r -> epoch_slot_to_absolute_byron false epoch r = Val ((epoch * 21600 + r) mod two64)).
Proof.
  intros ep r. unfold epoch_slot_to_absolute_byron.
  rewrite div64_exact by reflexivity. cbn [bind].
  change (EPOCH_LENGTH_IN_SECONDS / BYRON_SLOT_DURATION) with 21600.
  unfold mul64, add64, is_u64. destruct (N.ltb_spec (ep * 21600) two64) as [L|L]; cbn [bind].
  - destruct (N.ltb_spec (ep * 21600 + r) two64) as [M|M]; [|split; reflexivity].
    rewrite N.mod_small by exact M. split; reflexivity.
  - destruct (N.ltb_spec (ep * 21600 + r) two64) as [M|M]; [lia|]. split; [reflexivity|].
    intro U. rewrite <- (N.add_mod_idemp_l (ep * 21600)) by discriminate.
    destruct (N.ltb_spec ((ep * 21600) mod two64 + r) two64) as [G|G]; [|reflexivity].
    rewrite (N.mod_small (_ + r)) by exact G. reflexivity.
Qed.

(** The known eras. *)
Definition known_eras : list era :=
  [SHELLEY_MAINNET; SHELLEY_TESTNET; SHELLEY_PREPROD; SHELLEY_PREVIEW;
   SHELLEY_SANCHO].

(** They meet all the hypotheses above; their first slot is the one after the
    last Byron slot, begins an epoch, and no Byron slot of an earlier epoch is
    accepted as a slot of the era. *)
Theorem C37_known_eras :
  forall chk e, In e known_eras ->
    era_u64 e /\ slot_length e = 1 /\ 0 < epoch_length_seconds e /\
    epoch_slot_to_absolute_byron chk (start_epoch e) 0 = Val (first_slot e) /\
    absolute_slot_to_epoch chk e (first_slot e) = Val (Some (start_epoch e)) /\
    absolute_slot_to_relative e (first_slot e) = Val (Some 0) /\
    compute_timestamp chk e (first_slot e) = Val (known_time e) /\
    forall ep r s, ep < start_epoch e -> r < 21600 ->
      epoch_slot_to_absolute_byron chk ep r = Val s ->
      absolute_slot_to_epoch chk e s = Val None.
Proof.
  intros chk e K.
  assert (first_slot e = start_epoch e * 21600 /\ era_u64 e /\
          slot_length e = 1 /\ 0 < epoch_length_seconds e /\
          known_time e < 2000000000 /\ start_epoch e < 1000) as
      (F & E & L & P & T & S).
  { repeat (destruct K as [<-|K]; [unfold era_u64, is_u64;
      repeat split; reflexivity|]). destruct K. }
  assert (is_u64 (start_epoch e * 21600 + 0)) as U.
  { unfold is_u64, two64. lia. }
  split; [exact E|]. split; [exact L|]. split; [exact P|].
  split.
  { rewrite C37_byron_slot by exact U. f_equal. lia. }
  assert (slot_is e (first_slot e) (start_epoch e) 0) as I.
  { repeat split; lia. }
  destruct (C37_place_to_slot chk e _ _ _ I) as [A B];
    [apply E|apply E|].
  split; [exact A|]. split; [exact B|]. split.
  { apply C37_timestamp; [split; lia|apply E]. }
  intros ep r s H R Q.
  rewrite C37_byron_slot in Q by (unfold is_u64, two64; lia).
  injection Q as <-.
  apply C37_before_era_refused. rewrite F. lia.
Qed.

(** Independent specification of a calendar date and time (UTC, Gregorian, from
    1970 on) as seconds since 1970-01-01T00:00:00. *)
Definition leap (y : N) : bool :=
  if y mod 400 =? 0 then true else if y mod 100 =? 0 then false else y mod 4 =? 0.
Definition month_days (y m : N) : N :=
  match m with
  | 2 => if leap y then 29 else 28
  | 4 | 6 | 9 | 11 => 30
  | _ => 31
  end.
Definition upto (n : N) : list N := map N.of_nat (seq 0 (N.to_nat n)).
Definition sumN (l : list N) : N := fold_right N.add 0 l.
Definition utc (y m d hh mm ss : N) : N :=
  (sumN (map (fun i => if leap (1970 + i) then 366 else 365) (upto (y - 1970))) +
   sumN (map (fun i => month_days y (1 + i)) (upto (m - 1))) + (d - 1)) * 86400 +
  hh * 3600 + mm * 60 + ss.

(** The published system start of each network. *)
Definition system_start : list (era * N) :=
  [(SHELLEY_MAINNET, utc 2017 9 23 21 44 51);
   (SHELLEY_TESTNET, utc 2019 7 24 20 20 16);
   (SHELLEY_PREPROD, utc 2022 6 1 0 0 0);
   (SHELLEY_PREVIEW, utc 2022 10 25 0 0 0);
   (SHELLEY_SANCHO, utc 2023 6 15 0 30 0)].

(** Each known era begins when the Byron slots before it, of 20 seconds each,
    have passed since the system start; so every slot of the era has the
    timestamp of the system start, plus those, plus its own seconds. *)
Theorem C37_known_start :
  forall chk e start, In (e, start) system_start ->
    known_time e = start + first_slot e * 20 /\
    first_slot e = start_epoch e * 21600 /\
    forall s, first_slot e <= s < 2 ^ 63 ->
      compute_timestamp chk e s = Val (start + first_slot e * 20 + (s - first_slot e)).
Proof.
  intros chk e start K.
  assert (known_time e = start + first_slot e * 20 /\ first_slot e = start_epoch e * 21600 /\
          slot_length e = 1 /\ known_time e < 2000000000) as (A & B & C & D).
  { repeat (destruct K as [K|K]; [injection K as <- <-; vm_compute; auto|]). destruct K. }
  split; [exact A|]. split; [exact B|]. intros s S. rewrite <- A.
  apply C37_timestamp; [split; [lia|rewrite C; lia]|]. unfold is_u64, two64.
  assert (2 ^ 63 < 10000000000000000000) by (vm_compute; reflexivity).
  assert (10000000000000000000 + 2000000000 < 2 ^ 64) by (vm_compute; reflexivity). lia.
Qed.

(** ** Non-vacuity: the hypotheses hold of ordinary slots *)

Example C37_place_witness :
  slot_is SHELLEY_MAINNET 99100852 427 52 /\ is_u64 99100852 /\
  is_u64 (start_epoch SHELLEY_MAINNET + 99100852).
Proof. repeat split; vm_compute; congruence. Qed.

Example C37_time_witness :
  slot_begins SHELLEY_PREPROD 33350429 1689033629 /\ is_u64 1689033629 /\
  slot_begins SHELLEY_PREVIEW 24278356 1690934356.
Proof. repeat split; vm_compute; congruence. Qed.

(** The last timestamp before the overflow, and the one after it. *)
Example C37_overflow_witness :
  let e := Era 10 3 (two64 - 5) 2 100 in
  compute_timestamp true e 12 = Val (two64 - 1) /\
  compute_timestamp true e 13 = Panics /\ compute_timestamp false e 13 = Val 1.
Proof. vm_compute. auto. Qed.

Definition all_TimeProps :=
  (C37_epoch_and_relative, C37_place_to_slot, C37_before_era_refused,
   C37_refused_only_before_era, C37_epoch_monotone, C37_timestamp,
   C37_timestamp_strictly_monotone, C37_timestamp_injective,
   C37_timestamp_before_era_refuted, C37_epoch_in_seconds_refuted,
   C37_epoch_of_time, C37_byron_slot, C37_byron_slot_ordered,
   C37_known_eras, C37_known_start, C37_timestamp_checked, C37_timestamp_wraps,
   C37_epoch_overflow, C37_byron_overflow).
Print Assumptions all_TimeProps.
