(** C63: a timestamp as the system's time. *)
From Coq Require Import ZArith NArith Lia Bool.
From Verif Require Import TimeModel ClockModel.
Local Open Scope Z_scope.

(** ** What is said *)
(** a time in nanoseconds from the Unix epoch, and which of two is the earlier *)
Definition nanoseconds (t : system_time) : Z := tv_sec t * 10 ^ 9 + tv_nsec t.
Definition well_formed (t : system_time) : Prop := - 2 ^ 63 <= tv_sec t < 2 ^ 63 /\ 0 <= tv_nsec t < 10 ^ 9.

Lemma checked_i64_in n : - 2 ^ 63 <= n < 2 ^ 63 -> checked_i64 n = Some n.
Proof. intros [H1 H2]. unfold checked_i64. rewrite (proj2 (Z.leb_le _ _) H1), (proj2 (Z.ltb_lt _ _) H2). reflexivity. Qed.
Lemma checked_i64_out n : 2 ^ 63 <= n -> checked_i64 n = None.
Proof. intro H. unfold checked_i64. rewrite (proj2 (Z.ltb_ge _ _) H), andb_false_r. reflexivity. Qed.

(** The time is that many seconds after the Unix epoch, exactly ... *)
Theorem C63_exact n : (n < 2 ^ 63)%N -> exists t, into_unix_time n = Some t /\ well_formed t /\ nanoseconds t = Z.of_N n * 10 ^ 9.
Proof.
  intro H. exists (SystemTime (Z.of_N n) 0). split; [|split].
  - unfold into_unix_time, add_duration. cbn [UNIX_EPOCH tv_sec tv_nsec du_secs du_nanos].
    rewrite checked_i64_in by lia. cbv beta iota zeta. rewrite Z.add_0_l. reflexivity.
  - split; cbn [tv_sec tv_nsec]; lia.
  - unfold nanoseconds. cbn [tv_sec tv_nsec]. lia.
Qed.
(** ... so the later timestamp is the later time, and times tell timestamps apart *)
Theorem C63_order n m t u : (n < 2 ^ 64)%N -> (m < 2 ^ 64)%N -> into_unix_time n = Some t -> into_unix_time m = Some u ->
  (nanoseconds t < nanoseconds u <-> (n < m)%N) /\ (t = u <-> n = m).
Proof.
  intros Hn Hm Et Eu.
  assert (G : forall x y, into_unix_time x = Some y -> y = SystemTime (Z.of_N x) 0).
  { intros x y. unfold into_unix_time, add_duration. cbn [UNIX_EPOCH tv_sec tv_nsec du_secs du_nanos]. unfold checked_i64. rewrite !Z.add_0_l.
    destruct ((- 2 ^ 63 <=? Z.of_N x) && (Z.of_N x <? 2 ^ 63)); [|discriminate]. cbv beta iota zeta. intro E. injection E as <-. reflexivity. }
  apply G in Et, Eu. subst t u. unfold nanoseconds. cbn [tv_sec tv_nsec]. split; [lia|]. split; [intro E; injection E as E; lia|intros ->; reflexivity].
Qed.
(** A timestamp from the year 292277026596 on makes the conversion panic: the type has no maximum below 2^64 *)
Theorem C63_panics n : (n < 2 ^ 64)%N -> into_unix_time n = None <-> (2 ^ 63 <= n)%N.
Proof.
  intro Hn. split.
  - intro E. destruct (N.le_gt_cases (2 ^ 63) n) as [H|H]; [exact H|]. destruct (C63_exact n H) as (t & E' & _). congruence.
  - intro H. unfold into_unix_time, add_duration. cbn [UNIX_EPOCH tv_sec tv_nsec du_secs du_nanos]. rewrite checked_i64_out by lia. reflexivity.
Qed.
Theorem C63_every_timestamp_refuted : exists n, is_u64 n /\ into_unix_time n = None.
Proof. exists (2 ^ 64 - 1)%N. split; [reflexivity|]. apply C63_panics; [reflexivity|discriminate]. Qed.

(** Adding a duration to a time of the system, which the conversion does: exact where the sum can be held, a panic where it cannot. *)
Definition duration_nanoseconds (d : duration) : Z := Z.of_N (du_secs d) * 10 ^ 9 + du_nanos d.
Theorem C63_add t d : well_formed t -> 0 <= du_nanos d < 10 ^ 9 ->
  (nanoseconds t + duration_nanoseconds d < 2 ^ 63 * 10 ^ 9 ->
     exists u, add_duration t d = Some u /\ well_formed u /\ nanoseconds u = nanoseconds t + duration_nanoseconds d) /\
  (2 ^ 63 * 10 ^ 9 <= nanoseconds t + duration_nanoseconds d -> add_duration t d = None).
Proof.
  destruct t as [s n], d as [ds dn]. unfold well_formed, nanoseconds, duration_nanoseconds, add_duration. cbn [tv_sec tv_nsec du_secs du_nanos].
  intros [[H1 H2] [H3 H4]] [H5 H6]. rewrite Z.geb_leb. split; intro H.
  - rewrite checked_i64_in by lia. destruct (Z.leb_spec (10 ^ 9) (dn + n)) as [L|L].
    + rewrite checked_i64_in by lia. eexists. split; [reflexivity|]. cbn [tv_sec tv_nsec]. lia.
    + eexists. split; [reflexivity|]. cbn [tv_sec tv_nsec]. lia.
  - destruct (Z.le_gt_cases (2 ^ 63) (s + Z.of_N ds)) as [L|L]; [rewrite checked_i64_out by lia; reflexivity|].
    rewrite checked_i64_in by lia. rewrite (proj2 (Z.leb_le _ _)) by lia. rewrite checked_i64_out by lia. reflexivity.
Qed.
Example C63_add_case : well_formed (SystemTime (-1) 600000000) /\ add_duration (SystemTime (-1) 600000000) (Duration 2 500000000) = Some (SystemTime 2 100000000) /\
  add_duration (SystemTime (2 ^ 63 - 1) 600000000) (Duration 0 400000000) = None.
Proof. repeat split; vm_compute; try reflexivity; discriminate. Qed.

(** The time of a slot of an era: the era's known time and the length of the slots since; one slot later is one slot's length later. *)
Theorem C63_slot_time chk e slot : (first_slot e <= slot)%N -> (known_time e + (slot - first_slot e) * slot_length e < 2 ^ 63)%N ->
  exists ts t, compute_timestamp chk e slot = Val ts /\ into_unix_time ts = Some t /\
    nanoseconds t = (Z.of_N (known_time e) + (Z.of_N slot - Z.of_N (first_slot e)) * Z.of_N (slot_length e)) * 10 ^ 9.
Proof.
  intros H1 H2. set (ts := (known_time e + (slot - first_slot e) * slot_length e)%N) in *.
  destruct (C63_exact ts H2) as (t & Et & _ & En). exists ts, t. split; [|split; [exact Et|]].
  - unfold compute_timestamp, sub64, mul64, add64, bind. rewrite (proj2 (N.leb_le _ _) H1).
    assert (H3 : ((slot - first_slot e) * slot_length e < two64)%N) by (unfold two64; change (2 ^ 63)%N with 9223372036854775808%N in H2; unfold ts in H2; lia).
    rewrite (proj2 (N.ltb_lt _ _) H3).
    assert (H4 : (ts < two64)%N) by (unfold two64; change (2 ^ 63)%N with 9223372036854775808%N in H2; lia).
    unfold ts in H4. rewrite (proj2 (N.ltb_lt _ _) H4). reflexivity.
  - rewrite En. unfold ts. rewrite N2Z.inj_add, N2Z.inj_mul, N2Z.inj_sub by exact H1. reflexivity.
Qed.

Example ex_slot_time : exists ts t, compute_timestamp true SHELLEY_MAINNET 97507251 = Val ts /\ into_unix_time ts = Some t /\ tv_sec t = 1689073542.
Proof. eexists _, _. split; [vm_compute; reflexivity|]. split; [vm_compute; reflexivity|]. reflexivity. Qed.
Example ex_order : exists t u, into_unix_time 1689073542 = Some t /\ into_unix_time (2 ^ 63 - 1) = Some u /\ nanoseconds t < nanoseconds u.
Proof. eexists _, _. split; [vm_compute; reflexivity|]. split; [vm_compute; reflexivity|]. vm_compute. reflexivity. Qed.

Definition all_ClockProps := (@C63_exact, @C63_order, @C63_panics, @C63_every_timestamp_refuted, @C63_slot_time, @C63_add).
Print Assumptions all_ClockProps.
