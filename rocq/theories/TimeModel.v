(** Model of the Cardano era arithmetic.

    /repo/blockchain-source/src/cardano/time.rs, the whole file.

    All quantities are [u64].  They are modelled as [N]; every arithmetic
    operation the code performs unchecked is modelled twice over, following
    the two build profiles of the language: with overflow checks ([chk =
    true], the debug profile) the operation panics when the exact result is
    not a [u64], without them ([chk = false], the release profile) it wraps
    modulo 2^64.  Division by zero panics in both. *)

From Coq Require Import NArith Lia.
Local Open Scope N_scope.

(** The number of values of a [u64]. *)
Definition two64 : N := 18446744073709551616.

Definition is_u64 (n : N) : Prop := n < two64.

(** A value, or a panic. *)
Inductive res (A : Type) : Type :=
| Val (a : A)
| Panics.
Arguments Val {A} _.
Arguments Panics {A}.

Definition bind {A B} (x : res A) (f : A -> res B) : res B :=
  match x with Val a => f a | Panics => Panics end.

(** [a + b] on [u64] (used in time.rs:55, 61, 73). *)
Definition add64 (chk : bool) (a b : N) : res N :=
  if a + b <? two64 then Val (a + b)
  else if chk then Panics else Val ((a + b) mod two64).

(** [a * b] on [u64] (time.rs:55, 73). *)
Definition mul64 (chk : bool) (a b : N) : res N :=
  if a * b <? two64 then Val (a * b)
  else if chk then Panics else Val ((a * b) mod two64).

(** [a - b] on [u64] (time.rs:55). *)
Definition sub64 (chk : bool) (a b : N) : res N :=
  if b <=? a then Val (a - b)
  else if chk then Panics else Val (a + two64 - b).

(** [u64::checked_sub] (time.rs:59, 66). *)
Definition checked_sub (a b : N) : option N :=
  if b <=? a then Some (a - b) else None.

(** [a / b] and [a % b] (time.rs:61, 67). *)
Definition div64 (a b : N) : res N :=
  if b =? 0 then Panics else Val (a / b).
Definition mod64 (a b : N) : res N :=
  if b =? 0 then Panics else Val (a mod b).

(** [struct Era], time.rs:4-11. *)
Record era : Type := Era {
  first_slot : N;
  start_epoch : N;
  known_time : N;
  slot_length : N;
  epoch_length_seconds : N
}.

(** The fields are [u64]s: what the type of time.rs:5-10 says. *)
Definition era_u64 (e : era) : Prop :=
  is_u64 (first_slot e) /\ is_u64 (start_epoch e) /\ is_u64 (known_time e) /\
  is_u64 (slot_length e) /\ is_u64 (epoch_length_seconds e).

(** time.rs:14-20 *)
Definition SHELLEY_MAINNET : era := Era 4492800 208 1596059091 1 432000.
(** time.rs:22-28 *)
Definition SHELLEY_TESTNET : era := Era 1598400 74 1595967616 1 432000.
(** time.rs:30-36 *)
Definition SHELLEY_PREPROD : era := Era 86400 4 1655769600 1 432000.
(** time.rs:38-44 *)
Definition SHELLEY_PREVIEW : era := Era 0 0 1666656000 1 86400.
(** time.rs:46-52 *)
Definition SHELLEY_SANCHO : era := Era 0 0 1686789000 1 86400.

(** [Era::compute_timestamp], time.rs:54-56. *)
Definition compute_timestamp (chk : bool) (e : era) (slot : N) : res N :=
  bind (sub64 chk slot (first_slot e)) (fun d =>
  bind (mul64 chk d (slot_length e)) (fun s =>
  add64 chk (known_time e) s)).

(** [Era::absolute_slot_to_epoch], time.rs:58-63. *)
Definition absolute_slot_to_epoch (chk : bool) (e : era) (slot : N)
  : res (option N) :=
  match checked_sub slot (first_slot e) with
  | None => Val None
  | Some rel =>
      bind (div64 rel (epoch_length_seconds e)) (fun q =>
      bind (add64 chk (start_epoch e) q) (fun r => Val (Some r)))
  end.

(** [Era::absolute_slot_to_relative], time.rs:65-68. *)
Definition absolute_slot_to_relative (e : era) (slot : N) : res (option N) :=
  match checked_sub slot (first_slot e) with
  | None => Val None
  | Some rel =>
      bind (mod64 rel (epoch_length_seconds e)) (fun r => Val (Some r))
  end.

(** time.rs:1-2 *)
Definition EPOCH_LENGTH_IN_SECONDS : N := 432000.
Definition BYRON_SLOT_DURATION : N := 20.

(** [epoch_slot_to_absolute_byron], time.rs:71-74. *)
Definition epoch_slot_to_absolute_byron (chk : bool) (epoch epoch_slot : N)
  : res N :=
  bind (div64 EPOCH_LENGTH_IN_SECONDS BYRON_SLOT_DURATION) (fun spe =>
  bind (mul64 chk epoch spe) (fun a => add64 chk a epoch_slot)).
