(** Model of the 64-bit counters: core/src/block_number.rs, slot_number.rs, output_index.rs.
    Executable definitions only.  A counter is an N below 2^64; the std functions u64::checked_add,
    saturating_add and saturating_sub are given by their documented contract. *)
From Coq Require Import NArith.
Open Scope N_scope.

Definition u64_max : N := 2 ^ 64 - 1.
Definition is_u64 (n : N) : Prop := n <= u64_max.

(** block_number.rs:56-58, slot_number.rs (checked_add), output_index.rs (checked_add) *)
Definition checked_add (a b : N) : option N := if a + b <=? u64_max then Some (a + b) else None.
(** block_number.rs:38-40 *)
Definition checked_next (a : N) : option N := checked_add a 1.
(** block_number.rs:65-67 *)
Definition saturating_add (a b : N) : N := if a + b <=? u64_max then a + b else u64_max.
(** block_number.rs:47-49 *)
Definition saturating_next (a : N) : N := saturating_add a 1.
(** block_number.rs:74-76 (only BlockNumber) *)
Definition saturating_sub (a b : N) : N := if b <=? a then a - b else 0.
