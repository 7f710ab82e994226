(** Model of the conversion of a timestamp to the system's time, core/src/timestamp.rs:39-43.  Executable definitions only.
    [SystemTime] is the standard library's on Unix: seconds from the Unix epoch as an i64, and nanoseconds; adding a duration panics when the
    seconds are no i64 (Timespec::checked_add_duration and the [expect] of Add for SystemTime). *)
From Coq Require Import ZArith NArith Bool.
Local Open Scope Z_scope.

Record system_time := SystemTime { tv_sec : Z; tv_nsec : Z }.
Definition UNIX_EPOCH : system_time := SystemTime 0 0.
Definition checked_i64 (n : Z) : option Z := if (- 2 ^ 63 <=? n) && (n <? 2 ^ 63) then Some n else None.
(** a duration: whole seconds (u64) and less than 10^9 nanoseconds *)
Record duration := Duration { du_secs : N; du_nanos : Z }.
(** None is a panic *)
Definition add_duration (t : system_time) (d : duration) : option system_time :=
  match checked_i64 (tv_sec t + Z.of_N (du_secs d)) with
  | None => None
  | Some secs =>
      let nsec := du_nanos d + tv_nsec t in
      if nsec >=? 10 ^ 9 then match checked_i64 (secs + 1) with None => None | Some secs => Some (SystemTime secs (nsec - 10 ^ 9)) end
      else Some (SystemTime secs nsec)
  end.
(** core/src/timestamp.rs:39-43; a timestamp is a u64 *)
Definition into_unix_time (timestamp : N) : option system_time := add_duration UNIX_EPOCH (Duration timestamp 0).
