(** What the log is supposed to be: a list of records that only grows at its end.  Only the operations of
    the API are named here. *)
From Coq Require Import Lia ZArith.
From stdpp Require Import numbers list.
From Verif Require Import FraosModel.

Definition record := list N.
Definition has_empty (recs : list (list N)) : bool := existsb (fun r => match r with [] => true | _ => false end) recs.

(** The observable contents of an opened log are exactly [R]: counting, reading by number, reading the last
    one and iterating from any number all agree with [R]. *)
Definition reads_as (d : db) (R : list (list N)) : Prop :=
  db_len d = length R /\
  db_is_empty d = match R with [] => true | _ => false end /\
  (forall s, (s < 2 ^ 60)%N -> db_get d s = Ok (R !! N.to_nat s)) /\
  db_last d = Ok (last R) /\
  (forall s n, (s < 2 ^ 60)%N ->
     iter_collect n d s = (map Ok (take n (drop (N.to_nat s) R)), length (drop (N.to_nat s) R) <? n)).

(** The log after one more operation.  A batch with an empty record is refused.  A failing append adds all or
    nothing.  A crash during an append keeps the log and those leading records of the batch whose index entry
    (two words) was completely written. *)
Definition crash_kept (recs : list (list N)) (p : crash_point) : nat :=
  if has_empty recs then 0 else match p with CrashIndexWords n => n / 2 | _ => 0 end.
Inductive log_step : list (list N) -> fop -> list (list N) -> Prop :=
| ls_append R recs : has_empty recs = false -> log_step R (FAppend recs) (R ++ recs)
| ls_refused R recs : has_empty recs = true -> log_step R (FAppend recs) R
| ls_fail R fd fi recs : log_step R (FAppendFail fd fi recs) R
| ls_not_failed R fd fi recs : has_empty recs = false -> log_step R (FAppendFail fd fi recs) (R ++ recs)
| ls_reopen R : log_step R FReopen R
| ls_crash R recs p : log_step R (FCrash recs p) (R ++ take (crash_kept recs p) recs).
Inductive log_after : list (list N) -> list fop -> list (list N) -> Prop :=
| la_nil R : log_after R [] R
| la_cons R o R1 h R2 : log_step R o R1 -> log_after R1 h R2 -> log_after R (o :: h) R2.

(** Histories without failures and crashes have one possible log. *)
Definition plain_op (o : fop) : bool := match o with FAppend _ | FReopen => true | _ => false end.
Definition log_plain (h : list fop) : list (list N) :=
  concat (map (fun o => match o with FAppend recs => if has_empty recs then [] else recs | _ => [] end) h).

Definition op_batch (o : fop) : list (list N) :=
  match o with FAppend recs | FAppendFail _ _ recs | FCrash recs _ => recs | FReopen => [] end.
(** everything ever appended fits in a 64-bit file size *)
Definition history_fits (k : cfg) (h : list fop) : Prop :=
  let all := concat (map op_batch h) in
  (N.of_nat (length (concat all) + min_mmap k) < 2 ^ 64)%N /\ (N.of_nat (16 * length all + min_mmap k) < 2 ^ 64)%N.
(** growing the file or mapping it may fail; write-protecting and flushing a mapping does not *)
Definition early_faults (fl : faults) : Prop := f_protect fl = false /\ f_flush fl = false /\ f_remap fl = false.
Definition history_faults_early (h : list fop) : Prop :=
  forall fd fi recs, FAppendFail fd fi recs ∈ h -> early_faults fd /\ early_faults fi.
(** index entries are two 8-byte words; the mapping size is a multiple of that (524288 in the code) *)
Definition entry_aligned (k : cfg) : Prop := min_mmap k mod 16 = 0.
