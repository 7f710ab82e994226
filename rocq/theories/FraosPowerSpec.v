(** What a power failure may do to the log. *)
From Coq Require Import Lia ZArith.
From stdpp Require Import numbers list.
From Verif Require Import FraosModel FraosSpec FraosPowerModel.

(** the files found after a power failure are possible ones: any bytes of the data file and any sectors of
    the index file that were not synchronised may be lost *)
Definition left_on_disk (k : cfg) (dk : disk) (s : pstate) (o : pop) : Prop :=
  match o with
  | PPower recs m df xf => survives 1 (fst (contents_at k dk s recs m)) df /\ survives (dk_sector dk) (snd (contents_at k dk s recs m)) xf
  | _ => True
  end.
(** the index entries of the batch lie in one sector; every single record does *)
Definition one_sector (dk : disk) (d : db) (recs : list (list N)) : Prop :=
  (16 * db_len d) / dk_sector dk = (16 * (db_len d + length recs) - 1) / dk_sector dk.
Definition torn_free (dk : disk) (s : pstate) (o : pop) : Prop :=
  match o with
  | PPower recs MIndex _ _ => recs = [] \/ has_empty recs = true \/ one_sector dk (ps_db s) recs
  | PKill recs p => crash_kept recs p = 0
  | _ => True
  end.
(** [P] holds before every operation of the history *)
Fixpoint along (k : cfg) (dk : disk) (P : pstate -> pop -> Prop) (s : pstate) (h : list pop) : Prop :=
  match h with
  | [] => True
  | o :: r => P s o /\ match pop_apply k dk s o with Ok s' => along k dk P s' r | _ => True end
  end.
Definition along_new (k : cfg) (dk : disk) (P : pstate -> pop -> Prop) (h : list pop) : Prop :=
  match db_new (Some []) (Some []) with Ok d => along k dk P (PState d [[]] [[]]) h | _ => False end.

(** the log after one more operation *)
Inductive plog_step : list (list N) -> pop -> list (list N) -> Prop :=
| pl_append R recs : has_empty recs = false -> plog_step R (PAppend recs) (R ++ recs)
| pl_refused R recs : has_empty recs = true -> plog_step R (PAppend recs) R
| pl_reopen R : plog_step R PReopen R
| pl_kill R recs p : plog_step R (PKill recs p) R
| pl_power R recs m df xf : plog_step R (PPower recs m df xf) R
| pl_power_some R recs df xf kept : has_empty recs = false -> kept `prefix_of` recs ->
    plog_step R (PPower recs MIndex df xf) (R ++ kept).
Inductive plog_after : list (list N) -> list pop -> list (list N) -> Prop :=
| pa_nil R : plog_after R [] R
| pa_cons R o R1 h R2 : plog_step R o R1 -> plog_after R1 h R2 -> plog_after R (o :: h) R2.

Definition pop_batch (o : pop) : list (list N) :=
  match o with PAppend recs | PKill recs _ | PPower recs _ _ _ => recs | PReopen => [] end.
Definition phistory_fits (k : cfg) (h : list pop) : Prop :=
  let all := concat (map pop_batch h) in
  (N.of_nat (length (concat all) + min_mmap k) < 2 ^ 64)%N /\ (N.of_nat (16 * length all + min_mmap k) < 2 ^ 64)%N.
Definition sector_aligned (dk : disk) : Prop := 0 < dk_sector dk /\ dk_sector dk mod 16 = 0 /\ 0 < dk_page dk.
