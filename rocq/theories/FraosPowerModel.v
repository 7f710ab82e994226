(** Power failures under the log of fraos.  Executable definitions, apart from [survives].

    The code synchronises a file with the disk in one place only, growable_mmap.rs:190-193 (msync of the
    active mapping, at the end of every grow_and_apply).  Everything else (set_len, stores through a mapping)
    reaches the disk whenever the kernel likes.  For each of the two files the model keeps the list of the
    contents the file may have had since the last synchronisation; after a power failure its length is that
    of one of them, and every sector is as in one of them, independently of the other sectors.  A mapping is
    synchronised in whole pages, and with them the length of the file (Linux: msync(MS_SYNC) is
    vfs_fsync_range over the pages of the mapping). *)
From Coq Require Import Lia ZArith.
From stdpp Require Import numbers list.
From Verif Require Import FraosModel.

Record disk := Disk { dk_sector : nat; dk_page : nat }.
Definition real_disk : disk := Disk (N.to_nat 512) (N.to_nat 4096).

(** the contents [f] that a file may have after a power failure: blocks of [blk] bytes are written whole *)
Definition survives (blk : nat) (vs : list file) (f : file) : Prop :=
  (exists v, v ∈ vs /\ length f = length v) /\
  forall j, exists v, v ∈ vs /\ forall i b, i / blk = j -> f !! i = Some b -> default 0%N (v !! i) = b.

(** a content [v] the disk may hold, after the pages of [off, off+len) were written from [F] *)
Definition synced (dk : disk) (F : file) (off len : nat) (v : file) : file :=
  let lo := off / dk_page dk * dk_page dk in
  let hi := (off + len + dk_page dk - 1) / dk_page dk * dk_page dk in
  let v' := set_len v (length F) in
  take lo v' ++ take (hi - lo) (drop lo F) ++ drop hi v'.

(** growable_mmap.rs:190-193: flush of the active mapping *)
Definition flushed (dk : disk) (ap : appender) (vs : list file) : list file :=
  match g_file (ap_mmap ap), g_active (ap_mmap ap) with
  | Some F, Some a => match a_map a with AFile off len => map (synced dk F off len) vs | AAnon _ => vs end
  | _, _ => vs
  end.

Definition opt_list (F : option file) : list file := match F with Some f => [f] | None => [] end.

(** an opened log with what the disk may hold of its two files *)
Record pstate := PState { ps_db : db; ps_data : list file; ps_idx : list file }.

(** where in an operation the power fails: between operations, while the batch is written to the data file
    (database.rs:97), while its entries are written to the index file (98), or in Drop (164-169) *)
Inductive moment := MIdle | MData | MIndex | MDrop.

(** the contents of the data file in the course of an append (single bytes survive on their own, so that the
    contents between these two need not be listed), and those of the index file up to the [n]-th word *)
Definition data_contents (k : cfg) (d : db) (recs : list (list byte)) : list file :=
  opt_list (fst (crash_files k d recs (CrashData GExtended))) ++
  opt_list (fst (crash_files k d recs (CrashData (GWritten (length (concat recs)))))).
Definition index_contents (k : cfg) (d : db) (recs : list (list byte)) (n : nat) : list file :=
  opt_list (snd (crash_files k d recs CrashIndexExtended)) ++
  flat_map (fun q => opt_list (snd (crash_files k d recs (CrashIndexWords q)))) (seq 0 (S n)).
(** the appenders after each half of append_get_seqno (database.rs:97, 98) *)
Definition data_after (k : cfg) (d : db) (recs : list (list byte)) : appender := fst (flat_append k no_faults (d_data d) recs).
Definition refused (recs : list (list byte)) : bool := (length recs =? 0) || existsb (fun r => length r =? 0) recs.

Definition contents_at (k : cfg) (dk : disk) (s : pstate) (recs : list (list byte)) (m : moment) : list file * list file :=
  let d := ps_db s in
  match m with
  | MIdle => (ps_data s, ps_idx s)
  | MDrop => (ps_data s ++ opt_list (fst (db_files (db_drop d))), ps_idx s ++ opt_list (snd (db_files (db_drop d))))
  | MData => if refused recs then (ps_data s, ps_idx s) else (ps_data s ++ data_contents k d recs, ps_idx s)
  | MIndex => if refused recs then (ps_data s, ps_idx s)
              else (flushed dk (data_after k d recs) (ps_data s ++ data_contents k d recs), ps_idx s ++ index_contents k d recs (2 * length recs))
  end.
(** the same for a process that dies at the point [p], and does not write further *)
Definition contents_killed (k : cfg) (dk : disk) (s : pstate) (recs : list (list byte)) (p : crash_point) : list file * list file :=
  let d := ps_db s in
  match p with
  | CrashData _ => contents_at k dk s recs MData
  | CrashInDrop => contents_at k dk s recs MDrop
  | CrashIndexStart | CrashIndexExtended => (fst (contents_at k dk s recs MIndex), ps_idx s)
  | CrashIndexWords n => (fst (contents_at k dk s recs MIndex), if refused recs then ps_idx s else ps_idx s ++ index_contents k d recs n)
  end.

Inductive pop :=
| PAppend (recs : list (list byte))
| PReopen                                               (* drop the only handle, open again *)
| PKill (recs : list (list byte)) (p : crash_point)     (* the process dies, the kernel goes on; open again *)
| PPower (recs : list (list byte)) (m : moment) (df xf : file).   (* power failure; open what is left, [df] and [xf] *)
Definition pop_apply (k : cfg) (dk : disk) (s : pstate) (o : pop) : res pstate :=
  let d := ps_db s in
  match o with
  | PAppend recs =>
      match db_append k no_faults no_faults d recs with
      | (_, Panic) => Panic
      | (d', _) =>
          let (dv, xv) := contents_at k dk s recs MIndex in
          Ok (PState d' dv (if refused recs then xv else flushed dk (d_idx d') xv))
      end
  | PReopen =>
      let (DF, IF) := db_files (db_drop d) in
      let (dv, xv) := contents_at k dk s [] MDrop in
      match db_new DF IF with Ok d' => Ok (PState d' dv xv) | Err e => Err e | Panic => Panic end
  | PKill recs p =>
      let (DF, IF) := crash_files k d recs p in
      let (dv, xv) := contents_killed k dk s recs p in
      match db_new DF IF with Ok d' => Ok (PState d' (dv ++ opt_list DF) (xv ++ opt_list IF)) | Err e => Err e | Panic => Panic end
  | PPower recs m df xf =>
      match db_new (Some df) (Some xf) with Ok d' => Ok (PState d' [df] [xf]) | Err e => Err e | Panic => Panic end
  end.
Fixpoint prun (k : cfg) (dk : disk) (s : pstate) (h : list pop) : res pstate :=
  match h with
  | [] => Ok s
  | o :: r => match pop_apply k dk s o with Ok s' => prun k dk s' r | Err e => Err e | Panic => Panic end
  end.
(** a new log in two empty files *)
Definition popen (k : cfg) (dk : disk) (h : list pop) : res pstate :=
  match db_new (Some []) (Some []) with Ok d => prun k dk (PState d [[]] [[]]) h | Err e => Err e | Panic => Panic end.
