(** Model of opening the log at a path, for writing or for reading only, and of what a read-only handle does while another
    process has the log open for writing.  fraos/src/database.rs, appender.rs, growable_mmap.rs, seqno.rs.  Executable
    definitions only.

    The handle of a reader is the [db] of FraosModel.v.  The files under it are those of the writer: [db_under] puts the
    present files under a handle, whose own state (windows and sizes) stays. *)
From Coq Require Import Lia.
From stdpp Require Import numbers list.
From Verif Require Import FraosModel.

(** what is at the path; in a directory, the files "data" and "seqno" *)
Inductive path := PMissing | PFile | PDir (data seqno : option file).

(** database.rs:55-61, the part of [new] before the data file is opened: the index and the length the data must have *)
Definition open_index (IF : option file) : res (appender * nat) :=
  match idx_new IF with
  | Ok idx =>
      if idx_is_correct idx then
        match idx_last idx with
        | Ok l => Ok (idx, N.to_nat (match l with None => 0%N | Some (o, n) => (o + n)%N end))
        | Err e => Err e
        | Panic => Panic
        end
      else Err IndexFileDamaged
  | Err e => Err e
  | Panic => Panic
  end.

(** appender.rs:36-47: opened for writing, a missing file is created; opened for reading only, it is an error *)
Definition open_file (writable : bool) (F : option file) : option file :=
  if writable then Some (default [] F) else F.

(** database.rs:38-71 in a directory: what is there afterwards, and the handle *)
Definition open_dir (writable : bool) (D X : option file) : path * res db :=
  match open_file writable X with
  | None => (PDir D X, Err IoError)
  | Some xf =>
      match open_index (Some xf) with
      | Ok (idx, existing) =>
          match open_file writable D with
          | None => (PDir D (Some xf), Err IoError)
          | Some df =>
              (PDir (Some df) (Some xf),
               match appender_new (Some df) (Some existing) with Ok data => Ok (Db data idx) | Err e => Err e | Panic => Panic end)
          end
      | Err e => (PDir D (Some xf), Err e)
      | Panic => (PDir D (Some xf), Panic)
      end
  end.

(** database.rs:26-44 file_inner; [mk]: whether the directory can be created.  18-20 file, 22-24 file_readonly *)
Definition open_path (writable mk : bool) (p : path) : path * res db :=
  match p with
  | PMissing => if mk then open_dir writable None None else (PMissing, Err IoError)
  | PFile => (PFile, Err IoError)
  | PDir D X => open_dir writable D X
  end.

(** ** a read-only handle *)
Definition gmm_under (g : gmm) (f : file) : gmm := Gmm (Some f) (g_index g) (g_maps g) (g_active g).
Definition ap_under (ap : appender) (f : file) : appender := Appender (gmm_under (ap_mmap ap) f) (ap_size ap).
Definition db_under (d : db) (df xf : file) : db := Db (ap_under (d_data d) df) (ap_under (d_idx d) xf).

(** growable_mmap.rs:328-338: set_len of a file opened for reading only fails *)
Definition ro_faults : faults := Faults true false false false false.
(** database.rs:81-102 through a read-only handle *)
Definition ro_append (k : cfg) (d : db) (recs : list (list byte)) : db * res (option nat) := db_append k ro_faults ro_faults d recs.
Definition ro_put_seqno (k : cfg) (d : db) (r : list byte) : db * res nat := db_put_seqno k ro_faults ro_faults d r.
(** database.rs:164-169 Drop: both set_len fail, and the results are ignored.  The files afterwards *)
Definition ro_drop_files (d : db) : option file * option file := db_files d.

(** ** the search for the end of the index while the entries change *)
(** seqno.rs:153-183, over the length at a position at the time of the given read *)
Fixpoint find_loop_at (fuel : nat) (len_at : nat -> nat -> res N) (len start end_ reads : nat) : option (res nat * nat) :=
  match fuel with
  | 0 => None
  | S fuel =>
      if start <? len - 1 then
        match len_at reads (start + 1) with
        | Err e => Some (Err e, reads + 1)
        | Panic => Some (Panic, reads + 1)
        | Ok l1 =>
            if (l1 =? 0)%N then Some (Ok (start + 1), reads + 1)
            else
              let mid := (start + end_) / 2 in
              match len_at (reads + 1) mid with
              | Err e => Some (Err e, reads + 2)
              | Panic => Some (Panic, reads + 2)
              | Ok l => if (l =? 0)%N then find_loop_at fuel len_at len start mid (reads + 2)
                        else find_loop_at fuel len_at len mid end_ (reads + 2)
              end
        end
      else Some (Err IndexFileDamaged, reads)
  end.
Definition find_actual_end_at (fuel : nat) (len_at : nat -> nat -> res N) (len : nat) : option (res nat * nat) :=
  match len_at 0 0 with
  | Err e => Some (Err e, 1)
  | Panic => Some (Panic, 1)
  | Ok l0 =>
      if (l0 =? 0)%N || (len =? 0) then Some (Ok 0, 1)
      else match len_at 1 (len - 1) with
           | Err e => Some (Err e, 2)
           | Panic => Some (Panic, 2)
           | Ok l => if negb (l =? 0)%N then Some (Ok len, 2)
                     else find_loop_at fuel len_at len 0 len 2
           end
  end.
