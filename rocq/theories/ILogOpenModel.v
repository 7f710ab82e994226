(** Model of opening an indexed log map from its configuration, indexed-log-map/src/storage.rs:28-60, and of the handle it gives.
    Executable definitions only. *)
From Coq Require Import Lia ZArith.
From stdpp Require Import numbers list gmap.
From Verif Require Import FraosModel FraosRoModel ILogMapModel JsonModel.

(** what is at the configured path: the log, the key index ("key_index", storage.rs:44), and whether a map has the key index open
    (sled locks its directory: a second open of it fails) *)
Record place := Place { pl_log : path; pl_keys : option sled_index; pl_taken : bool }.
(** an opened map; [mh_writable]: its log is not opened for reading only *)
Record map_handle := Handle { mh_map : ilm; mh_writable : bool }.

(** the log at the path after a handle of it was dropped (fraos/src/database.rs:164-169): a read-only one changes nothing *)
Definition log_dropped (writable : bool) (d : db) : path :=
  let (df, xf) := if writable then db_files (db_drop d) else ro_drop_files d in PDir df xf.

(** storage.rs:28-60 new; [mk]: whether the directory of the log can be created.  Simplified: sled opens whatever key index it
    finds, an undamaged one, and makes one where there is none. *)
Definition ilm_new (cfg : log_config) (mk : bool) (p : place) : place * ires map_handle :=
  match lc_path cfg with
  | None =>
      (p, match db_new None None with
          | Ok d => IOk (Handle (Ilm d (if lc_index cfg then Some [] else None)) true)
          | Err _ => IErr
          | Panic => IPanic
          end)
  | Some _ =>
      let writable := negb (lc_readonly cfg) in
      match open_path writable mk (pl_log p) with
      | (log, Err _) => (Place log (pl_keys p) (pl_taken p), IErr)
      | (log, Panic) => (Place log (pl_keys p) (pl_taken p), IPanic)
      | (log, Ok d) =>
          if lc_index cfg then
            (* the [?] of storage.rs:48 drops the log that was opened *)
            if pl_taken p then (Place (log_dropped writable d) (pl_keys p) true, IErr)
            else let keys := default [] (pl_keys p) in (Place log (Some keys) true, IOk (Handle (Ilm d (Some keys)) writable))
          else (Place log (pl_keys p) (pl_taken p), IOk (Handle (Ilm d None) writable))
      end
  end.

(** the handle over other files of the log, as in FraosRoModel.v *)
Definition ilm_under (st : ilm) (df xf : file) : ilm := Ilm (db_under (storage st) df xf) (key_to_seqno st).

Section Handle.
Context {K V : Type} (c : codec K V).
(** storage.rs:62-92 append through a handle *)
Definition handle_append (k : cfg) (h : map_handle) (key : K) (v : V) : map_handle * ires unit :=
  if mh_writable h then let (st, r) := ilm_append c k (mh_map h) key v in (Handle st true, r)
  else
    match key_to_seqno (mh_map h) with
    | None => (h, IErr)
    | Some m =>
        match ro_append k (storage (mh_map h)) [enc_val c v] with
        | (d, Err _) | (d, Ok None) => (Handle (Ilm d (Some m)) false, IErr)
        | (d, Panic) => (Handle (Ilm d (Some m)) false, IPanic)
        | (d, Ok (Some position)) => (Handle (Ilm d (Some (sled_insert m (enc_key c key) (json_of_pos (N.of_nat position))))) false, IOk tt)
        end
    end.
End Handle.
(** dropping a map: the log and, where it has one, the lock of the key index *)
Definition handle_drop (h : map_handle) (p : place) : place :=
  Place (log_dropped (mh_writable h) (storage (mh_map h)))
    (match key_to_seqno (mh_map h) with Some m => Some m | None => pl_keys p end)
    (match key_to_seqno (mh_map h) with Some _ => false | None => pl_taken p end).
