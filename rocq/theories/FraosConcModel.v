(** Concurrent use of one log: any number of threads append and read through clones of the handle.

    Modelled: fraos/src/database.rs:81-102 (append under [write_lock]), appender.rs:63-81 (grow, then publish the
    size), database.rs:118-125 (read the index, then the data), seqno.rs:111-113 (len).

    Atomic steps: grow_and_apply holds the RwLock of the file's mappings for writing during its whole run
    (growable_mmap.rs:109-198) and get_ref_and_apply holds it for reading (204-247), so each is one step; the
    size is one atomic store or load.  Between these steps any other thread may run.  [write_lock] keeps at
    most one append in progress.  No system call fails. *)
From Coq Require Import Lia ZArith.
From stdpp Require Import numbers list.
From Verif Require Import FraosModel.

(** the append in progress, after: the data bytes are in the mapping; their size is published; the index
    entries are in the mapping *)
Inductive wpc :=
| WIdle
| WDataGrown (recs : list (list byte)) (off : nat)
| WDataStored (recs : list (list byte)) (off : nat)
| WIdxGrown (recs : list (list byte)) (n : nat).

(** reads that have looked up the index and not yet read the data: number, offset, length *)
Record cstate := CState { c_db : db; c_w : wpc; c_reads : list (N * N * N) }.

Inductive event :=
| EvBegin (recs : list (list byte))                    (* append called with recs *)
| EvDone (n : nat) (recs : list (list byte))           (* append returned Ok(Some(n)) *)
| EvRead (s : N) (r : res (option (list byte)))        (* get_by_seqno(s) returned r *)
| EvLen (n : nat)                                      (* len() returned n *)
| EvTau.

(** flatfile.rs:33-52 with appender.rs:63-81 up to the store of the size *)
Definition data_grow (k : cfg) (g : gmm) (recs : list (list byte)) : gmm * res unit :=
  let w := concat recs in
  grow_and_apply k no_faults g (length w) (fun slice => (take slice w, if slice <? length w then Some IoError else None)).
(** seqno.rs:40-69 with appender.rs:63-81 up to the store of the size *)
Definition idx_grow (k : cfg) (g : gmm) (upd : list (nat * nat)) : gmm * res unit :=
  let inc := 8 * 2 * length upd in
  grow_and_apply k no_faults g inc (fun slice => if slice <? inc then ([], Some DataLength) else (flat_map entry_bytes upd, None)).

Inductive cstep (k : cfg) : cstate -> event -> cstate -> Prop :=
| CBegin d rs recs g :
    recs <> [] -> existsb (fun r => length r =? 0) recs = false ->
    data_grow k (ap_mmap (d_data d)) recs = (g, Ok tt) ->
    cstep k (CState d WIdle rs) (EvBegin recs)
      (CState (Db (Appender g (ap_size (d_data d))) (d_idx d)) (WDataGrown recs (ap_size (d_data d))) rs)
| CDataStore d rs recs off :
    cstep k (CState d (WDataGrown recs off) rs) EvTau
      (CState (Db (Appender (ap_mmap (d_data d)) (ap_size (d_data d) + length (concat recs))) (d_idx d)) (WDataStored recs off) rs)
| CIdxGrow d rs recs off g :
    idx_grow k (ap_mmap (d_idx d)) (locations off recs) = (g, Ok tt) ->
    cstep k (CState d (WDataStored recs off) rs) EvTau
      (CState (Db (d_data d) (Appender g (ap_size (d_idx d)))) (WIdxGrown recs (idx_len (d_idx d))) rs)
| CIdxStore d rs recs n :
    cstep k (CState d (WIdxGrown recs n) rs) (EvDone n recs)
      (CState (Db (d_data d) (Appender (ap_mmap (d_idx d)) (ap_size (d_idx d) + 8 * 2 * length recs))) WIdle rs)
| CReadIdx d w rs s off len :
    idx_get (d_idx d) s = Ok (Some (off, len)) ->
    cstep k (CState d w rs) EvTau (CState d w (rs ++ [(s, off, len)]))
| CReadNone d w rs s : (* also every other outcome of the lookup, which ends the read *)
    (forall off len, idx_get (d_idx d) s <> Ok (Some (off, len))) ->
    cstep k (CState d w rs) (EvRead s (match idx_get (d_idx d) s with Err e => Err e | Panic => Panic | Ok _ => Ok None end)) (CState d w rs)
| CReadData d w rs1 rs2 s off len :
    cstep k (CState d w (rs1 ++ (s, off, len) :: rs2)) (EvRead s (flat_get (d_data d) off len)) (CState d w (rs1 ++ rs2))
| CLen d w rs : cstep k (CState d w rs) (EvLen (db_len d)) (CState d w rs).

Inductive crun (k : cfg) : cstate -> list event -> cstate -> Prop :=
| crun_nil st : crun k st [] st
| crun_cons st ev st1 tr st2 : cstep k st ev st1 -> crun k st1 tr st2 -> crun k st (ev :: tr) st2.

(** the records of the appends that were begun, in that order *)
Definition begun (tr : list event) : list (list byte) :=
  concat (map (fun ev => match ev with EvBegin recs => recs | _ => [] end) tr).
