(** Power failures under the indexed log map.  Executable definitions.  The map of storage.rs keeps its values in
    a log of fraos (FraosPowerModel.v has what a power failure does to that) and its keys in sled.  sled is
    opened with Mode::HighThroughput (storage.rs:44-47) and never flushed by the map, so what it holds after a
    failure is what it held some number of inserts earlier. *)
From Coq Require Import Lia ZArith.
From stdpp Require Import numbers list.
From Verif Require Import FraosModel FraosPowerModel ILogMapModel.

(** the open map: the log with what the disk may hold of its files, and the keys (storage.rs:9-14) *)
Record mstate := MState { m_disk : pstate; m_keys : sled_index }.
Definition m_map (s : mstate) : ilm := Ilm (ps_db (m_disk s)) (Some (m_keys s)).

Section Power.
Context {K V : Type} (c : codec K V).

Inductive mop :=
| QAppend (key : K) (v : V)                                     (* storage.rs:62-92 *)
| QReopen                                                       (* the map is dropped and opened again, 28-60 *)
| QKill (key : K) (v : V) (p : crash_point) (lost : nat)        (* the process dies inside the log append, 73-76 *)
| QPower (key : K) (v : V) (m : moment) (df xf : file) (lost : nat)   (* the power fails there, or between operations, or in the drop *)
| QPowerBetween (key : K) (v : V) (df xf : file) (lost : nat).  (* the power fails after the log append, before the key is inserted, 76-88 *)

(** what the operation does to the log *)
Definition log_ops (o : mop) : list pop :=
  match o with
  | QAppend _ v => [PAppend [enc_val c v]]
  | QReopen => [PReopen]
  | QKill _ v p _ => [PKill [enc_val c v] p]
  | QPower _ v m df xf _ => [PPower [enc_val c v] m df xf]
  | QPowerBetween _ v df xf _ => [PAppend [enc_val c v]; PPower [] MIdle df xf]
  end.
(** sled without its newest [lost] inserts *)
Definition sled_without (lost : nat) (m : sled_index) : sled_index := take (length m - lost) m.

Definition mop_apply (k : cfg) (dk : disk) (s : mstate) (o : mop) : ires mstate :=
  match prun k dk (m_disk s) (log_ops o) with
  | Err _ => IErr
  | Panic => IPanic
  | Ok p =>
      match o with
      | QAppend key v =>
          match ilm_append c k (m_map s) key v with
          | (_, IPanic) => IPanic
          | (st, _) => IOk (MState p (default [] (key_to_seqno st)))
          end
      | QReopen => IOk (MState p (m_keys s))
      | QKill _ _ _ lost | QPower _ _ _ _ _ lost | QPowerBetween _ _ _ _ lost => IOk (MState p (sled_without lost (m_keys s)))
      end
  end.
Fixpoint mrun (k : cfg) (dk : disk) (s : mstate) (h : list mop) : ires mstate :=
  match h with
  | [] => IOk s
  | o :: r => match mop_apply k dk s o with IOk s' => mrun k dk s' r | IErr => IErr | IPanic => IPanic end
  end.
(** a new map in empty files *)
Definition mopen (k : cfg) (dk : disk) (h : list mop) : ires mstate :=
  match db_new (Some []) (Some []) with Ok d => mrun k dk (MState (PState d [[]] [[]]) []) h | Err _ => IErr | Panic => IPanic end.
(** the log's part of a history *)
Definition log_history (h : list mop) : list pop := concat (map log_ops h).
End Power.
Arguments QAppend {K V} _ _. Arguments QReopen {K V}. Arguments QKill {K V} _ _ _ _. Arguments QPower {K V} _ _ _ _ _ _. Arguments QPowerBetween {K V} _ _ _ _ _.
