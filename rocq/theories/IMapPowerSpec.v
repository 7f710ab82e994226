(** What power failures may do to an indexed log map. *)
From Coq Require Import Lia ZArith.
From stdpp Require Import numbers list gmap.
From Verif Require Import FraosModel FraosSpec FraosPowerModel FraosPowerSpec ILogMapModel ILogMapSpec IMapPowerModel.

Section Spec.
Context {K V : Type} (c : codec K V).
Notation W := (written K V).

(** the entries of the map (ILogMapSpec.v) after one more operation: nothing written is ever taken back, a failure
    makes the index forget its newest entries, and may leave the value being written without its key *)
Inductive entries_step : list W -> mop (K := K) (V := V) -> list W -> Prop :=
| es_append E k v : entries_step E (QAppend k v) (E ++ [Written k v true])
| es_reopen E : entries_step E QReopen E
| es_kill E k v p lost : entries_step E (QKill k v p lost) (forget lost E)
| es_power E k v m df xf lost : entries_step E (QPower k v m df xf lost) (forget lost E)
| es_power_written E k v df xf lost : entries_step E (QPower k v MIndex df xf lost) (forget lost E ++ [Written k v false])
| es_between E k v df xf lost : entries_step E (QPowerBetween k v df xf lost) (forget lost E ++ [Written k v false]).
Inductive entries_after : list W -> list (mop (K := K) (V := V)) -> list W -> Prop :=
| ea_nil E : entries_after E [] E
| ea_cons E o E1 h E2 : entries_step E o E1 -> entries_after E1 h E2 -> entries_after E (o :: h) E2.

(** no process died after its record had become readable and before it was synchronised *)
Definition nothing_found (o : mop (K := K) (V := V)) : Prop :=
  match o with QKill _ v p _ => crash_kept [enc_val c v] p = 0 | _ => True end.
(** the files found after every power failure are possible ones, and everything fits in 64-bit files *)
Definition possible (k : cfg) (dk : disk) (h : list (mop (K := K) (V := V))) : Prop :=
  phistory_fits k (log_history c h) /\ along_new k dk (left_on_disk k dk) (log_history c h).
(** the appends that returned, oldest first, and all that were begun *)
Definition completed (h : list (mop (K := K) (V := V))) : list (K * V) :=
  concat (map (fun o => match o with QAppend k v => [(k, v)] | _ => [] end) h).
Definition begun (h : list (mop (K := K) (V := V))) : list (K * V) :=
  concat (map (fun o => match o with QAppend k v | QPower k v _ _ _ _ | QPowerBetween k v _ _ _ => [(k, v)] | _ => [] end) h).
(** no failure cost sled an insert *)
Definition keys_kept (o : mop (K := K) (V := V)) : Prop :=
  match o with QKill _ _ _ lost | QPower _ _ _ _ _ lost | QPowerBetween _ _ _ _ lost => lost = 0 | _ => True end.
End Spec.
