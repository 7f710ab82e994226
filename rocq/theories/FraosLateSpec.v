(** Specification for C21: histories in which an append may fail anywhere if the log is closed and opened after it. *)
From stdpp Require Import list.
From Verif Require Import FraosModel FraosSpec.

Inductive mended : list fop -> Prop :=
| md_nil : mended []
| md_early o h : (forall fd fi recs, o = FAppendFail fd fi recs -> early_faults fd /\ early_faults fi) -> mended h -> mended (o :: h)
| md_reopened fd fi recs h : mended h -> mended (FAppendFail fd fi recs :: FReopen :: h).
