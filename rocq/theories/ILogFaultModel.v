(** Appends to an indexed log map that fail, because a system call under the log fails or sled refuses the key.
    Executable definitions. *)
From Coq Require Import Lia ZArith.
From stdpp Require Import numbers list.
From Verif Require Import FraosModel ILogMapModel.

Section Faults.
Context {K V : Type} (c : codec K V).
(** storage.rs:62-92 append, with the system calls of the data file and of the index file that fail, and whether
    sled refuses the insert (80-88) *)
Definition ilm_append_faulty (k : cfg) (fd fi : faults) (refuse : bool) (st : ilm) (key : K) (value : V) : ilm * ires unit :=
  match key_to_seqno st with
  | None => (st, IErr)
  | Some m =>
      match db_append k fd fi (storage st) [enc_val c value] with
      | (d, Err _) => (Ilm d (Some m), IErr)
      | (d, Panic) => (Ilm d (Some m), IPanic)
      | (d, Ok None) => (Ilm d (Some m), IErr)
      | (d, Ok (Some position)) =>
          if refuse then (Ilm d (Some m), IErr)
          else (Ilm d (Some (sled_insert m (enc_key c key) (json_of_pos (N.of_nat position)))), IOk tt)
      end
  end.
(** a history of such appends and of reopenings, with the results of the appends *)
Inductive eop := EAppend (key : K) (v : V) (fd fi : faults) (refuse : bool) | EReopen.
Fixpoint erun (k : cfg) (st : ilm) (h : list eop) : ires (ilm * list (ires unit)) :=
  match h with
  | [] => IOk (st, [])
  | EAppend key v fd fi refuse :: r =>
      let (st', a) := ilm_append_faulty k fd fi refuse st key v in
      match a with
      | IPanic => IPanic
      | _ => match erun k st' r with IOk (s, l) => IOk (s, a :: l) | IErr => IErr | IPanic => IPanic end
      end
  | EReopen :: r =>
      match files_op k (storage st) FReopen with
      | Ok d => erun k (Ilm d (key_to_seqno st)) r
      | Err _ => IErr
      | Panic => IPanic
      end
  end.
Definition eopen (k : cfg) (h : list eop) : ires (ilm * list (ires unit)) :=
  match db_new (Some []) (Some []) with Ok d => erun k (Ilm d (Some [])) h | Err _ => IErr | Panic => IPanic end.
End Faults.
Arguments EAppend {K V} _ _ _ _ _. Arguments EReopen {K V}.
