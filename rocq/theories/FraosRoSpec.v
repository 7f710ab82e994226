(** What C50 says of the moments at which a reader looks at the files of a log. *)
From Coq Require Import Lia.
From stdpp Require Import numbers list.
From Verif Require Import FraosModel FraosSpec.

(** A moment of a writer's history: so many operations are done, and the next one is at some point. *)
Record moment := Moment { m_done : nat; m_point : crash_point }.
Definition batch_at (h : list fop) (m : moment) : list (list N) := match h !! m_done m with Some o => op_batch o | None => [] end.
Definition kept_at (h : list fop) (m : moment) : list (list N) := take (crash_kept (batch_at h m) (m_point m)) (batch_at h m).

(** the points that an operation passes: a failing append does not write to the index; an append that ends in a crash gets as
    far as the crash; only closing (and a crash in it) cuts the files *)
Definition passes (o : fop) (p : crash_point) : Prop :=
  match o with
  | FAppend _ => p <> CrashInDrop
  | FAppendFail _ _ recs => p <> CrashInDrop /\ crash_kept recs p = 0
  | FReopen => True
  | FCrash recs q => (p = CrashInDrop -> q = CrashInDrop) /\ crash_kept recs p <= crash_kept recs q
  end.
Definition occurs (h : list fop) (m : moment) : Prop :=
  m_done m <= length h /\ match h !! m_done m with Some o => passes o (m_point m) | None => True end.

(** the two files at that moment, data first *)
Definition files_at (k : cfg) (h : list fop) (m : moment) : option (list N * list N) :=
  match files_open k (take (m_done m) h) with
  | Ok d => match crash_files k d (batch_at h m) (m_point m) with (Some df, Some xf) => Some (df, xf) | _ => None end
  | _ => None
  end.

(** not later: fewer operations are done, or the same and the one under way has written no more index entries *)
Definition not_later (h : list fop) (m m' : moment) : Prop :=
  m_done m < m_done m' \/ m_done m = m_done m' /\ length (kept_at h m) <= length (kept_at h m').

(** Entries of an index that is being written: the used ones come first, and their number grows. *)
Definition growing (len_at : nat -> nat -> res N) (len : nat) (used : nat -> nat) : Prop :=
  (forall t, used t <= used (S t)) /\ (forall t, used t <= len) /\
  forall t i, i < len -> exists l, len_at t i = Ok l /\ (l <> 0%N <-> i < used t).
