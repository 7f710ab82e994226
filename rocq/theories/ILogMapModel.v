(** Model of indexed-log-map/src/storage.rs on top of the log of FraosModel. *)
From Coq Require Import Lia ZArith DecimalN.
From stdpp Require Import numbers list gmap.
From Verif Require Import FraosModel.

(** serde / ciborium, storage.rs:66-71, 100-102, 116-118: the three conversions used, as parameters.  What the
    theorems assume of them is [codec_ok] in ILogMapSpec.v. *)
Record codec (K V : Type) := Codec { enc_key : K -> list byte; enc_val : V -> list byte; dec_val : list byte -> option V }.
Arguments enc_key {K V} _ _. Arguments enc_val {K V} _ _. Arguments dec_val {K V} _ _.

(** serde_json of a usize, storage.rs:85 and 108: its decimal digits *)
Fixpoint digits_of (u : Decimal.uint) : list byte :=
  match u with
  | Decimal.Nil => []
  | Decimal.D0 u => 48%N :: digits_of u | Decimal.D1 u => 49%N :: digits_of u | Decimal.D2 u => 50%N :: digits_of u
  | Decimal.D3 u => 51%N :: digits_of u | Decimal.D4 u => 52%N :: digits_of u | Decimal.D5 u => 53%N :: digits_of u
  | Decimal.D6 u => 54%N :: digits_of u | Decimal.D7 u => 55%N :: digits_of u | Decimal.D8 u => 56%N :: digits_of u
  | Decimal.D9 u => 57%N :: digits_of u
  end.
Definition json_of_pos (n : N) : list byte := digits_of (N.to_uint n).
Fixpoint of_digits (l : list byte) : option Decimal.uint :=
  match l with
  | [] => Some Decimal.Nil
  | b :: r =>
      match of_digits r with
      | None => None
      | Some u =>
          match b with
          | 48 => Some (Decimal.D0 u) | 49 => Some (Decimal.D1 u) | 50 => Some (Decimal.D2 u) | 51 => Some (Decimal.D3 u)
          | 52 => Some (Decimal.D4 u) | 53 => Some (Decimal.D5 u) | 54 => Some (Decimal.D6 u) | 55 => Some (Decimal.D7 u)
          | 56 => Some (Decimal.D8 u) | 57 => Some (Decimal.D9 u) | _ => None
          end%N
      end
  end.
(** numbers of 2^64 and above do not parse as a usize.  Simplified: leading zeros and white space, never written
    by the encoder, are accepted or refused differently from serde_json. *)
Definition pos_of_json (l : list byte) : option N :=
  match l with
  | [] => None
  | _ => match of_digits l with
         | Some u => if (N.of_uint u <? 2 ^ 64)%N then Some (N.of_uint u) else None
         | None => None
         end
  end.

(** sled::Db of storage.rs:12, 38-53: the sequence of inserts it has accepted, the newest last.  A lookup finds
    the newest insert of the key. *)
Definition sled_index := list (list byte * list byte).
Fixpoint sled_get (m : sled_index) (key : list byte) : option (list byte) :=
  match m with
  | [] => None
  | (k, v) :: r => match sled_get r key with Some x => Some x | None => if decide (k = key) then Some v else None end
  end.
Definition sled_insert (m : sled_index) (key v : list byte) : sled_index := m ++ [(key, v)].
Definition sled_is_empty (m : sled_index) : bool := match m with [] => true | _ => false end.

(** anyhow::Result; [IErr] for any error *)
Inductive ires (A : Type) := IOk (a : A) | IErr | IPanic.
Arguments IOk {A} a. Arguments IErr {A}. Arguments IPanic {A}.

(** storage.rs:9-14 *)
Record ilm := Ilm { storage : db; key_to_seqno : option sled_index }.

Section Ilm.
Context {K V : Type} (c : codec K V).

(** storage.rs:62-92 append.  serialisation of the key and value never fails (see the trusted base). *)
Definition ilm_append (k : cfg) (st : ilm) (key : K) (value : V) : ilm * ires unit :=
  match key_to_seqno st with
  | None => (st, IErr)
  | Some m =>
      match db_append k no_faults no_faults (storage st) [enc_val c value] with
      | (d, Err _) => (Ilm d (Some m), IErr)
      | (d, Panic) => (Ilm d (Some m), IPanic)
      | (d, Ok None) => (Ilm d (Some m), IErr)
      | (d, Ok (Some position)) => (Ilm d (Some (sled_insert m (enc_key c key) (json_of_pos (N.of_nat position)))), IOk tt)
      end
  end.

(** storage.rs:94-119 iter_from: the iterator is the position it starts at *)
Definition ilm_iter_from (st : ilm) (key : K) : ires (option N) :=
  match key_to_seqno st with
  | None => IErr
  | Some m =>
      match sled_get m (enc_key c key) with
      | None => IOk None
      | Some pos => match pos_of_json pos with Some index => IOk (Some index) | None => IPanic end
      end
  end.
(** one step of that iterator, storage.rs:116-118: no item, an item, or an error item; and the new position *)
Definition item_next (d : db) (s : N) : option (ires V) * N :=
  match iter_next d s with
  | (Ok None, s) => (None, s)
  | (Ok (Some bs), s) => (Some (match dec_val c bs with Some v => IOk v | None => IErr end), s)
  | (Err _, s) => (Some IErr, s)
  | (Panic, s) => (Some IPanic, s)
  end.
Definition to_result (o : option (ires V)) : ires (option V) :=
  match o with None => IOk None | Some (IOk v) => IOk (Some v) | Some IErr => IErr | Some IPanic => IPanic end.

(** storage.rs:121-134 get *)
Definition ilm_get (st : ilm) (key : K) : ires (option V) :=
  match ilm_iter_from st key with
  | IErr => IErr
  | IPanic => IPanic
  | IOk None => IOk None
  | IOk (Some s) => to_result (fst (item_next (storage st) s))
  end.
(** storage.rs:136-141 contains *)
Definition ilm_contains (st : ilm) (key : K) : ires bool :=
  match ilm_get st key with IOk (Some _) => IOk true | IOk None => IOk false | IErr => IErr | IPanic => IPanic end.
(** storage.rs:143-148 is_empty *)
Definition ilm_is_empty (st : ilm) : ires bool :=
  match key_to_seqno st with None => IErr | Some m => IOk (sled_is_empty m) end.
(** storage.rs:150-159 iter: the items of the first [n] calls of next, and whether the end was seen *)
Definition decode_item (r : res (list byte)) : ires V :=
  match r with
  | Ok bs => match dec_val c bs with Some v => IOk v | None => IErr end
  | Err _ => IErr
  | Panic => IPanic
  end.
Definition ilm_iter (n : nat) (st : ilm) : list (ires V) * bool :=
  let (l, e) := iter_collect n (storage st) 0 in (map decode_item l, e).
(** the items of iter_from, storage.rs:111-118 *)
Definition ilm_iter_from_items (n : nat) (st : ilm) (key : K) : ires (option (list (ires V) * bool)) :=
  match ilm_iter_from st key with
  | IErr => IErr
  | IPanic => IPanic
  | IOk None => IOk None
  | IOk (Some s) => IOk (Some (let (l, e) := iter_collect n (storage st) s in (map decode_item l, e)))
  end.
(** storage.rs:161-175 last *)
Definition ilm_last (st : ilm) : ires (option V) :=
  match db_last (storage st) with
  | Ok None => IOk None
  | Ok (Some bs) => match dec_val c bs with Some v => IOk (Some v) | None => IErr end
  | Err _ => IErr
  | Panic => IPanic
  end.
(** storage.rs:178-205 get_next *)
Definition ilm_get_next (st : ilm) (key : option K) : ires (option V) :=
  match key with
  | None => to_result (fst (item_next (storage st) 0))
  | Some from =>
      match ilm_iter_from st from with
      | IErr => IErr
      | IPanic => IPanic
      | IOk None => IOk None
      | IOk (Some s) =>
          match item_next (storage st) s with
          | (Some IPanic, _) => IPanic
          | (None, _) => IOk None
          | (Some _, s') => to_result (fst (item_next (storage st) s'))
          end
      end
  end.

(** ** Histories of a map kept in files (storage.rs:28-60 new, with key indexing).  A crash hits the log at one
    of its crash points, or comes between the log append and the key insert, or after it; sled buffers its
    writes in the process (Mode::HighThroughput, storage.rs:44-47), so the newest [lost] inserts may be gone. *)
Inductive icrash := ICLog (p : crash_point) | ICBetween | ICAfter.
Inductive iop := IAppend (key : K) (v : V) | IReopen | ICrash (key : K) (v : V) (p : icrash) (lost : nat).
(** the log files when the append to the log is complete: the index words are all written *)
Definition crash_log_point (p : icrash) : crash_point := match p with ICLog p => p | _ => CrashIndexWords 2 end.
Definition ilm_op (k : cfg) (st : ilm) (o : iop) : ires ilm :=
  match o with
  | IAppend key v => match ilm_append k st key v with (_, IPanic) => IPanic | (st', _) => IOk st' end
  | IReopen => match files_op k (storage st) FReopen with Ok d => IOk (Ilm d (key_to_seqno st)) | Err _ => IErr | Panic => IPanic end
  | ICrash key v p lost =>
      match files_op k (storage st) (FCrash [enc_val c v] (crash_log_point p)) with
      | Ok d =>
          let m := default [] (key_to_seqno st) in
          let m := match p with
                   | ICAfter => sled_insert m (enc_key c key) (json_of_pos (N.of_nat (db_len (storage st))))
                   | _ => m
                   end in
          IOk (Ilm d (Some (take (length m - lost) m)))
      | Err _ => IErr
      | Panic => IPanic
      end
  end.
Fixpoint ilm_run (k : cfg) (st : ilm) (h : list iop) : ires ilm :=
  match h with
  | [] => IOk st
  | o :: r => match ilm_op k st o with IOk st' => ilm_run k st' r | IErr => IErr | IPanic => IPanic end
  end.
Definition ilm_open (k : cfg) (h : list iop) : ires ilm :=
  match db_new (Some []) (Some []) with Ok d => ilm_run k (Ilm d (Some [])) h | Err _ => IErr | Panic => IPanic end.
(** in memory: storage.rs:30 and 40-43 *)
Fixpoint ilm_mem_run (k : cfg) (st : ilm) (h : list (K * V)) : ires ilm :=
  match h with
  | [] => IOk st
  | (key, v) :: r => match ilm_append k st key v with (st', IOk _) => ilm_mem_run k st' r | (_, IErr) => IErr | (_, IPanic) => IPanic end
  end.
Definition ilm_mem_open (k : cfg) (h : list (K * V)) : ires ilm :=
  match db_new None None with Ok d => ilm_mem_run k (Ilm d (Some [])) h | Err _ => IErr | Panic => IPanic end.

(** ** Concurrent use of one map.  An append is two steps: the log append (under the write lock of the log,
    fraos/database.rs:86) and the key insert (atomic in sled).  A get is the key lookup and the log read. *)
Inductive ipc := PLogged (key : K) (pos : nat) | PFound (key : K) (pos : N).
Inductive istep_ev :=
| ELog (t : nat) (key : K) (v : V)         (* storage.rs:73-76 *)
| EKey (t : nat)                           (* storage.rs:80-88, the append returns *)
| EFind (t : nat) (key : K) (found : bool) (* storage.rs:103-109; not found: the get returns nothing *)
| ERead (t : nat) (key : K) (r : ires (option V)). (* storage.rs:125-132, the get returns *)
Record icst := Icst { ic_ilm : ilm; ic_pc : gmap nat ipc }.
Inductive icstep (k : cfg) : icst -> istep_ev -> icst -> Prop :=
| is_log st pcs t key v m d pos :
    pcs !! t = None -> key_to_seqno st = Some m ->
    db_append k no_faults no_faults (storage st) [enc_val c v] = (d, Ok (Some pos)) ->
    icstep k (Icst st pcs) (ELog t key v) (Icst (Ilm d (Some m)) (<[t := PLogged key pos]> pcs))
| is_key st pcs t key pos m :
    pcs !! t = Some (PLogged key pos) -> key_to_seqno st = Some m ->
    icstep k (Icst st pcs) (EKey t)
      (Icst (Ilm (storage st) (Some (sled_insert m (enc_key c key) (json_of_pos (N.of_nat pos))))) (delete t pcs))
| is_find_none st pcs t key :
    pcs !! t = None -> ilm_iter_from st key = IOk None -> icstep k (Icst st pcs) (EFind t key false) (Icst st pcs)
| is_find st pcs t key pos :
    pcs !! t = None -> ilm_iter_from st key = IOk (Some pos) ->
    icstep k (Icst st pcs) (EFind t key true) (Icst st (<[t := PFound key pos]> pcs))
| is_read st pcs t key pos :
    pcs !! t = Some (PFound key pos) ->
    icstep k (Icst st pcs) (ERead t key (to_result (fst (item_next (storage st) pos)))) (Icst st (delete t pcs)).
Inductive icrun (k : cfg) : icst -> list istep_ev -> icst -> Prop :=
| ir_nil s : icrun k s [] s
| ir_snoc s tr s1 e s2 : icrun k s tr s1 -> icstep k s1 e s2 -> icrun k s (tr ++ [e]) s2.
End Ilm.
Arguments IAppend {K V} _ _. Arguments IReopen {K V}. Arguments ICrash {K V} _ _ _ _.
Arguments ELog {K V} _ _ _. Arguments EKey {K V} _. Arguments EFind {K V} _ _ _. Arguments ERead {K V} _ _ _.
Arguments Icst {K} _ _. Arguments PLogged {K} _ _. Arguments PFound {K} _ _.
Arguments ic_ilm {K} _. Arguments ic_pc {K} _.
