(** What an indexed log map is: the list of everything written, each value with its key and whether the key
    index knows of it (only a crash can leave a value the index does not know). *)
From Coq Require Import Lia ZArith.
From stdpp Require Import numbers list gmap.
From Verif Require Import FraosModel FraosSpec ILogMapModel.

(** assumed of the serialisation library: keys that differ are encoded differently, a value is decoded to what
    was encoded, no value is encoded as nothing *)
Definition codec_ok {K V} (c : codec K V) : Prop :=
  (forall k1 k2, enc_key c k1 = enc_key c k2 -> k1 = k2) /\
  (forall v, dec_val c (enc_val c v) = Some v) /\
  (forall v, enc_val c v <> []).

Record written (K V : Type) := Written { w_key : K; w_val : V; w_indexed : bool }.
Arguments Written {K V} _ _ _. Arguments w_key {K V} _. Arguments w_val {K V} _. Arguments w_indexed {K V} _.

Section Spec.
Context {K V : Type} (c : codec K V).

(** everything answered by the map agrees with [E] *)
Definition shows (st : ilm) (E : list (written K V)) : Prop :=
  (* a key with an indexed value: the last one counts *)
  (forall E1 k v E2, E = E1 ++ Written k v true :: E2 -> (forall v', Written k v' true ∉ E2) ->
     ilm_get c st k = IOk (Some v) /\ ilm_contains c st k = IOk true /\
     ilm_get_next c st (Some k) = IOk (w_val <$> head E2) /\
     forall n, ilm_iter_from_items c n st k = IOk (Some (map IOk (take n (v :: map w_val E2)), length E2 + 1 <? n))) /\
  (forall k, (forall v, Written k v true ∉ E) ->
     ilm_get c st k = IOk None /\ ilm_contains c st k = IOk false /\ ilm_get_next c st (Some k) = IOk None /\
     forall n, ilm_iter_from_items c n st k = IOk None) /\
  ilm_is_empty st = IOk (forallb (fun w => negb (w_indexed w)) E) /\
  (forall n, ilm_iter c n st = (map IOk (take n (map w_val E)), length E <? n)) /\
  ilm_last c st = IOk (w_val <$> last E) /\
  ilm_get_next c st None = IOk (w_val <$> head E).

(** a crash makes the index forget its newest [lost] entries *)
Fixpoint keep_indexed (m : nat) (E : list (written K V)) : list (written K V) :=
  match E with
  | [] => []
  | Written k v true :: E => match m with
                             | 0 => Written k v false :: keep_indexed 0 E
                             | S m => Written k v true :: keep_indexed m E
                             end
  | Written k v false :: E => Written k v false :: keep_indexed m E
  end.
Definition indexed_count (E : list (written K V)) : nat := length (filter (fun w => w_indexed w = true) E).
Definition forget (lost : nat) (E : list (written K V)) : list (written K V) := keep_indexed (indexed_count E - lost) E.

Definition map_op (E : list (written K V)) (o : iop (K := K) (V := V)) : list (written K V) :=
  match o with
  | IAppend k v => E ++ [Written k v true]
  | IReopen => E
  | ICrash k v (ICLog (CrashIndexWords n)) lost => if n <? 2 then forget lost E else forget lost E ++ [Written k v false]
  | ICrash k v (ICLog _) lost => forget lost E
  | ICrash k v ICBetween lost => forget lost E ++ [Written k v false]
  | ICrash k v ICAfter lost => forget lost (E ++ [Written k v true])
  end.
Definition map_after (h : list (iop (K := K) (V := V))) : list (written K V) := foldl map_op [] h.

(** everything written fits in a 64-bit file *)
Definition log_op (o : iop (K := K) (V := V)) : fop :=
  match o with IAppend k v => FAppend [enc_val c v] | IReopen => FReopen | ICrash k v p _ => FCrash [enc_val c v] (crash_log_point p) end.
Definition ihistory_fits (k : cfg) (h : list (iop (K := K) (V := V))) : Prop := history_fits k (map log_op h).

(** concurrent runs: no append of a key begins while another append of the same key is between its log write
    and its return *)
Definition no_key_race (tr : list (istep_ev (K := K) (V := V))) : Prop :=
  forall t1 t k v t2 t' v' t3, tr = t1 ++ ELog t k v :: t2 ++ ELog t' k v' :: t3 -> EKey t ∈ t2.
(** the appends of a concurrent run, in log order *)
Definition trace_appends (tr : list (istep_ev (K := K) (V := V))) : list (iop (K := K) (V := V)) :=
  concat (map (fun e => match e with ELog _ k v => [IAppend k v] | _ => [] end) tr).
End Spec.
