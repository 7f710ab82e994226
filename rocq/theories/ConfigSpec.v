(** What a configuration document is: the fields that it gives, each once, in any order or by position. *)
From Coq Require Import ZArith NArith Ascii String.
From stdpp Require Import prelude numbers strings list.
From Verif Require Import ValueModel JsonModel.
Open Scope Z_scope.

(** the object gives the field [n] once, with the content [v] *)
Definition gives (kvs : list (string * json)) (n : string) (v : json) : Prop :=
  exists a b, kvs = a ++ (n, v) :: b /\ n ∉ map fst a /\ n ∉ map fst b.
(** the document gives to the fields [names] the contents [vals]: an object with each of them once and, if it is [strict], with
    nothing else; or an array of the contents in the order of the names *)
Definition document (names : list string) (strict : bool) (vals : list json) (j : json) : Prop :=
  (exists kvs, j = JObj kvs /\ Forall2 (gives kvs) names vals /\ (strict = true -> forall k, k ∈ map fst kvs -> k ∈ names)) \/
  (j = JArr vals /\ length vals = length names).
(** an amount: the text of one, or a whole number below 2^64 *)
Definition is_amount (j : json) (v : dec) : Prop :=
  (exists s, j = JStr s /\ value_deserialize (text_of s) = Some v) \/ (exists n, j = JInt (Z.of_N n) /\ (n < 2 ^ 64)%N /\ v = dec_of_Z (Z.of_N n)).
