(** What the first-address tool should ask and say. *)
From Coq Require Import NArith ZArith Ascii String.
From stdpp Require Import prelude numbers strings list.
From Verif Require Import UtilModel JsonModel FirstAddrModel.
Open Scope N_scope.

(** the key at a path of derivation indices *)
Fixpoint at_path {K} (derive : K -> N -> option K) (k : K) (path : list N) : option K :=
  match path with [] => Some k | i :: rest => match derive k i with Some k' => at_path derive k' rest | None => None end end.
Definition host (network : string) (path : string) : string := ("https://gate.flint-wallet.com/" ++ network ++ "/carp" ++ path)%string.
Definition ask_latest (network : string) : request := Request (host network "/block/latest") (JObj [("offset", JInt 0)]%string).
Definition ask_used (network address hash : string) : request :=
  Request (host network "/address/used") (JObj [("addresses", JArr [JStr address]); ("untilBlock", JStr hash)]%string).
Definition announce (address : string) : string := ("checking backend for address:" ++ String "010" (" " ++ address))%string.
Definition verdict (used : bool) : string := ("result:" ++ String "010" (if used then " used" else " unused"))%string.
(** the object's (last) content of a field *)
Definition content (kvs : list (string * json)) (n : string) (v : json) : Prop := exists a b, kvs = a ++ (n, v) :: b /\ n ∉ map fst b.
Definition once (kvs : list (string * json)) (n : string) (v : json) : Prop := exists a b, kvs = a ++ (n, v) :: b /\ n ∉ map fst a /\ n ∉ map fst b.
(** the document names the block with that hash *)
Definition names_block (j : json) (hash : string) : Prop := exists kvs b, j = JObj kvs /\ content kvs "block" (JObj b) /\ content b "hash" (JStr hash).
(** the document that the server should send for a block, with any further fields, in any order *)
Definition block_document (j : json) (hash : string) : Prop :=
  exists kvs b era height epoch slot, j = JObj kvs /\ once kvs "block" (JObj b) /\ once b "hash" (JStr hash) /\ once b "era" (JInt (Z.of_N era)) /\
    once b "height" (JInt (Z.of_N height)) /\ once b "epoch" (JInt (Z.of_N epoch)) /\ once b "slot" (JInt (Z.of_N slot)) /\
    era < 2 ^ 64 /\ height < 2 ^ 64 /\ epoch < 2 ^ 64 /\ slot < 2 ^ 64.
(** the document lists these addresses as used *)
Definition lists_used (j : json) (addresses : list string) : Prop := exists kvs, j = JObj kvs /\ content kvs "addresses" (JArr (map JStr addresses)).
Definition used_document (j : json) (addresses : list string) : Prop := exists kvs, j = JObj kvs /\ once kvs "addresses" (JArr (map JStr addresses)).
