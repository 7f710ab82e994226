(** CBOR (RFC 8949, shortest heads, definite lengths) and the parts of Cardano's ledger format that the fee assumptions are about,
    as bytes.  This is specification: the repository leaves it to the Cardano library. *)
From Coq Require Import ZArith NArith Ascii String.
From stdpp Require Import prelude numbers strings list.
From Verif Require Import ValueModel EstimModel JsonModel MultisigModel.
Open Scope N_scope.

Notation bytes := (list ascii).
Definition byte (n : N) : ascii := ascii_of_N n.
(** [k] bytes, most significant first *)
Fixpoint big_endian (k : nat) (n : N) : bytes :=
  match k with O => [] | S k => byte (n / 256 ^ N.of_nat k mod 256) :: big_endian k n end.
Definition head_of (major n : N) : bytes :=
  if n <? 24 then [byte (32 * major + n)]
  else if n <? 2 ^ 8 then byte (32 * major + 24) :: big_endian 1 n
  else if n <? 2 ^ 16 then byte (32 * major + 25) :: big_endian 2 n
  else if n <? 2 ^ 32 then byte (32 * major + 26) :: big_endian 4 n
  else byte (32 * major + 27) :: big_endian 8 n.
Definition size (b : bytes) : N := N.of_nat (length b).
Definition uint (n : N) : bytes := head_of 0 n.
Definition bstr (s : string) : bytes := head_of 2 (N.of_nat (String.length s)) ++ text_of s.
Definition tstr (s : string) : bytes := head_of 3 (N.of_nat (String.length s)) ++ text_of s.
Definition arr (l : list bytes) : bytes := head_of 4 (N.of_nat (length l)) ++ concat l.
Definition dict (l : list (bytes * bytes)) : bytes := head_of 5 (N.of_nat (length l)) ++ concat (map (fun kv => fst kv ++ snd kv) l).

(** native scripts *)
Fixpoint script_bytes (s : script) : bytes :=
  match s with
  | Pubkey k => arr [uint 0; bstr k]
  | NOfK n l => arr [uint 3; uint n; arr (map script_bytes l)]
  end.
(** a witness set with scripts and nothing else *)
Definition scripts_only (l : list script) : bytes := dict [(uint 1, arr (map script_bytes l))].

(** transactions *)
Record txin := TxIn { ti_tx : string; ti_index : N }.
Record txout := TxOut { to_address : string; to_coin : N; to_assets : list (string * list (string * N)) }.
Definition in_bytes (i : txin) : bytes := arr [bstr (ti_tx i); uint (ti_index i)].
Definition assets_bytes (l : list (string * list (string * N))) : bytes :=
  dict (map (fun pa => (bstr (fst pa), dict (map (fun nq => (bstr (fst nq), uint (snd nq))) (snd pa)))) l).
Definition out_bytes (o : txout) : bytes :=
  arr [bstr (to_address o); match to_assets o with [] => uint (to_coin o) | l => arr [uint (to_coin o); assets_bytes l] end].
(** signatures are pairs of public key and signature; the metadata is the protocol magic under label 87 *)
Record tx := Tx {
  tx_ins : list txin; tx_outs : list txout; tx_fee : N; tx_ttl : option N; tx_scripts : list script;
  tx_signatures : list (string * string); tx_magic : option (string * string) (* hash of the metadata, magic *)
}.
Definition opt {A B} (o : option A) (f : A -> B) : list B := match o with Some a => [f a] | None => [] end.
Definition body_bytes (t : tx) : bytes :=
  dict ([(uint 0, arr (map in_bytes (tx_ins t))); (uint 1, arr (map out_bytes (tx_outs t))); (uint 2, uint (tx_fee t))]
        ++ opt (tx_ttl t) (fun n => (uint 3, uint n)) ++ opt (tx_magic t) (fun m => (uint 7, bstr (fst m)))).
Definition witness_bytes (t : tx) : bytes :=
  dict (match tx_signatures t with [] => [] | l => [(uint 0, arr (map (fun ks => arr [bstr (fst ks); bstr (snd ks)]) l))] end
        ++ match tx_scripts t with [] => [] | l => [(uint 1, arr (map script_bytes l))] end).
Definition metadata_bytes (t : tx) : bytes := match tx_magic t with Some m => dict [(uint 87, tstr (snd m))] | None => [byte 246] end.
Definition tx_encoding (t : tx) : bytes := arr [body_bytes t; witness_bytes t; [byte 245]; metadata_bytes t].

(** the ledger's fee for a transaction *)
Definition ledger_fee (coefficient constant : N) (t : tx) : N := constant + coefficient * size (tx_encoding t).

(** the sizes of hashes, keys and signatures *)
Definition long (n : nat) (s : string) : Prop := String.length s = n.
Definition wf_in (i : txin) : Prop := long 32 (ti_tx i) /\ ti_index i < 2 ^ 16.
Definition wf_sig (s : string * string) : Prop := long 32 (fst s) /\ long 64 (snd s).
Definition wf_plan (p : plan) : Prop := p_quorum p < 2 ^ 32 /\ Forall (long 28) (p_keys p).
(** an output at a Shelley address with at most one asset *)
Definition simple_out (o : txout) : Prop :=
  (String.length (to_address o) <= 57)%nat /\
  (to_assets o = [] \/ exists policy name quantity, to_assets o = [(policy, [(name, quantity)])] /\ long 28 policy /\ (String.length name <= 32)%nat).

(** the ledger's rule for native scripts *)
Fixpoint satisfied (signed : string -> bool) (s : script) : bool :=
  match s with
  | Pubkey k => signed k
  | NOfK n l => n <=? N.of_nat (length (List.filter id (map (satisfied signed) l)))
  end.

(** the ledger's minimum for the coin of an output *)
Definition enough_coin (coins_per_byte : N) (o : txout) : Prop := coins_per_byte * (160 + size (out_bytes o)) <= to_coin o.
