(** Model of cardano-cli-tools/cip1852-first-address/src/main.rs.  Executable definitions only.

    The Cardano library, the HTTP client and the parser of JSON text are outside: they are parameters.  JSON documents are trees
    (JsonModel), and miniserde's derived readers are given here: unknown fields are ignored, of a repeated field the last one
    counts, every field is required, arrays are no structs. *)
From Coq Require Import NArith ZArith Ascii String.
From stdpp Require Import prelude numbers strings list.
From Verif Require Import UtilModel JsonModel.
Open Scope N_scope.

(** miniserde's derive, main.rs:136-165: every occurrence of a field is read, the last one is kept *)
Definition mini_field {A} (read : json -> option A) (kvs : list (string * json)) (n : string) : option A :=
  l ← mapM (fun kv => read (snd kv)) (List.filter (fun kv => String.eqb (fst kv) n) kvs); last l.
(** main.rs:158-165; only the hash is used *)
Definition mini_block (j : json) : option string :=
  match j with
  | JObj kvs =>
      _ ← mini_field read_u64 kvs "era"; h ← mini_field read_string kvs "hash"; _ ← mini_field read_u64 kvs "height";
      _ ← mini_field read_u64 kvs "epoch"; _ ← mini_field read_u64 kvs "slot"; Some h
  | _ => None
  end.
(** main.rs:153-156 *)
Definition mini_latest (j : json) : option string := match j with JObj kvs => mini_field mini_block kvs "block" | _ => None end.
(** main.rs:148-151 *)
Definition mini_used (j : json) : option (list string) := match j with JObj kvs => mini_field (read_list read_string) kvs "addresses" | _ => None end.

(** an answer to a request: its status and its body, if that can be read *)
Record answer := Answer { a_status : N; a_text : option string }.
Definition is_success (status : N) : bool := (200 <=? status) && (status <? 300).
Record request := Request { r_url : string; r_body : json }.
Inductive outcome := Done | Failed | Panicked.
(** what the program did: requests sent, lines printed, how it ended *)
Record run := Run { run_requests : list request; run_lines : list string; run_outcome : outcome }.

(** main.rs:24-33, and 18-23 *)
Definition network_id (s : string) : option N := if String.eqb s "mainnet" then Some 1 else if String.eqb s "testnet" then Some 0 else None.
Definition network_text (n : N) : string := if n =? 1 then "mainnet" else "testnet".
(** main.rs:13-15 *)
Definition STAKING_KEY_INDEX : N := 0.
Definition EXTERNAL : N := 0.
Definition CHIMERIC_ACCOUNT_DERIVATION : N := 2.

Section tool.
  Context {K : Type}.
  (** Bip32PublicKey::from_bytes and derive *)
  Variables (from_bytes : string -> option K) (derive : K -> N -> option K).
  (** the text of BaseAddress::new(network, spending key, staking key): main.rs:84-88 with to_address and to_bech32, whose unwrap is
      taken to succeed *)
  Variable base_address : N -> K -> K -> string.
  (** miniserde's parser *)
  Variable parse_json : string -> option json.
  (** the server: its answer to a request after the ones before it; None: no answer *)
  Variable server : list request -> request -> option answer.

  (** main.rs:69-82 *)
  Definition keys_of (public_key : string) : option (K * K) :=
    bytes ← hex_decode public_key; pk ← from_bytes bytes;
    account ← derive pk CHIMERIC_ACCOUNT_DERIVATION; staking ← derive account STAKING_KEY_INDEX;
    external ← derive pk EXTERNAL; spending ← derive external 0;
    Some (spending, staking).
  (** main.rs:63-133; the arguments that structopt refuses end in an error too *)
  Definition first_address (public_key network : string) : run :=
    match network_id network with
    | None => Run [] [] Failed
    | Some n =>
        let base := ("https://gate.flint-wallet.com/" ++ network_text n ++ "/carp")%string in
        match keys_of public_key with
        | None => Run [] [] Failed
        | Some (spending, staking) =>
            let address := base_address n spending staking in
            let line := ("checking backend for address:" ++ String "010" (" " ++ address))%string in
            let req1 := Request (base ++ "/block/latest") (JObj [("offset", JInt 0)]%string) in
            match server [] req1 with
            | None => Run [req1] [line] Failed
            | Some latest =>
                match t ← a_text latest; j ← parse_json t; mini_latest j with
                | None => Run [req1] [line] Failed
                | Some hash =>
                    let req2 := Request (base ++ "/address/used") (JObj [("addresses", JArr [JStr address]); ("untilBlock", JStr hash)]%string) in
                    match server [req1] req2 with
                    | None => Run [req1; req2] [line] Failed
                    | Some result =>
                        if is_success (a_status result) then
                          match a_text result with
                          | None => Run [req1; req2] [line] Panicked
                          | Some t =>
                              match j ← parse_json t; mini_used j with
                              | None => Run [req1; req2] [line] Failed
                              | Some [] => Run [req1; req2] [line; ("result:" ++ String "010" " unused")%string] Done
                              | Some _ => Run [req1; req2] [line; ("result:" ++ String "010" " used")%string] Done
                              end
                          end
                        else Run [req1; req2] [line] Failed
                    end
                end
            end
        end
    end.
End tool.
