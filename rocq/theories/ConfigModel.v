(** Model of the configuration documents: reading of cardano-utils/src/network_id.rs NetworkInfo and what is made of it, of
    utxo-selection/src/algorithms/thermostat.rs ThermostatAlgoConfig, of blockchain-source/src/cardano/time.rs Era, and
    reading and writing of multiverse/src/lib.rs BestBlockSelectionRule.  Executable definitions only.

    JSON and serde's derived readers are as in JsonModel.  All errors are None; usize has 64 bits. *)
From Coq Require Import ZArith NArith Ascii String.
From stdpp Require Import prelude numbers strings list.
From Verif Require Import ValueModel EstimModel TimeModel UtilModel JsonModel MultisigModel.
Open Scope Z_scope.

(** time.rs:4-11, derived; unknown fields are ignored *)
Definition era_names : list string := ["first_slot"; "start_epoch"; "known_time"; "slot_length"; "epoch_length_seconds"]%string.
Definition era_of_json (j : json) : option era :=
  match struct_fields era_names false j with
  | Some [a; b; c; d; e] =>
      f ← required read_u64 a; s ← required read_u64 b; k ← required read_u64 c; l ← required read_u64 d; p ← required read_u64 e;
      Some (Era f s k l p)
  | _ => None
  end.

(** thermostat.rs:13-21 *)
Record tdocument := TDocument { td_num : N; td_num_assets : N; td_min : dec; td_max : dec; td_main : string }.
Definition thermostat_names : list string :=
  ["num_accumulators"; "num_accumulators_assets"; "native_utxo_thermostat_min"; "native_utxo_thermostat_max"; "main_token"]%string.
Definition thermostat_of_json (j : json) : option tdocument :=
  match struct_fields thermostat_names true j with
  | Some [a; b; c; d; e] =>
      n ← required read_u64 a; m ← required read_u64 b; lo ← required read_value c; hi ← required read_value d; t ← required read_string e;
      Some (TDocument n m lo hi t)
  | _ => None
  end.

(** network_id.rs:50-64 *)
Inductive net :=
| NTestnet
| NMainnet
| NCustom (protocol_magic network_id : N) (linear_fee_coefficient linear_fee_constant coins_per_utxo_word pool_deposit key_deposit : string)
          (max_value_size max_tx_size : N).
Definition custom_names : list string :=
  ["protocol_magic"; "network_id"; "linear_fee_coefficient"; "linear_fee_constant"; "coins_per_utxo_word"; "pool_deposit"; "key_deposit";
   "max_value_size"; "max_tx_size"]%string.
Definition custom_of_json (j : json) : option net :=
  match struct_fields custom_names true j with
  | Some [a; b; c; d; e; f; g; h; i] =>
      m ← required read_u32 a; n ← required read_u8 b; x ← required read_string c; y ← required read_string d; w ← required read_string e;
      p ← required read_string f; k ← required read_string g; v ← required read_u32 h; t ← required read_u32 i;
      Some (NCustom m n x y w p k v t)
  | _ => None
  end.
(** network_id.rs:48-49, derived: snake_case names of the variants; a variant without content is its name or an object with null *)
Definition net_of_json (j : json) : option net :=
  match j with
  | JStr s => if String.eqb s "testnet" then Some NTestnet else if String.eqb s "mainnet" then Some NMainnet else None
  | _ =>
      match tagged j with
      | Some (k, v) =>
          if String.eqb k "testnet" then match v with JNull => Some NTestnet | _ => None end
          else if String.eqb k "mainnet" then match v with JNull => Some NMainnet | _ => None end
          else if String.eqb k "custom" then custom_of_json v
          else None
      | None => None
      end
  end.

(** the part of it that the fee estimates use (EstimModel) *)
Definition fee_network (n : net) : network :=
  match n with
  | NTestnet => Testnet
  | NMainnet => Mainnet
  | NCustom _ _ c k _ _ _ _ m => Custom (text_of c) (text_of k) m
  end.

(** network_id.rs:66-78; the two known networks are the library's *)
Definition network_info (mainnet testnet : N * N) (n : net) : N * N :=
  match n with NMainnet => mainnet | NTestnet => testnet | NCustom magic id _ _ _ _ _ _ _ => (id, magic) end.

(** What network_id.rs:213-264 hands to the library's builder of configurations; outer None is a panic of an unwrap.  What the
    library makes of it (build, and its own unwrap) is not modelled. *)
Record builder_args := BuilderArgs {
  ba_fee : N * N; ba_coins_per_word : N; ba_coins_per_byte : option N; ba_pool_deposit : N; ba_key_deposit : N; ba_max_value : N; ba_max_tx : N
}.
Definition transaction_builder (n : net) : option builder_args :=
  match linear_fee (fee_network n) with
  | None => None
  | Some fee =>
      match n with
      | NMainnet | NTestnet => Some (BuilderArgs fee 34482 (Some 4310%N) 500000000 2000000 5000 DEFAULT_MAX_TX_SIZE)
      | NCustom _ _ _ _ w p k v t =>
          w ← u64_of_str w; p ← u64_of_str p; k ← u64_of_str k; Some (BuilderArgs fee w None p k v t)
      end
  end.

(** multiverse/src/lib.rs:56-81: an internally tagged enum with one variant *)
Record rule := LongestChain { ru_depth : N; ru_age_gap : N }.
Definition rule_to_json (r : rule) : json :=
  JObj [("rule", JStr "LongestChain"); ("depth", write_u64 (ru_depth r)); ("age_gap", write_u64 (ru_age_gap r))]%string.
Definition rule_fields (j : json) : option rule :=
  match struct_fields ["depth"; "age_gap"]%string false j with
  | Some [a; b] => d ← required read_u64 a; g ← required read_u64 b; Some (LongestChain d g)
  | _ => None
  end.
(** the tag is taken out of the object (twice is an error), or is the first element of an array; the rest is the variant *)
Definition rule_of_json (j : json) : option rule :=
  match j with
  | JObj kvs =>
      if Nat.leb (count_field kvs "rule") 1 then
        match find_field kvs "rule" with
        | Some (JStr t) =>
            if String.eqb t "LongestChain" then rule_fields (JObj (List.filter (fun kv => negb (String.eqb (fst kv) "rule")) kvs)) else None
        | _ => None
        end
      else None
  | JArr (JStr t :: rest) => if String.eqb t "LongestChain" then rule_fields (JArr rest) else None
  | _ => None
  end.
