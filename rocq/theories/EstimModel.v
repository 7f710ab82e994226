(** Model of utxo-selection/src/estimators/thermostat_estimator.rs and dummy_estimator.rs and of the fee assumptions of
    cardano-utils/src/network_id.rs.  Executable definitions only.

    Amounts are integers at one common scale, [sc] of them to one lovelace (as in ThermoModel).  u64 amounts of the Cardano
    library (BigNum) are numbers below 2^64, and their checked operations give None beyond, which the code unwraps: None is a
    panic here.  usize sizes are unbounded: to overflow they need 2^58 additions.  The length of the serialised multisig
    script (network_id.rs:150-156 and 169-172) comes from the Cardano library and is a parameter. *)
From Coq Require Import ZArith Ascii.
From stdpp Require Import gmap strings list.
From Verif Require Import ValueModel BalanceModel StoreModel SelModel.
Open Scope N_scope.

(** network_id.rs:14-46 *)
Definition ASSUMED_OVERHEAD : N := 50.
Definition SIZE_EMPTY : N := 17 + ASSUMED_OVERHEAD.
Definition SIZE_INPUT : N := 2 + 2 + 32 + 2.
Definition SIZE_OUTPUT : N := 5 + 1 + 2 + 57 + 1 + 9 + 2 + 2 + 28 + 1 + 2 + 32 + 9.
Definition SIZE_WITNESS : N := 5 + 2 + 1 + (2 + 32) + (2 + 64).
Definition DEFAULT_MAX_TX_SIZE : N := 16384.

(** BigNum: network_id.rs:93-101 and others use from_str, checked_mul and checked_add *)
Definition u64_bound : N := 2 ^ 64.
Definition big (n : N) : option N := if n <? u64_bound then Some n else None.
Definition big_mul (a b : N) : option N := big (a * b).
Definition big_add (a b : N) : option N := big (a + b).
(** u64::from_str, which BigNum::from_str calls: digits, an optional plus sign before them, no overflow *)
Definition parse_u64 (t : text) : option N :=
  let t := match t with c :: t' => if Ascii.eqb c "+" then t' else t | [] => [] end in
  match t with
  | [] => None
  | _ => match read_digits 0 t with Some z => big (Z.to_N z) | None => None end
  end.

(** network_id.rs:50-64, the fields the estimator uses *)
Inductive network :=
  | Testnet
  | Mainnet
  | Custom (linear_fee_coefficient linear_fee_constant : text) (max_tx_size : N).

(** multisig_plan.rs:9-13; the keys matter only through the length of the script *)
Record plan := Plan { p_quorum : N; p_keys : list string }.

(** network_id.rs:80-86 *)
Definition max_tx_size (n : network) : N :=
  match n with Mainnet | Testnet => DEFAULT_MAX_TX_SIZE | Custom _ _ m => m end.

(** network_id.rs:194-211: (coefficient, constant) *)
Definition linear_fee (n : network) : option (N * N) :=
  match n with
  | Mainnet | Testnet => Some (44, 155381)
  | Custom c k _ =>
      match parse_u64 c, parse_u64 k with Some c, Some k => Some (c, k) | _, _ => None end
  end.

Definition with_fee {A} (n : network) (f : N -> N -> option A) : option A :=
  match linear_fee n with Some (c, k) => f c k | None => None end.
(** network_id.rs:92-101 *)
Definition assumed_empty_transaction (n : network) : option N :=
  with_fee n (fun c k => match big_mul c SIZE_EMPTY with Some x => big_add x k | None => None end).
(** network_id.rs:106-110, 116-120, 126-130 *)
Definition assumed_cost_one_input (n : network) : option N := with_fee n (fun c _ => big_mul c SIZE_INPUT).
Definition assumed_cost_one_output (n : network) : option N := with_fee n (fun c _ => big_mul c SIZE_OUTPUT).
Definition assumed_cost_one_witness (n : network) : option N := with_fee n (fun c _ => big_mul c SIZE_WITNESS).
(** network_id.rs:177-192; the length of a str is that of its bytes *)
Definition assumed_cost_metadata_protocol_magic (n : network) (magic : text) : option N :=
  with_fee n (fun c _ => big_mul c (N.of_nat (length magic) + 5)).

(** thermostat_estimator.rs:12-31: the fields nothing changes after new ... *)
Record prices := Prices {
  pr_network : network; pr_empty : Z; pr_input : Z; pr_output : Z; pr_max : N; pr_size_in : N; pr_size_out : N
}.
(** ... and the others; the cost of the metadata is kept as the lovelace it is parsed from *)
Record estate := Estate {
  es_metadata : N; es_size : N; es_outputs : list uout; es_inputs : list utxo; es_assets : balances
}.

Section Estimator.
  Context (sc : Z) (script_len : plan -> N) (min_ada : uout -> option N).

  (** parsing the decimal text of a lovelace amount as a Value *)
  Definition lovelace (n : N) : Z := sc * Z.of_N n.

  (** network_id.rs:147-162 *)
  Definition estimate_size_overhead (p : plan) : N := ASSUMED_OVERHEAD + script_len p + p_quorum p * SIZE_WITNESS.
  (** network_id.rs:168-175 *)
  Definition assumed_cost_native_script (n : network) (p : plan) : option N := with_fee n (fun c _ => big_mul c (script_len p)).

  (** thermostat_estimator.rs:35-90 *)
  Definition estimator_new (n : network) (p : plan) : option (prices * estate) :=
    match assumed_empty_transaction n, assumed_cost_native_script n p, assumed_cost_one_witness n,
          assumed_cost_one_input n, assumed_cost_one_output n with
    | Some empty, Some script, Some witness, Some input, Some output =>
        Some (Prices n (lovelace empty + (lovelace script + lovelace witness * Z.of_N (p_quorum p)))%Z
                (lovelace input) (lovelace output) (max_tx_size n) SIZE_INPUT SIZE_OUTPUT,
              Estate 0 (SIZE_EMPTY + estimate_size_overhead p) [] [] ∅)
    | _, _, _, _, _ => None
    end.

  (** thermostat_estimator.rs:93-102 *)
  Definition add_protocol_magic (c : prices) (s : estate) (magic : text) : option estate :=
    match assumed_cost_metadata_protocol_magic (pr_network c) magic with
    | Some v => Some (Estate v (N.of_nat (length magic) + 5) (es_outputs s) (es_inputs s) (es_assets s))
    | None => None
    end.

  (** thermostat_estimator.rs:122-135 *)
  Definition est_add_input (c : prices) (s : estate) (u : utxo) : estate :=
    Estate (es_metadata s) (es_size s + pr_size_in c) (es_outputs s) (es_inputs s ++ [u])
           (foldl (fun m a => bal_plus m (a_fp a) (a_qty a)) (es_assets s) (u_assets u)).
  (** thermostat_estimator.rs:141-152 *)
  Definition est_add_output (c : prices) (s : estate) (o : uout) : estate :=
    Estate (es_metadata s) (es_size s + pr_size_out c) (es_outputs s ++ [o]) (es_inputs s)
           (foldl (fun m a => bal_minus m (a_fp a) (a_qty a)) (es_assets s) (o_assets o)).
  (** thermostat_estimator.rs:109-116 *)
  Definition est_min_fee (c : prices) (s : estate) : Z :=
    (pr_empty c + lovelace (es_metadata s) + pr_output c * Z.of_nat (length (es_outputs s)) + pr_input c * Z.of_nat (length (es_inputs s)))%Z.

  (** thermostat_estimator.rs:105-178; min_ada is utxo_builder_to_cml_output and the library's min_pure_ada (None: either
      fails) *)
  Definition thermostat_estimator (c : prices) : estimator estate :=
    Estimator (fun s => Some (est_min_fee c s))
              (fun _ _ => Some (pr_input c))
              (fun s u => (est_add_input c s u, true))
              (fun _ _ => Some (pr_output c))
              (fun s o => (est_add_output c s o, true))
              (fun s o => (s, option_map lovelace (min_ada o)))
              (fun s => Some (es_size s))
              (fun _ => Some (pr_max c)).

  (** a history of calls on one estimator: None is a panic *)
  Inductive ecall := CallInput (u : utxo) | CallOutput (o : uout) | CallMinValue (o : uout) | CallMagic (magic : text).
  Definition est_call (c : prices) (s : estate) (x : ecall) : option estate :=
    match x with
    | CallInput u => Some (fst (e_add_in (thermostat_estimator c) s u))
    | CallOutput o => Some (fst (e_add_out (thermostat_estimator c) s o))
    | CallMinValue o => Some (fst (e_min_value (thermostat_estimator c) s o))
    | CallMagic t => add_protocol_magic c s t
    end.
  Fixpoint est_calls (c : prices) (s : estate) (l : list ecall) : option estate :=
    match l with
    | [] => Some s
    | x :: l => match est_call c s x with Some s => est_calls c s l | None => None end
    end.
End Estimator.

(** dummy_estimator.rs:19-56 *)
Definition dummy_estimator : estimator unit :=
  Estimator (fun _ => Some 0%Z) (fun _ _ => Some 0%Z) (fun s _ => (s, true)) (fun _ _ => Some 0%Z) (fun s _ => (s, true))
            (fun s _ => (s, Some 0%Z)) (fun _ => Some 0) (fun _ => Some (u64_bound - 1)).
