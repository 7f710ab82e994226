(** Model of utxo-selection/src/estimators/cml_fee_estimator.rs: a fee estimator on top of the Cardano library's transaction
    builder.  Executable definitions only.

    The library's builder is a state with operations, given by a record; the payment credentials, the script calculation flag and
    the price of a byte, which never change, are inside its operations.  An operation on &mut self that fails may leave any
    state.  Amounts of SelModel are integers, 10^k of them to a lovelace; as decimals they have scale k. *)
From Coq Require Import ZArith NArith.
From stdpp Require Import gmap strings list.
From Verif Require Import ValueModel BalanceModel StoreModel SelModel EstimModel UtilModel.
Open Scope Z_scope.

Section Cml.
  Context {Addr Script Datum I B : Type} (k : Z).
  Notation output := (@loutput Addr Script Datum).
  (** the library's conversions (UtilModel) *)
  Context (ho : horder) (from_bech32 : string -> option Addr) (extra_from_json : string -> option (option Script * option Datum)).
  (** core's UTxODetails carries metadata and extra, of which the second matters here *)
  Context (extra_of : string -> option string).

  Record library := Library {
    (** SingleInputBuilder with the credentials: utxo.rs:55-74 *)
    lb_input : string * N * output -> option I;
    lb_min_fee : B -> option N;
    lb_set_fee : B -> N -> B;
    lb_fee_in : B -> I -> option N;
    lb_add_in : B -> I -> B * bool;
    lb_fee_out : B -> output -> option N;
    lb_add_out : B -> output -> B * bool;
    lb_full_size : B -> option N;
    (** min_pure_ada *)
    lb_min_pure : Addr -> option Datum -> option Script -> option N
  }.
  Context (lib : library).

  Definition dasset_of (a : asset) : dasset := DAsset (a_policy a) (a_name a) (a_fp a) (Dec (a_qty a) k).
  (** cardano-utils/src/utxo.rs:23-75 and 211-238 on the amounts of SelModel *)
  Definition to_input (u : utxo) : option I :=
    match utxo_details_to_io ho from_bech32 extra_from_json
            (Details (fst (u_ptr u)) (snd (u_ptr u)) (u_addr u) (Dec (u_value u) k) (map dasset_of (u_assets u)) (extra_of (u_rest u))) with
    | Some io => lb_input lib io
    | None => None
    end.
  Definition to_output (o : uout) : option output :=
    utxo_builder_to_cml_output ho from_bech32 extra_from_json (Builder (o_addr o) (Dec (o_value o) k) (map dasset_of (o_assets o)) (o_extra o)).

  (** Value::<Regulated>::from(u64) *)
  Definition lovelace (n : N) : Z := Z.of_N n * 10 ^ k.

  (** cml_fee_estimator.rs:23-40 *)
  Definition cml_new (b : B) : option B := f ← lb_min_fee lib b; Some (lb_set_fee lib b f).
  (** cml_fee_estimator.rs:21 *)
  Definition DEFAULT_TX_SIZE : N := 16384.
  (** cml_fee_estimator.rs:43-127 *)
  Definition cml_estimator : estimator B := {|
    e_min_fee b := lovelace <$> lb_min_fee lib b;
    e_fee_in b u := i ← to_input u; lovelace <$> lb_fee_in lib b i;
    e_add_in b u := match to_input u with Some i => lb_add_in lib b i | None => (b, false) end;
    e_fee_out b o := out ← to_output o; lovelace <$> lb_fee_out lib b out;
    e_add_out b o := match to_output o with Some out => lb_add_out lib b out | None => (b, false) end;
    e_min_value b o := (b, out ← to_output o; lovelace <$> lb_min_pure lib (lo_addr out) (lo_datum out) (lo_script out));
    e_size b := lb_full_size lib b;
    e_max _ := Some DEFAULT_TX_SIZE
  |}.
End Cml.
Arguments library : clear implicits.
