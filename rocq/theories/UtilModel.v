(** Model of cardano-utils/src/cip14.rs and utxo.rs.  Executable definitions only.

    A Rust str and a byte string are both a [string], a list of bytes.  The ledger library is modelled by its data: hashes are
    byte strings of a fixed length, a MultiAsset is a map from policies to maps from names to quantities.  Blake2b, bech32
    addresses and the JSON text of the extra data are parameters. *)
From Coq Require Import ZArith Ascii.
From stdpp Require Import gmap strings list.
From Verif Require Import ValueModel StoreModel EstimModel.
Open Scope N_scope.

(** ** hexadecimal (crate hex 0.4): encode gives lower case, decode takes both *)
Definition hexchar (n : N) : ascii := ascii_of_N (if n <? 10 then 48 + n else 87 + n).
Definition hexval (c : ascii) : option N :=
  let n := N_of_ascii c in
  if (48 <=? n) && (n <=? 57) then Some (n - 48)
  else if (65 <=? n) && (n <=? 70) then Some (n - 55)
  else if (97 <=? n) && (n <=? 102) then Some (n - 87)
  else None.
Fixpoint hex_encode (s : string) : string :=
  match s with
  | EmptyString => EmptyString
  | String c s => String (hexchar (N_of_ascii c / 16)) (String (hexchar (N_of_ascii c mod 16)) (hex_encode s))
  end.
Fixpoint hex_decode (s : string) : option string :=
  match s with
  | EmptyString => Some EmptyString
  | String _ EmptyString => None
  | String a (String b s) =>
      match hexval a, hexval b, hex_decode s with
      | Some x, Some y, Some r => Some (String (ascii_of_N (16 * x + y)) r)
      | _, _, _ => None
      end
  end.
(** decode_to_slice: the text must have exactly two digits for each byte of the slice *)
Definition decode_to_slice (s : string) (len : nat) : option string :=
  if (String.length s =? 2 * len)%nat then hex_decode s else None.

Section Fingerprint.
  (** Blake2b with 160 bits of output *)
  Context (blake : string -> string).

  (** cip14.rs:6-19; a slice is half as long as the name, rounded down *)
  Definition fingerprint_hash (policy name : string) : option string :=
    match decode_to_slice policy 28, decode_to_slice name (String.length name / 2) with
    | Some p, Some n => Some (blake (p ++ n)%string)
    | _, _ => None
    end.

  (** format!("{:0<64}", _) *)
  Fixpoint zeros_string (n : nat) : string := match n with O => EmptyString | S n => String "0" (zeros_string n) end.
  Definition pad64 (s : string) : string := (s ++ zeros_string (64 - String.length s))%string.

  (** cip14.rs:21-23 *)
  Definition fingerprint (policy name : string) : option token :=
    match fingerprint_hash policy name with Some h => Some (pad64 (hex_encode h)) | None => None end.
End Fingerprint.

(** ** values of the ledger *)
Notation multi := (gmap string (gmap string N)).
Record lvalue := LValue { lv_coin : N; lv_multi : option multi }.

(** core/src/tx/transaction_asset.rs:8-13, with exact amounts (ValueModel) *)
Record dasset := DAsset { da_policy : string; da_name : string; da_fp : token; da_qty : dec }.

(** bigdecimal's to_u64, which value.rs:191-193 calls: the integral part, unless it is negative or too large *)
Definition dec_to_u64 (v : dec) : option N :=
  if (digits v <? 0)%Z then None
  else big (Z.to_N (if (scale v <? 0)%Z then digits v * 10 ^ (- scale v) else digits v / 10 ^ scale v)).

(** utxo.rs:133: BigNum::from_str(&asset.quantity.truncate().to_string()) *)
Definition quantity_to_bignum (v : dec) : option N := parse_u64 (show (truncate v)).

(** utxo.rs:106-110 *)
Definition value_to_csl_coin (v : dec) : option N := dec_to_u64 v.

(** PolicyID::from_bytes, AssetName::new *)
Definition policy_from_bytes (b : string) : option string := if (String.length b =? 28)%nat then Some b else None.
Definition asset_name_new (b : string) : option string := if (String.length b <=? 32)%nat then Some b else None.

(** utxo.rs:121-139: an asset's place in the ledger value, and its quantity *)
Definition asset_entry (a : dasset) : option (string * string * N) :=
  match hex_decode (da_policy a) with
  | None => None
  | Some p =>
      match policy_from_bytes p with
      | None => None
      | Some p =>
          match hex_decode (da_name a) with
          | None => None
          | Some n =>
              match asset_name_new n with
              | None => None
              | Some n => match quantity_to_bignum (da_qty a) with Some q => Some (p, n, q) | None => None end
              end
          end
      end
  end.
(** MultiAsset::set_asset *)
Definition set_asset (m : multi) (p n : string) (q : N) : multi := <[p := <[n := q]> (default ∅ (m !! p))]> m.

(** the loop of utxo.rs:120-142; l is the order in which the table is iterated *)
Fixpoint set_assets (l : list dasset) (m : multi) : option multi :=
  match l with
  | [] => Some m
  | a :: l => match asset_entry a with Some (p, n, q) => set_assets l (set_asset m p n q) | None => None end
  end.

(** the orders in which a HashMap<TokenId, TransactionAsset> and a MultiAsset are iterated (the latter is sorted; nothing
    below needs that) *)
Definition horder := gmap token dasset -> list dasset.
Definition lorder := multi -> list (string * string * N).

Section Convert.
  Context (blake : string -> string) (ho : horder) (lo : lorder).

  (** utxo.rs:112-148 *)
  Definition tokens_to_csl_value (coin : dec) (assets : gmap token dasset) : option lvalue :=
    match value_to_csl_coin coin with
    | None => None
    | Some c =>
        if (size assets =? 0)%nat then Some (LValue c None)
        else match set_assets (ho assets) ∅ with Some m => Some (LValue c (Some m)) | None => None end
    end.

  (** utxo.rs:181-185 *)
  Definition csl_coin_to_value (n : N) : dec := dec_of_Z (Z.of_N n).

  (** utxo.rs:150-179 and 192-206 *)
  Definition token_of_entry (pnq : string * string * N) : option dasset :=
    let '(p, n, q) := pnq in
    match fingerprint blake (hex_encode p) (hex_encode n) with
    | Some f => Some (DAsset (hex_encode p) (hex_encode n) f (csl_coin_to_value q))
    | None => None
    end.
  Fixpoint tokens_of_entries (l : list (string * string * N)) (m : gmap token dasset) : option (gmap token dasset) :=
    match l with
    | [] => Some m
    | x :: l => match token_of_entry x with Some a => tokens_of_entries l (<[da_fp a := a]> m) | None => None end
    end.
  (** utxo.rs:187-209 *)
  Definition csl_value_to_tokens (v : lvalue) : option (dec * gmap token dasset) :=
    match tokens_of_entries (match lv_multi v with Some m => lo m | None => [] end) ∅ with
    | Some m => Some (csl_coin_to_value (lv_coin v), m)
    | None => None
    end.

  (** utxo.rs:35-38 and 216-219 *)
  Definition asset_table (l : list dasset) : gmap token dasset := foldl (fun m a => <[da_fp a := a]> m) ∅ l.

  (** *** whole outputs; addresses, scripts and data are those of the library *)
  Context {Addr Script Datum : Type} (from_bech32 : string -> option Addr) (to_bech32 : Addr -> option string).
  (** the JSON text of CardanoUTxOExtra (utxo.rs:17-21) *)
  Context (extra_to_json : option Script * option Datum -> option string) (extra_from_json : string -> option (option Script * option Datum)).

  Record loutput := LOutput { lo_addr : Addr; lo_amount : lvalue; lo_script : option Script; lo_datum : option Datum }.
  (** core/src/tx/utxo.rs:48-56 *)
  Record builder := Builder { bu_addr : string; bu_value : dec; bu_assets : list dasset; bu_extra : option string }.
  (** core/src/tx/utxo.rs:34-46, metadata is not used here *)
  Record details := Details { de_tx : string; de_index : N; de_addr : string; de_value : dec; de_assets : list dasset; de_extra : option string }.

  (** utxo.rs:43-53 and 224-235 *)
  Definition with_extra (a : Addr) (v : lvalue) (extra : option string) : option loutput :=
    match extra with
    | None => Some (LOutput a v None None)
    | Some t => match extra_from_json t with Some (s, d) => Some (LOutput a v s d) | None => None end
    end.

  (** utxo.rs:211-238 *)
  Definition utxo_builder_to_cml_output (b : builder) : option loutput :=
    match from_bech32 (bu_addr b) with
    | None => None
    | Some a =>
        match tokens_to_csl_value (bu_value b) (asset_table (bu_assets b)) with
        | None => None
        | Some v => with_extra a v (bu_extra b)
        end
    end.

  (** utxo.rs:240-259 *)
  Definition utxo_builder_from_output (o : loutput) : option builder :=
    match csl_value_to_tokens (lo_amount o) with
    | None => None
    | Some (v, m) =>
        match to_bech32 (lo_addr o) with
        | None => None
        | Some a => match extra_to_json (lo_script o, lo_datum o) with
                    | Some t => Some (Builder a v (ho m) (Some t))
                    | None => None
                    end
        end
    end.

  (** utxo.rs:27-55: the input and output given to the library's SingleInputBuilder; what it does with the payment
      credentials (57-74) is not modelled *)
  Definition utxo_details_to_io (d : details) : option (string * N * loutput) :=
    match decode_to_slice (de_tx d) 32 with
    | None => None
    | Some h =>
        match from_bech32 (de_addr d) with
        | None => None
        | Some a =>
            match tokens_to_csl_value (de_value d) (asset_table (de_assets d)) with
            | None => None
            | Some v => match with_extra a v (de_extra d) with Some o => Some (h, de_index d, o) | None => None end
            end
        end
    end.

  (** utxo.rs:77-104; a TransactionHash is displayed in hexadecimal *)
  Definition utxo_details_from_io (io : string * N * loutput) : option details :=
    let '(h, i, o) := io in
    match csl_value_to_tokens (lo_amount o) with
    | None => None
    | Some (v, m) =>
        match to_bech32 (lo_addr o) with
        | None => None
        | Some a => match extra_to_json (lo_script o, lo_datum o) with
                    | Some t => Some (Details (hex_encode h) i a v (ho m) (Some t))
                    | None => None
                    end
        end
    end.
End Convert.
