(** Model of the JSON forms of the data types: the serde implementations of core/src (block_number.rs, slot_number.rs,
    timestamp.rs, output_index.rs, number_visitor.rs, value.rs, block_id.rs, address.rs, token_id.rs, policy_id.rs, asset_name.rs,
    tx/), of blockchain-source/src/cardano/{event,point}.rs and of indexed-log-map/src/config.rs, and the plain text forms of the
    counters and of pointers.  Executable definitions only.

    JSON is a tree; that serde_json reads the text that it writes as the same tree is in the trusted base, as is what
    #[derive(Serialize, Deserialize)] generates, which is modelled here once ([struct_fields], [required], [defaulted], [tagged]).
    All errors are None.  Strings are strings of bytes (UTF-8 is not checked). *)
From Coq Require Import ZArith NArith Ascii String.
From stdpp Require Import prelude numbers strings list.
From Verif Require Import ValueModel EstimModel TimeModel UtilModel CardanoModel.
Open Scope Z_scope.

(** JInt: a number written without fraction or exponent that fits in u64 or i64; JFloat: any other number *)
Inductive json :=
| JNull | JBool (b : bool) | JInt (z : Z) | JFloat (f : string) | JStr (s : string) | JArr (l : list json) | JObj (l : list (string * json)).

(** ** serde's derived readers *)
Definition known (names : list string) (k : string) : bool := existsb (String.eqb k) names.
Definition find_field (kvs : list (string * json)) (n : string) : option json := snd <$> head (List.filter (fun kv => String.eqb (fst kv) n) kvs).
Definition count_field (kvs : list (string * json)) (n : string) : nat := length (List.filter (fun kv => String.eqb (fst kv) n) kvs).
(** The fields of a struct in the order of its declaration, from an object (visit_map: a field given twice is an error, an
    unknown one too if [deny]) or from an array (visit_seq). *)
Definition struct_fields (names : list string) (deny : bool) (j : json) : option (list (option json)) :=
  match j with
  | JObj kvs =>
      if forallb (fun n => Nat.leb (count_field kvs n) 1) names && (negb deny || forallb (fun kv => known names (fst kv)) kvs)
      then Some (map (find_field kvs) names) else None
  | JArr l =>
      if Nat.leb (length l) (length names) then Some (map Some l ++ replicate (length names - length l) None) else None
  | _ => None
  end.
Definition required {A} (read : json -> option A) (o : option json) : option A := match o with Some j => read j | None => None end.
Definition defaulted {A} (read : json -> option A) (d : A) (o : option json) : option A := match o with Some j => read j | None => Some d end.

Definition read_string (j : json) : option string := match j with JStr s => Some s | _ => None end.
Definition read_bool (j : json) : option bool := match j with JBool b => Some b | _ => None end.
Definition read_u64 (j : json) : option N := match j with JInt z => if (0 <=? z) && (z <? 2 ^ 64) then Some (Z.to_N z) else None | _ => None end.
Definition read_u8 (j : json) : option N := match j with JInt z => if (0 <=? z) && (z <? 256) then Some (Z.to_N z) else None | _ => None end.
(** Option<T> *)
Definition read_option {A} (read : json -> option A) (j : json) : option (option A) :=
  match j with JNull => Some None | _ => match read j with Some a => Some (Some a) | None => None end end.
Definition write_option {A} (write : A -> json) (o : option A) : json := match o with Some a => write a | None => JNull end.
(** Vec<T> *)
Definition read_list {A} (read : json -> option A) (j : json) : option (list A) := match j with JArr l => mapM read l | _ => None end.
Definition write_list {A} (write : A -> json) (l : list A) : json := JArr (map write l).
Definition write_u64 (n : N) : json := JInt (Z.of_N n).

(** ** numbers *)
Definition text_of (s : string) : text := String.list_ascii_of_string s.
Definition of_text (t : text) : string := String.string_of_list_ascii t.
(** fmt::Display of the counters: block_number.rs:77-81, slot_number.rs, timestamp.rs:46-50, output_index.rs:62-66 *)
Definition display_u64 (n : N) : string := of_text (show_nat (Z.of_N n)).
(** FromStr of the counters: block_number.rs:119-124, timestamp.rs:52-57 *)
Definition u64_of_str (s : string) : option N := parse_u64 (text_of s).
(** number_visitor.rs:22-51, used by BlockNumber, SlotNumber and Timestamp *)
Definition read_number (j : json) : option N := match j with JStr s => u64_of_str s | _ => read_u64 j end.
(** output_index.rs:7-11, derived *)
Definition read_index (j : json) : option N := read_u64 j.
(** value.rs:584-591 *)
Definition write_value (v : dec) : json := JStr (of_text (show v)).
(** value.rs:571-582, number_visitor.rs:66-96 *)
Definition read_value (j : json) : option dec :=
  match j with
  | JStr s => value_deserialize (text_of s)
  | JInt z => if (0 <=? z) && (z <? 2 ^ 64) then Some (dec_of_Z z) else None
  | _ => None
  end.

(** ** serde_json::Value, used for metadata: objects are maps, sorted by key *)
Fixpoint insert_key (k : string) (v : json) (l : list (string * json)) : list (string * json) :=
  match l with
  | [] => [(k, v)]
  | (k', v') :: r => match String.compare k k' with Lt => (k, v) :: l | Eq => (k, v) :: r | Gt => (k', v') :: insert_key k v r end
  end.
Fixpoint read_json (j : json) : json :=
  match j with
  | JArr l => JArr (map read_json l)
  | JObj kvs => JObj (fold_left (fun m kv => insert_key (fst kv) (snd kv) m) ((fix go l := match l with [] => [] | (k, v) :: r => (k, read_json v) :: go r end) kvs) [])
  | _ => j
  end.

(** ** core/src/tx *)
(** utxo.rs:12-18 *)
Record pointer := Pointer { pt_tx : string; pt_index : N }.
Definition pointer_to_json (p : pointer) : json := JObj [("transactionId", JStr (pt_tx p)); ("outputIndex", write_u64 (pt_index p))]%string.
Definition pointer_of_json (j : json) : option pointer :=
  match struct_fields ["transactionId"; "outputIndex"]%string true j with
  | Some [a; b] => x ← required read_string a; y ← required read_index b; Some (Pointer x y)
  | _ => None
  end.
(** utxo.rs:20-29 Display *)
Definition display_pointer (p : pointer) : string := (pt_tx p ++ "@" ++ display_u64 (pt_index p))%string.

(** transaction_asset.rs:5-13 *)
Record asset := Asset { as_policy : string; as_name : string; as_fingerprint : string; as_quantity : dec }.
Definition asset_to_json (a : asset) : json :=
  JObj [("policyId", JStr (as_policy a)); ("assetName", JStr (as_name a)); ("fingerprint", JStr (as_fingerprint a)); ("quantity", write_value (as_quantity a))]%string.
Definition asset_of_json (j : json) : option asset :=
  match struct_fields ["policyId"; "assetName"; "fingerprint"; "quantity"]%string true j with
  | Some [a; b; c; d] => x ← required read_string a; y ← required read_string b; z ← required read_string c; q ← required read_value d; Some (Asset x y z q)
  | _ => None
  end.

(** utxo.rs:34-46 *)
Record details := Details { dt_pointer : pointer; dt_address : string; dt_value : dec; dt_assets : list asset; dt_metadata : json; dt_extra : option string }.
Definition details_to_json (d : details) : json :=
  JObj [("pointer", pointer_to_json (dt_pointer d)); ("address", JStr (dt_address d)); ("value", write_value (dt_value d));
        ("assets", write_list asset_to_json (dt_assets d)); ("metadata", dt_metadata d); ("extra", write_option JStr (dt_extra d))]%string.
Definition details_of_json (j : json) : option details :=
  match struct_fields ["pointer"; "address"; "value"; "assets"; "metadata"; "extra"]%string false j with
  | Some [a; b; c; d; e; f] =>
      p ← required pointer_of_json a; x ← required read_string b; v ← required read_value c;
      l ← defaulted (read_list asset_of_json) [] d; m ← required (fun j => Some (read_json j)) e; t ← defaulted (read_option read_string) None f;
      Some (Details p x v l m t)
  | _ => None
  end.

(** utxo.rs:48-56 *)
Record builder := Builder { bd_address : string; bd_value : dec; bd_assets : list asset; bd_extra : option string }.
Definition builder_to_json (b : builder) : json :=
  JObj [("address", JStr (bd_address b)); ("value", write_value (bd_value b)); ("assets", write_list asset_to_json (bd_assets b));
        ("extra", write_option JStr (bd_extra b))]%string.
Definition builder_of_json (j : json) : option builder :=
  match struct_fields ["address"; "value"; "assets"; "extra"]%string false j with
  | Some [b; c; d; f] =>
      x ← required read_string b; v ← required read_value c; l ← required (read_list asset_of_json) d; t ← defaulted (read_option read_string) None f;
      Some (Builder x v l t)
  | _ => None
  end.

(** transaction.rs:8-19 *)
Record transaction := Transaction { tr_id : string; tr_inputs : list pointer; tr_outputs : list details; tr_metadata : json }.
Definition transaction_to_json (t : transaction) : json :=
  JObj [("transactionId", JStr (tr_id t)); ("inputs", write_list pointer_to_json (tr_inputs t)); ("outputs", write_list details_to_json (tr_outputs t));
        ("metadata", tr_metadata t)]%string.
Definition transaction_of_json (j : json) : option transaction :=
  match struct_fields ["transactionId"; "inputs"; "outputs"; "metadata"]%string true j with
  | Some [a; b; c; d] =>
      x ← required read_string a; i ← required (read_list pointer_of_json) b; o ← required (read_list details_of_json) c;
      m ← defaulted (fun j => Some (read_json j)) JNull d; Some (Transaction x i o m)
  | _ => None
  end.

(** ** blockchain-source/src/cardano *)
(** event.rs:18-27; the raw block is a list of bytes *)
Definition write_bytes (s : string) : json := JArr (map (fun c => JInt (Z.of_N (N_of_ascii c))) (text_of s)).
Definition read_bytes (j : json) : option string := of_text ∘ map ascii_of_N <$> read_list read_u8 j.
Definition event_names : list string := ["id"; "parent_id"; "block_number"; "raw_block"; "slot_number"; "is_boundary_block"; "epoch"]%string.
Definition bevent_to_json (e : bevent) : json :=
  JObj [("id", JStr (be_id e)); ("parent_id", JStr (be_parent e)); ("block_number", write_u64 (be_number e)); ("raw_block", write_bytes (be_raw e));
        ("slot_number", write_u64 (be_slot e)); ("is_boundary_block", JBool (be_boundary e)); ("epoch", write_u64 (be_epoch e))]%string.
Definition bevent_of_json (j : json) : option bevent :=
  match struct_fields event_names false j with
  | Some [a; b; c; d; e; f; g] =>
      i ← required read_string a; p ← required read_string b; n ← required read_number c; r ← required read_bytes d;
      s ← required read_number e; y ← required read_bool f; h ← required read_u64 g; Some (BEvent i p n r s y h)
  | _ => None
  end.

(** an enum variant with content: an object with one entry *)
Definition tagged (j : json) : option (string * json) := match j with JObj [(k, v)] => Some (k, v) | _ => None end.
(** event.rs:6-11, with any content of tips: the variant Tip is skipped.  None: serialisation fails *)
Definition event_to_json {tip} (e : bevent + tip) : option json :=
  match e with inl b => Some (JObj [("Block", bevent_to_json b)]%string) | inr _ => None end.
Definition event_of_json {tip} (j : json) : option (bevent + tip) :=
  match tagged j with
  | Some (k, v) => if String.eqb k "Block" then inl <$> bevent_of_json v else None
  | None => None
  end.
(** point.rs:4-8 *)
Definition point_to_json (p : point) : json :=
  match p with
  | Origin => JStr "Origin"
  | BlockHeader s h => JObj [("BlockHeader", JObj [("slot_nb", write_u64 s); ("hash", JStr h)])]%string
  end.
Definition point_of_json (j : json) : option point :=
  match j with
  | JStr s => if String.eqb s "Origin" then Some Origin else None
  | _ =>
      match tagged j with
      | Some (k, v) =>
          if String.eqb k "Origin" then match v with JNull => Some Origin | _ => None end
          else if String.eqb k "BlockHeader" then
            match struct_fields ["slot_nb"; "hash"]%string false v with
            | Some [a; b] => s ← required read_number a; h ← required read_string b; Some (BlockHeader s h)
            | _ => None
            end
          else None
      | None => None
      end
  end.

(** ** indexed-log-map/src/config.rs:4-13; a path is its text *)
Record log_config := LogConfig { lc_path : option string; lc_index : bool; lc_readonly : bool }.
Definition config_to_json (c : log_config) : json :=
  JObj [("storage_path", write_option JStr (lc_path c)); ("use_key_indexing", JBool (lc_index c)); ("readonly", JBool (lc_readonly c))]%string.
(** a missing Option is None in an object; in an array it is an error *)
Definition config_of_json (j : json) : option log_config :=
  match struct_fields ["storage_path"; "use_key_indexing"; "readonly"]%string true j with
  | Some [a; b; c] =>
      p ← match j with JArr _ => required (read_option read_string) a | _ => defaulted (read_option read_string) None a end;
      i ← defaulted read_bool false b; r ← defaulted read_bool false c; Some (LogConfig p i r)
  | _ => None
  end.
