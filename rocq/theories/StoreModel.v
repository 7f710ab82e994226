(** Model of core/src/utxo_store.rs (with the data types of core/src/tx/).  Executable definitions only.

    Amounts are integers at one common scale (theorem C02_common_scale).  HashMap and imbl::HashMap are
    finite maps without order; where the code iterates over one, the order is the argument [enum].
    BTreeMap<Value, _> is a finite map whose iteration is sorted by key.  Arc is sharing of immutable
    data and disappears.  thaw/freeze (utxo_store.rs:185-191, 360-366) copy the three fields and are the
    identity here: the store is a value, so a frozen store is not affected by later operations. *)
From stdpp Require Import gmap strings sorting list.
From Coq Require Import ZArith.
Open Scope Z_scope.

Definition token := string.                         (* core/src/token_id.rs: TokenId *)
Definition pointer : Type := string * N.            (* core/src/tx/utxo.rs:15-18 UtxoPointer *)

(** core/src/token_id.rs:16-18 TokenId::MAIN, which is also the default (39-43) *)
Definition MAIN : token := "0000000000000000000000000000000000000000000000000000000000000000".

(** core/src/tx/transaction_asset.rs:8-13 *)
Record asset := Asset { a_policy : string; a_name : string; a_fp : token; a_qty : Z }.

(** core/src/tx/utxo.rs:35-46 UTxODetails; [u_rest] stands for metadata and extra, which are only carried *)
Record utxo := Utxo { u_ptr : pointer; u_addr : string; u_value : Z; u_assets : list asset; u_rest : string }.

(** utxo_store.rs:24-30 *)
Record uset := USet {
  s_token : token;
  s_balance : Z;
  s_set : gmap pointer utxo;
  s_ord : gmap Z (gmap pointer utxo)
}.
Definition uset_default : uset := USet MAIN 0 ∅ ∅.

(** utxo_store.rs:14-22 / 32-36 (UTxOStore and UTxOStoreMut have the same fields) *)
Record store := Store {
  st_utxos : uset;
  st_by : gmap token uset;
  st_dict : gmap token (string * string)
}.
Definition store_new : store := Store uset_default ∅ ∅.

(** utxo_store.rs:124-135 *)
Definition finish_remove (s : uset) (v : Z) (p : pointer) : uset :=
  let ord :=
    match s_ord s !! v with
    | Some inner =>
        let inner' := delete p inner in
        if decide (inner' = ∅) then delete v (s_ord s) else <[v := inner']> (s_ord s)
    | None => s_ord s
    end in
  USet (s_token s) (s_balance s - v) (s_set s) ord.

(** [iter().find(|ta| ta.fingerprint == token).map(quantity)]: utxo_store.rs:45-49 *)
Fixpoint find_qty (t : token) (l : list asset) : option Z :=
  match l with
  | [] => None
  | a :: r => if decide (a_fp a = t) then Some (a_qty a) else find_qty t r
  end.

(** utxo_store.rs:39-56; outer None is the panic of the [expect] *)
Definition remove_from_asset (s : uset) (p : pointer) : option uset :=
  match s_set s !! p with
  | None => Some s
  | Some u =>
      let s' := USet (s_token s) (s_balance s) (delete p (s_set s)) (s_ord s) in
      if decide (s_token s = MAIN) then Some (finish_remove s' (u_value u) p)
      else match find_qty (s_token s) (u_assets u) with
           | Some q => Some (finish_remove s' q p)
           | None => None
           end
  end.

(** utxo_store.rs:59-68 *)
Definition remove_from_main (s : uset) (p : pointer) : option (utxo * uset) :=
  match s_set s !! p with
  | None => None
  | Some u =>
      Some (u, finish_remove (USet (s_token s) (s_balance s) (delete p (s_set s)) (s_ord s)) (u_value u) p)
  end.

(** utxo_store.rs:71-86 *)
Definition add_value (s : uset) (t : token) (v : Z) (u : utxo) : uset :=
  USet t (s_balance s + v) (<[u_ptr u := u]> (s_set s))
       (match s_ord s !! v with
        | None => <[v := {[u_ptr u := u]}]> (s_ord s)
        | Some inner => <[v := <[u_ptr u := u]> inner]> (s_ord s)
        end).

Inductive op_result := OpOk | OpErr | OpPanic.

(** one iteration of the loop of utxo_store.rs:271-290 *)
Definition remove_token (p : pointer) (by_ : option (gmap token uset)) (t : token)
  : option (gmap token uset) :=
  match by_ with
  | None => None
  | Some m =>
      match m !! t with
      | None => Some m
      | Some c =>
          match remove_from_asset c p with
          | None => None
          | Some c' => if decide (s_set c' = ∅) then Some (delete t m) else Some (<[t := c']> m)
          end
      end
  end.

(** utxo_store.rs:269-296 *)
Definition store_remove (st : store) (p : pointer) : store * op_result :=
  match remove_from_main (st_utxos st) p with
  | None => (st, OpErr)
  | Some (u, main') =>
      match foldl (remove_token p) (Some (st_by st)) (map a_fp (u_assets u) ++ [MAIN]) with
      | Some by' => (Store main' by' (st_dict st), OpOk)
      | None => (st, OpPanic)
      end
  end.

(** utxo_store.rs:316-333: entry(token).or_default().add_value(..) *)
Definition add_token (m : gmap token uset) (t : token) (v : Z) (u : utxo) : gmap token uset :=
  <[t := add_value (default uset_default (m !! t)) t v u]> m.

(** utxo_store.rs:337-339 *)
Definition dict_add (d : gmap token (string * string)) (a : asset) : gmap token (string * string) :=
  match d !! a_fp a with None => <[a_fp a := (a_policy a, a_name a)]> d | Some _ => d end.

(** utxo_store.rs:305-343 (insert_compat, 299-301, is the same) *)
Definition store_insert (st : store) (u : utxo) : store * op_result :=
  match s_set (st_utxos st) !! u_ptr u with
  | Some _ => (st, OpErr)
  | None =>
      (Store (add_value (st_utxos st) MAIN (u_value u) u)
             (foldl (fun m a => add_token m (a_fp a) (a_qty a) u)
                    (add_token (st_by st) MAIN (u_value u) u) (u_assets u))
             (foldl dict_add (st_dict st) (u_assets u)), OpOk)
  end.

(** ** Queries *)
(** utxo_store.rs:147-155, 168-170, 197-199, 202-204 *)
Definition store_is_empty (st : store) : bool := Nat.eqb (size (s_set (st_utxos st))) 0.
Definition store_len (st : store) : nat := size (s_set (st_utxos st)).
Definition store_contains (st : store) (p : pointer) : bool := bool_decide (is_Some (s_set (st_utxos st) !! p)).
Definition store_get (st : store) (p : pointer) : option utxo := s_set (st_utxos st) !! p.

(** an order in which a hash map may be iterated *)
Definition enumeration := gmap pointer utxo -> list (pointer * utxo).
Definition fair (enum : enumeration) : Prop := forall m, enum m ≡ₚ map_to_list m.

Definition store_iter (enum : enumeration) (st : store) : list utxo := map snd (enum (s_set (st_utxos st))).

(** BTreeMap::values(): by ascending key *)
Definition key_le {A} (a b : Z * A) : Prop := a.1 <= b.1.
Global Instance key_le_dec {A} (a b : Z * A) : Decision (key_le a b).
Proof. unfold key_le. apply _. Defined.
Definition btree_list {A} (m : gmap Z A) : list (Z * A) := merge_sort key_le (map_to_list m).

(** utxo_store.rs:111-122 *)
Definition ordered (enum : enumeration) (s : uset) : list utxo :=
  flat_map (fun kv => map snd (enum kv.2)) (btree_list (s_ord s)).
Definition ordered_rev (enum : enumeration) (s : uset) : list utxo :=
  flat_map (fun kv => map snd (enum kv.2)) (rev (btree_list (s_ord s))).

(** utxo_store.rs:160-164, 174-176, 180-182, 207-251, 255-257 *)
Definition number_utxos_for_token (st : store) (t : token) : nat :=
  match st_by st !! t with Some s => size (s_set s) | None => 0%nat end.
Definition contains_token (st : store) (t : token) : bool :=
  bool_decide (t = s_token (st_utxos st)) || bool_decide (is_Some (st_by st !! t)).
Definition get_asset_ids (st : store) (t : token) : option (string * string) := st_dict st !! t.
Definition iter_ordered_by_wmain (enum : enumeration) (st : store) : list utxo := ordered enum (st_utxos st).
Definition iter_token (enum : enumeration) (st : store) (t : token) : list utxo :=
  match st_by st !! t with Some s => map snd (enum (s_set s)) | None => [] end.
Definition iter_token_ordered_by_value (enum : enumeration) (st : store) (t : token) : list utxo :=
  match st_by st !! t with Some s => ordered enum s | None => [] end.
Definition iter_token_ordered_by_value_rev (enum : enumeration) (st : store) (t : token) : list utxo :=
  match st_by st !! t with Some s => ordered_rev enum s | None => [] end.
Definition get_balance_of (st : store) (t : token) : option Z := s_balance <$> st_by st !! t.
(** utxo_store.rs:345-353 *)
Definition token_balance (st : store) (t : token) : option Z := s_balance <$> st_by st !! t.
Definition main_balance (st : store) : Z := s_balance (st_utxos st).

(** ** Histories *)
Inductive store_op := Insert (u : utxo) | Remove (p : pointer).
Definition store_step (st : store) (o : store_op) : store * op_result :=
  match o with Insert u => store_insert st u | Remove p => store_remove st p end.
(** all results in order, and the final store; a panic stops the history *)
Fixpoint store_run (st : store) (l : list store_op) : store * list op_result :=
  match l with
  | [] => (st, [])
  | o :: r =>
      let (st', res) := store_step st o in
      match res with
      | OpPanic => (st', [OpPanic])
      | _ => let (st'', rs) := store_run st' r in (st'', res :: rs)
      end
  end.
