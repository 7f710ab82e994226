(** What the JSON and text forms should do, in terms of JSON trees and numbers. *)
From Coq Require Import ZArith NArith QArith Ascii String Sorting.Sorted.
From stdpp Require Import prelude numbers strings list.
From Verif Require Import ValueModel ValueSpec CardanoModel JsonModel.
Open Scope Z_scope.

(** ** Equality of the library's types: amounts are equal as numbers, everything else exactly *)
Definition same_amount (v w : dec) : Prop := (amount v == amount w)%Q.
Definition same_asset (a b : asset) : Prop :=
  as_policy a = as_policy b /\ as_name a = as_name b /\ as_fingerprint a = as_fingerprint b /\ same_amount (as_quantity a) (as_quantity b).
Definition same_details (a b : details) : Prop :=
  dt_pointer a = dt_pointer b /\ dt_address a = dt_address b /\ same_amount (dt_value a) (dt_value b) /\ Forall2 same_asset (dt_assets a) (dt_assets b) /\
  dt_metadata a = dt_metadata b /\ dt_extra a = dt_extra b.
Definition same_builder (a b : builder) : Prop :=
  bd_address a = bd_address b /\ same_amount (bd_value a) (bd_value b) /\ Forall2 same_asset (bd_assets a) (bd_assets b) /\ bd_extra a = bd_extra b.
Definition same_transaction (a b : transaction) : Prop :=
  tr_id a = tr_id b /\ tr_inputs a = tr_inputs b /\ Forall2 same_details (tr_outputs a) (tr_outputs b) /\ tr_metadata a = tr_metadata b.

(** ** The values that the types can hold *)
Definition u64 (n : N) : Prop := (n < 2 ^ 64)%N.
(** a serde_json::Value: the keys of every object are in strictly increasing order *)
Inductive a_value : json -> Prop :=
| av_null : a_value JNull | av_bool b : a_value (JBool b) | av_int z : a_value (JInt z) | av_float f : a_value (JFloat f) | av_str s : a_value (JStr s)
| av_arr l : Forall a_value l -> a_value (JArr l)
| av_obj l : StronglySorted (fun x y => String.compare (fst x) (fst y) = Lt) l -> Forall (fun kv => a_value (snd kv)) l -> a_value (JObj l).
Definition a_pointer (p : pointer) : Prop := u64 (pt_index p).
Definition a_details (d : details) : Prop := a_pointer (dt_pointer d) /\ a_value (dt_metadata d).
Definition a_transaction (t : transaction) : Prop := Forall a_pointer (tr_inputs t) /\ Forall a_details (tr_outputs t) /\ a_value (tr_metadata t).
Definition an_event (e : bevent) : Prop := u64 (be_number e) /\ u64 (be_slot e) /\ u64 (be_epoch e).
Definition a_point (p : point) : Prop := match p with Origin => True | BlockHeader s _ => u64 s end.

(** ** The same document, with the entries of its objects in another order, at any depth *)
Inductive reordered : json -> json -> Prop :=
| ro_null : reordered JNull JNull
| ro_bool b : reordered (JBool b) (JBool b)
| ro_int z : reordered (JInt z) (JInt z)
| ro_float f : reordered (JFloat f) (JFloat f)
| ro_str s : reordered (JStr s) (JStr s)
| ro_arr l l' : Forall2 reordered l l' -> reordered (JArr l) (JArr l')
| ro_obj l m l' : NoDup (map fst l) -> Forall2 (fun x y => fst x = fst y /\ reordered (snd x) (snd y)) l m -> m ≡ₚ l' -> reordered (JObj l) (JObj l').

(** ** Numbers in text *)
Definition decimal (ds : list Z) : string := of_text (map (fun d => ascii_of_N (48 + Z.to_N d)) ds).
(** the text is a sequence of digits, possibly after a plus, that stands for [n] *)
Definition text_number (s : string) (n : Z) : Prop :=
  exists ds, ds <> [] /\ Forall (fun d => 0 <= d <= 9) ds /\ n = fold_left (fun a d => 10 * a + d) ds 0 /\ (s = decimal ds \/ s = ("+" ++ decimal ds)%string).
