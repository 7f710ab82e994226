(** C51, continued: which texts are read as a point. *)
From Coq Require Import ZArith String Ascii List Lia Bool.
From stdpp Require Import prelude strings list.
From Verif Require Import ValueModel ValueSpec CardanoModel JsonModel JsonSpec JsonProofs.
Open Scope string_scope.

(** The origin is its name, alone or as the only key of an object with null. Any other point is an object with the only key
    BlockHeader, and within it the two fields, of which the slot may be a number or the text of one. *)
Theorem C51_point_accepts j :
  (point_of_json j = Some Origin <-> j = JStr "Origin" \/ j = JObj [("Origin", JNull)]) /\
  (forall s h, point_of_json j = Some (BlockHeader s h) -> exists v, j = JObj [("BlockHeader", v)]) /\
  (forall a h, point_of_json (JObj [("BlockHeader", JObj [("slot_nb", a); ("hash", JStr h)])]) =
               match read_number a with Some s => Some (BlockHeader s h) | None => None end) /\
  (forall a h, point_of_json (JObj [("BlockHeader", JArr [a; JStr h])]) =
               match read_number a with Some s => Some (BlockHeader s h) | None => None end).
Proof.
  split; [|split; [|split]].
  - split.
    + destruct j as [| | | |s| |kvs]; cbn; try discriminate.
      { destruct (String.eqb s "Origin") eqn:Q; [|discriminate]. apply String.eqb_eq in Q as ->. left. reflexivity. }
      destruct kvs as [|[k v] [|]]; try discriminate.
      destruct (String.eqb k "Origin") eqn:Q.
      { apply String.eqb_eq in Q as ->. destruct v; try discriminate. right. reflexivity. }
      destruct (String.eqb k "BlockHeader"); [|discriminate].
      destruct (struct_fields _ _ _) as [[|x [|y [|]]]|]; try discriminate.
      destruct (required read_number x); [|discriminate]. destruct (required read_string y); discriminate.
    + intros [->| ->]; reflexivity.
  - intros s h. destruct j as [| | | |t| |kvs]; cbn; try discriminate.
    { destruct (String.eqb t "Origin"); discriminate. }
    destruct kvs as [|[k v] [|]]; try discriminate.
    destruct (String.eqb k "Origin"); [destruct v; discriminate|].
    destruct (String.eqb k "BlockHeader") eqn:Q; [|discriminate]. apply String.eqb_eq in Q as ->. intros _. exists v. reflexivity.
  - intros a h. cbn. destruct (read_number a); reflexivity.
  - intros a h. cbn. destruct (read_number a); reflexivity.
Qed.
Example C51_point_accepts_case :
  point_of_json (JObj [("BlockHeader", JObj [("slot_nb", JStr "42"); ("hash", JStr "ab")])]) = Some (BlockHeader 42 "ab") /\
  point_of_json (JObj [("BlockHeader", JArr [JInt 42; JStr "ab"])]) = Some (BlockHeader 42 "ab") /\ point_of_json (JStr "origin") = None.
Proof. repeat split. Qed.
Print Assumptions C51_point_accepts.
