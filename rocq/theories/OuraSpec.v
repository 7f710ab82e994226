(** The chain of a node as its events tell it, and the reading of the program's output back into a chain. *)
From Coq Require Import NArith Ascii String.
From stdpp Require Import prelude numbers strings list.
From Verif Require Import JsonModel OuraModel.
Open Scope N_scope.

(** block [b] may follow on the chain [c]: the numbers count up, starting from [n0] *)
Definition follows (n0 : N) (c : list oblock) (b : oblock) : Prop := ob_number b = n0 + N.of_nat (length c).
Definition numbered (n0 : N) (c : list oblock) : Prop := forall i b, c !! i = Some b -> ob_number b = n0 + N.of_nat i.
(** the blocks that a chain keeps in a rollback to a point are those up to it *)
Definition kept (c : list oblock) (slot : N) (hash : string) (c' : list oblock) : Prop :=
  exists post, c = c' ++ post /\ (c' = [] \/ exists pre b, c' = pre ++ [b] /\ ob_slot b = slot /\ ob_hash b = hash).
(** the node's chain goes from [c] to [c'] while its events are sent *)
Inductive history (n0 : N) (c : list oblock) : list oevent -> list oblock -> Prop :=
| h_start : history n0 c [] c
| h_block evs c' b : history n0 c evs c' -> follows n0 c' b -> history n0 c (evs ++ [EvBlock b]) (c' ++ [b])
| h_rollback evs c' slot hash c'' : history n0 c evs c' -> kept c' slot hash c'' -> history n0 c (evs ++ [EvRollback slot hash]) c''
| h_other evs c' name : history n0 c evs c' -> history n0 c (evs ++ [EvOther name]) c'.

(** the blocks that were ever sent *)
Definition sent (evs : list oevent) : list oblock := omap (fun e => match e with EvBlock b => Some b | _ => None end) evs.
Definition with_cbor (evs : list oevent) : Prop := Forall (fun b => exists c, ob_cbor b = Some c) (sent evs).
(** [lines] says the blocks [bs], in order *)
Definition says (lines : list string) (bs : list oblock) : Prop :=
  Forall2 (fun l b => exists c, ob_cbor b = Some c /\
    l = ("Block #" ++ display_u64 (ob_number b) ++ ", point: " ++ ob_hash b ++ "@" ++ display_u64 (ob_slot b) ++ ", raw cbor hex: " ++ c)%string) lines bs.
(** a reader of the output that takes a block's number as its place on the chain: whatever had that number or a higher one is given up *)
Definition adopt (c : list oblock) (b : oblock) : list oblock := List.filter (fun x => ob_number x <? ob_number b) c ++ [b].
Definition follow (c : list oblock) (bs : list oblock) : list oblock := fold_left adopt bs c.
