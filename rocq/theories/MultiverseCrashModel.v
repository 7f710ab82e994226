(** * The writes of the block store, and what a crash leaves of them

    Source: /repo/multiverse/src/lib.rs.  The store writes through sled, which applies one
    write at a time and brings them to the disk some time later, in the order of its log;
    the crate never asks sled to flush.  After a crash (of the process or of the machine) the
    tree holds the effect of the first writes, and none of the others.

    Simplification: how many writes a crash keeps is arbitrary, even of those that an earlier
    clean shutdown has brought to the disk; the theorems hold for all of them.  sled itself
    and its file format are not modelled. *)
From Coq Require Import Lia NArith List.
From stdpp Require Import prelude numbers gmap sorting list.
From Verif Require Import MultiverseModel.

Local Open Scope N_scope.

(** One write of sled: a value under a key, or the removal of a key. *)
Inductive write := WPut (key : bytes) (b : block) | WDel (key : bytes).

Definition apply_write (t : gmap bytes block) (w : write) : gmap bytes block :=
  match w with WPut k b => <[k := b]> t | WDel k => delete k t end.

Definition apply_writes : gmap bytes block -> list write -> gmap bytes block :=
  foldl apply_write.

(** The writes of a call: lib.rs:202-216 [db_insert] writes one value if the block is not too
    old; 192-197 [db_remove], called at 458 for a stored block, removes one key; 218-220
    [clear] calls sled's [Tree::clear], which removes the keys one by one in their order;
    opening the store (289-304) writes nothing. *)
Definition call_writes (m : mv) (o : mv_op) : list write :=
  match o with
  | OInsert b =>
      if N.leb (m_from m) (b_num b) then [WPut (mk_sled_key (b_num b) (b_id b)) b] else []
  | ORemove k _ =>
      match m_all m !! k with
      | Some e => [WDel (mk_sled_key (b_num (e_value e)) k)]
      | None => []
      end
  | OClear => WDel <$> (merge_sort key_le (map_to_list (m_tree m))).*1
  | OReopen _ => []
  end.

(** The writes of a history, in order. *)
Fixpoint writes (m : mv) (os : list mv_op) : list write :=
  match os with
  | [] => []
  | o :: os' =>
      call_writes m o ++ match mv_step m o with Done (m', _) => writes m' os' | _ => [] end
  end.

(** What a crash may leave of a fresh database after (a part of) a history. *)
Definition crash_leaves (f : N) (os : list mv_op) (t : gmap bytes block) : Prop :=
  exists n, t = apply_writes ∅ (take n (writes (mv_new_with ∅ f) os)).
