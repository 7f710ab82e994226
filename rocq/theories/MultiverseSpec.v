(** * Specification of the block store

    Independent of the model's indices: the store is the list of the stored blocks in the
    order in which they were inserted, with the list of those that are on disk. *)
From Coq Require Import Lia NArith List.
From stdpp Require Import prelude numbers list gmap sorting.
From Verif Require Import MultiverseModel.

Local Open Scope N_scope.

(** The stored blocks, oldest insertion first, those on disk, and the number from which
    blocks are kept on disk. *)
Record store := Store { s_blocks : list block; s_disk : list block; s_from : N }.

Definition has (S : list block) (k : bytes) : Prop := k ∈ b_id <$> S.
Global Instance has_dec S k : Decision (has S k).
Proof. unfold has. apply _. Defined.

Definition lookup_block (S : list block) (k : bytes) : option block :=
  snd <$> list_find (fun b => b_id b = k) S.

Definition without (S : list block) (k : bytes) : list block :=
  filter (fun b => b_id b <> k) S.

(** By block number, then by identifier. *)
Definition block_le (x y : block) : Prop :=
  b_num x < b_num y \/ (b_num x = b_num y /\ bytes_le (b_id x) (b_id y)).
Global Instance block_le_dec : RelDecision block_le.
Proof. intros x y. unfold block_le. apply _. Defined.

Definition spec_step (s : store) (o : mv_op) : store * mv_ret :=
  match o with
  | OInsert b =>
      (Store (if decide (has (s_blocks s) (b_id b)) then s_blocks s else s_blocks s ++ [b])
             (if decide (s_from s <= b_num b /\ ~ has (s_disk s) (b_id b))
              then s_disk s ++ [b] else s_disk s)
             (s_from s), RUnit)
  | ORemove k _ =>
      match lookup_block (s_blocks s) k with
      | Some b => (Store (without (s_blocks s) k) (without (s_disk s) k) (s_from s), RBlock b)
      | None => (s, RNotFound)
      end
  | OClear => (Store [] [] (s_from s), RUnit)
  | OReopen f => (Store (merge_sort block_le (s_disk s)) (s_disk s) f, RUnit)
  end.

Fixpoint spec_run (s : store) (os : list mv_op) : store * list mv_ret :=
  match os with
  | [] => (s, [])
  | o :: os' =>
      let (s', r) := spec_step s o in
      let (s'', rs) := spec_run s' os' in
      (s'', r :: rs)
  end.

(** [c] was inserted while its parent [p] was stored, and both still are. *)
Definition child_of (S : list block) (p c : block) : Prop :=
  b_parent c = b_id p /\ exists S1 S2 S3, S = S1 ++ p :: S2 ++ c :: S3.

(** The block from which [n] such links lead to [b]. *)
Inductive nth_ancestor (S : list block) : nat -> block -> block -> Prop :=
| anc_self b : b ∈ S -> nth_ancestor S 0 b b
| anc_parent n b p a : child_of S p b -> nth_ancestor S n p a -> nth_ancestor S (1 + n) b a.

(** The blocks a history inserts. *)
Definition inserted (os : list mv_op) : list block :=
  omap (fun o => match o with OInsert b => Some b | _ => None end) os.

(** An identifier denotes one block, and block numbers are 64-bit. *)
Definition one_block_per_id (os : list mv_op) : Prop :=
  (forall b1 b2, b1 ∈ inserted os -> b2 ∈ inserted os -> b_id b1 = b_id b2 -> b1 = b2) /\
  (forall b, b ∈ inserted os -> b_num b < 2 ^ 64).

(** No reference the caller keeps is to an earlier insertion of a block that has been
    removed and inserted again. *)
Definition current_refs (m : mv) (held : list ref) : Prop :=
  forall k a e, (k, a) ∈ held -> m_all m !! k = Some e -> e_arc e = a.

Definition refs_current (m : mv) (os : list mv_op) : Prop :=
  forall os1 k held os2 m' rs, os = os1 ++ ORemove k held :: os2 ->
    mv_run m os1 = Done (m', rs) -> current_refs m' held.

(** A fresh database opened with [store_from]. *)
Definition empty_store (f : N) : store := Store [] [] f.
