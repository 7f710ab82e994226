(** What C49 says of the node, and of the blocks the consumer has. *)
From Coq Require Import NArith.
From stdpp Require Import prelude numbers gmap strings list.
From Verif Require Import MultiverseModel SourceModel SourceSpec TimeModel UtilModel CardanoModel StackModel.
Local Open Scope N_scope.

(** the slot of the tip that the node announced; the origin counts as slot 0 *)
Definition tip_slot (p : npoint) : N := match p with NOrigin => 0 | NPoint s _ => s end.

Section Spec.
  Context (read_id : string -> option string) (decode_block : string -> option mblock) (cfg : config) (chk : bool).

  (** A chain of the node: the node serves the blocks it says it serves; their identifiers can be read back; the source can make
      events of them; and every block is the child of the one before it, with the next number and a later slot. *)
  Record good_chain (c : list nblock) : Prop := {
    gc_block : forall b, b ∈ c -> read_id (hex_encode (nb_hash b)) = Some (nb_hash b) /\ hex_encode (nb_hash b) <> cf_genesis_parent cfg /\
      exists m e, decode_block (nb_raw b) = Some m /\ m_hash m = nb_hash b /\ m_slot m = nb_slot b /\ m_number m < 2 ^ 64 /\
        from_serialized_block decode_block cfg chk (nb_raw b) = Some (MBlock e);
    gc_link : forall i a b, c !! i = Some a -> c !! S i = Some b -> exists ma mb,
      decode_block (nb_raw a) = Some ma /\ decode_block (nb_raw b) = Some mb /\
      m_prev mb = Some (nb_hash a) /\ m_number mb = m_number ma + 1 /\ nb_slot a < nb_slot b }.

  (** The chains cs that a node had, oldest first: a hash is one block, and what is more than d blocks below the tip of one of
      them is in all the later ones. *)
  Record good_node (d : nat) (cs : list (list nblock)) : Prop := {
    gn_chain : forall c, c ∈ cs -> good_chain c;
    gn_hash : forall c c' b b', c ∈ cs -> c' ∈ cs -> b ∈ c -> b' ∈ c' -> nb_hash b = nb_hash b' -> b = b';
    gn_prefix : forall i j c c', cs !! i = Some c -> cs !! j = Some c' -> (i < j)%nat -> take (length c - d) c `prefix_of` c' }.

  (** The consumer's start: a block of the chain with more than d blocks after it. *)
  Definition start_deep (d : nat) (c0 : list nblock) (b0 : nblock) : Prop := exists pre post, c0 = pre ++ b0 :: post /\ (d < length post)%nat.

  Definition start_of (b : nblock) : opoint := (nb_slot b, bytes_of (hex_encode (nb_hash b))).

  (** the block of the multiverse for a block of the node *)
  Definition is_block (b : nblock) (x : block) : Prop :=
    exists e, from_serialized_block decode_block cfg chk (nb_raw b) = Some (MBlock e) /\ x = of_event e.
End Spec.

(** a move of an endless schedule: the consumer calls pull, or one of the two tasks moves, and the node's answers are no errors *)
Definition live_act (a : kact) : Prop := match a with KPull enum => fair enum | KCaller => True | KHandler ok _ => ok = true | _ => False end.
(** in the schedule al, the consumer calls again and again, and each task runs again and again *)
Definition lively (al : nat -> kact) : Prop :=
  (forall n, live_act (al n)) /\
  (forall n, exists m enum, (n <= m)%nat /\ al m = KPull enum) /\
  (forall n, exists m, (n <= m)%nat /\ al m = KCaller) /\
  (forall n, exists m late, (n <= m)%nat /\ al m = KHandler true late).

(** the same for the fork-handling source *)
Definition live_fact (a : fact) : Prop :=
  fact_fair a /\ match a with KFPull _ _ | KFCaller => True | KFHandler ok _ => ok = true | _ => False end.
Definition flively (al : nat -> fact) : Prop :=
  (forall n, live_fact (al n)) /\
  (forall n, exists m enum order, (n <= m)%nat /\ al m = KFPull enum order) /\
  (forall n, exists m, (n <= m)%nat /\ al m = KFCaller) /\
  (forall n, exists m late, (n <= m)%nat /\ al m = KFHandler true late).
