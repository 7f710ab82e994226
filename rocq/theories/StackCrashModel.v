(** * The confirming source over the Cardano source, and crashes in the middle of a pull

    Source: /repo/blockchain-source/src/multiverse/mod.rs:67-202 with [InnerSource = CardanoSource] (cardano/mod.rs), over
    /repo/multiverse/src/lib.rs.  StackModel.v has the moves of the two sources and the node; its restart leaves the database as it was.
    Here the process may also stop while a pull that got its answer writes, after any of the writes of SourceCrashModel.v; it is then
    started again over what is in the database, with a new connection to the node. *)
From Coq Require Import NArith.
From stdpp Require Import prelude numbers gmap strings list.
From Verif Require Import MultiverseModel SourceModel SourceSpec SourceCrashModel TimeModel UtilModel CardanoModel StackModel.
Local Open Scope N_scope.

(** A move of StackModel.v; or the inner pull returns (multiverse/mod.rs:127) and the process stops after the first n writes of the
    outer one (mod.rs:139-145, 167-202), and is started again. *)
Inductive kcact := KAct (a : kact) | KCrash (n : nat) (enum : gset bytes -> list bytes).
Definition kcact_fair (a : kcact) : Prop := match a with KAct a => kact_fair a | KCrash _ enum => fair enum end.

Section Crash.
  Context (read_id : string -> option string) (decode_block : string -> option mblock) (cfg : config) (chk : bool).
  Notation step := (CardanoModel.step read_id decode_block cfg chk).

  (** None: the move is not possible, or the source cannot be made over what the crash left *)
  Definition kc_step (from0 : option opoint) (k : stack) (a : kcact) : option stack :=
    match a with
    | KAct a => k_step read_id decode_block cfg chk from0 k a
    | KCrash n enum' =>
        match k_wait k, step (k_in k) Caller with
        | Some enum, Some (s, o) =>
            match answer_of o with
            | Some ans =>
                match c_step point_of from0 (k_world k) (CCrash enum ans n enum') with
                | Some w => Some (Stack w None (initial (s_node s)) [] (k_chains k) (s_node s))
                | None => None
                end
            | None => None
            end
        | _, _ => None
        end
    end.

  (** a move that is not possible is passed over *)
  Fixpoint kc_run (from0 : option opoint) (k : stack) (l : list kcact) : stack :=
    match l with
    | [] => k
    | a :: l => kc_run from0 (match kc_step from0 k a with Some k' => k' | None => k end) l
    end.

  (** no crash before the consumer has its first block *)
  Fixpoint after_first (from0 : option opoint) (k : stack) (l : list kcact) : Prop :=
    match l with
    | [] => True
    | a :: l =>
        match a with KAct _ => True | KCrash _ _ => w_accepted (k_world k) <> [] end /\
        after_first from0 (match kc_step from0 k a with Some k' => k' | None => k end) l
    end.
End Crash.
