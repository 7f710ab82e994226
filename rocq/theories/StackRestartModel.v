(** Model of restarts of the process in which the fork-handling source runs over the Cardano source: blockchain-source/src/multiverse/rollback.rs
    with [InnerSource = CardanoSource].  Executable definitions only. *)
From stdpp Require Import prelude gmap strings list.
From Verif Require Import MultiverseModel SourceModel SourceSpec CardanoModel StackModel SourceRestartProps.

(** The stack of the present process, and the chains that the node had before the one it had when this process was started. *)
Record rstack := RStack { r_k : fstack; r_past : list (list nblock) }.
Definition rs_start (d : nat) (c : list nblock) : rstack := RStack (kf_start d c) [].
Definition rs_chains (r : rstack) : list (list nblock) := r_past r ++ kf_chains (r_k r).

(** A move within the process, or a restart of it: the database is as it was (rollback.rs:31-63 on what Multiverse::load_from reads), the
    queued events and the pull that waits are gone, there is a new connection to the node; the consumer keeps its chain. *)
Inductive rfact := RMove (a : fact) | RStop (enum : gset bytes -> list bytes).
Definition rfact_fair (a : rfact) : Prop := match a with RMove a => fact_fair a | RStop enum => fair enum end.

Section Restart.
  Context (read_id : string -> option string) (decode_block : string -> option mblock) (cfg : config) (chk : bool).

  Definition rs_step (from0 : option opoint) (r : rstack) (a : rfact) : option rstack :=
    match a with
    | RMove a => match kf_step read_id decode_block cfg chk from0 (r_k r) a with Some k => Some (RStack k (r_past r)) | None => None end
    | RStop enum =>
        match r_step point_of (f_world (r_k r)) (RRestart enum) with
        | Some w => Some (RStack (FStack w None (initial (s_node (f_in (r_k r)))) [] (s_node (f_in (r_k r)))) (removelast (rs_chains r)))
        | None => None
        end
    end.
  (** a move that is not possible is passed over *)
  Fixpoint rs_run (from0 : option opoint) (r : rstack) (l : list rfact) : rstack :=
    match l with
    | [] => r
    | a :: l => rs_run from0 (match rs_step from0 r a with Some r' => r' | None => r end) l
    end.
  (** every restart is at a moment at which no event is queued and the block received last is higher than every other *)
  Fixpoint calm_stops (from0 : option opoint) (r : rstack) (l : list rfact) : Prop :=
    match l with
    | [] => True
    | a :: l => match a with RStop _ => calm (f_world (r_k r)) | _ => True end /\
                calm_stops from0 (match rs_step from0 r a with Some r' => r' | None => r end) l
    end.
End Restart.
