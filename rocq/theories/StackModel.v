(** Model of the confirming source and of the fork-handling source over the Cardano source: the composition in which
    blockchain-source is used.  blockchain-source/src/multiverse/mod.rs and rollback.rs with [InnerSource = CardanoSource]
    (cardano/mod.rs), [Event = CardanoNetworkEvent<BlockEvent, Tip>] (cardano/event.rs:60-103).  Executable definitions only.

    SourceModel.v has the two outer sources with an arbitrary answer of the wrapped source, CardanoModel.v has the wrapped
    source.  Here the answer is the one that the Cardano source gives: an outer pull runs up to its call of the inner pull
    (multiverse/mod.rs:127, rollback.rs:128), the inner pull takes any number of moves of the two tasks and of the node, and
    when it returns the outer pull ends.  As both outer pulls only change their state after that call, they are left as they
    were when a pull is dropped while it waits. *)
From Coq Require Import NArith Ascii.
From stdpp Require Import prelude numbers gmap strings countable list.
From Verif Require Import MultiverseModel SourceModel SourceSpec TimeModel UtilModel CardanoModel.
Local Open Scope N_scope.

(** ** events as blocks of the multiverse *)
(** a BlockId as the bytes of its string *)
Definition bytes_of (s : string) : bytes := map N_of_ascii (String.list_ascii_of_string s).
Definition string_of (b : bytes) : string := String.string_of_list_ascii (map ascii_of_N b).

(** cardano/event.rs:60-92 [Variant]: identifier, parent and number of a block event; the rest of the event is the payload *)
Definition pack (e : bevent) : N := Npos (encode (be_slot e, (be_raw e, be_boundary e, be_epoch e))).
Definition of_event (e : bevent) : block := Block (bytes_of (be_id e)) (bytes_of (be_parent e)) (be_number e) (pack e).
Definition slot_of (b : block) : N :=
  match b_data b with
  | N0 => 0
  | Npos p => match decode (A := N * (string * bool * N)) p with Some (s, _) => s | None => 0 end
  end.

(** point.rs:6-9: a point other than the origin, with the bytes of the identifier *)
Notation opoint := (N * bytes)%type.
(** cardano/event.rs:94-106 [GetNextFrom] of a block event *)
Definition point_of (b : block) : option opoint := Some (slot_of b, b_id b).
Definition to_point (p : opoint) : point := BlockHeader (fst p) (string_of (snd p)).

(** what the inner pull returned, for the outer one; None: it has not returned *)
Definition answer_of (o : list seen) : option answer :=
  match o with
  | [Got (MTip p)] => Some (AEvent (EvTip (npoint_slot p)))
  | [Got (MBlock e)] => Some (AEvent (EvBlock (of_event e)))
  | [Got MErr] | [GotErr] => Some AErr
  | [GotNone] => Some ANone
  | _ => None
  end.

(** One move: the consumer calls pull; the inner tasks or the node move; the consumer drops the pull that it waits for; the
    process is started again, with the database as it was and a new connection. *)
Inductive kact :=
| KPull (enum : gset bytes -> list bytes)
| KCaller
| KHandler (ok late : bool)
| KNode (c : list nblock)
| KCancel
| KRestart (enum : gset bytes -> list bytes).
Definition kact_fair (a : kact) : Prop := match a with KPull enum | KRestart enum => fair enum | _ => True end.

Section Stack.
  Context (read_id : string -> option string) (decode_block : string -> option mblock) (cfg : config) (chk : bool).
  Notation step := (CardanoModel.step read_id decode_block cfg chk).

  (** ** the confirming source (multiverse/mod.rs:67-164) over the Cardano source *)
  (** the outer source with its consumer, who accepts what it gets; the pull that waits; the Cardano source and the node; and,
      to state what happened, what was seen of the Cardano source since it was made and the chains that the node had before *)
  Record stack := Stack { k_world : world; k_wait : option (gset bytes -> list bytes); k_in : state; k_seen : list seen; k_past : list (list nblock); k_base : list nblock }.

  Definition k_start (d : nat) (c : list nblock) : stack := Stack (w_start d) None (initial c) [] [] c.
  Definition k_chains (k : stack) : list (list nblock) := k_past k ++ k_base k :: (k_seen k ≫= fun x => match x with NodeHas c => [c] | _ => [] end).

  (** a move of the inner tasks or the node; a pull that waits may end with it *)
  Definition k_inner (from0 : option opoint) (k : stack) (a : action) : option stack :=
    match step (k_in k) a with
    | None => None
    | Some (s, o) =>
        match k_wait k, answer_of o with
        | Some enum, Some ans =>
            match w_step point_of from0 (k_world k) (SourceSpec.Pull enum ans true) with
            | Some w => Some (Stack w None s (k_seen k ++ o) (k_past k) (k_base k))
            | None => None
            end
        | _, _ => Some (Stack (k_world k) (k_wait k) s (k_seen k ++ o) (k_past k) (k_base k))
        end
    end.

  Definition k_step (from0 : option opoint) (k : stack) (a : kact) : option stack :=
    match a with
    | KPull enum =>
        match k_wait k with
        | Some _ => None
        | None =>
            match ms_checkpoints point_of enum (w_source (k_world k)) (resume_point point_of from0 (w_accepted (k_world k))) with
            | inl _ => (* it returns without a call of the inner pull *)
                match w_step point_of from0 (k_world k) (SourceSpec.Pull enum ANone true) with
                | Some w => Some (Stack w None (k_in k) (k_seen k) (k_past k) (k_base k))
                | None => None
                end
            | inr cps =>
                match step (k_in k) (Pull (to_point <$> cps)) with
                | Some (s, o) => Some (Stack (k_world k) (Some enum) s (k_seen k ++ o) (k_past k) (k_base k))
                | None => None
                end
            end
        end
    | KCaller => k_inner from0 k Caller
    | KHandler ok late => k_inner from0 k (Handler ok late)
    | KNode c => k_inner from0 k (Node c)
    | KCancel =>
        match k_wait k with
        | Some _ => match step (k_in k) Cancel with
                    | Some (s, o) => Some (Stack (k_world k) None s (k_seen k ++ o) (k_past k) (k_base k))
                    | None => None
                    end
        | None => None
        end
    | KRestart enum =>
        match w_step point_of from0 (k_world k) (Reopen enum) with
        | Some w => Some (Stack w None (initial (s_node (k_in k))) [] (k_chains k) (s_node (k_in k)))
        | None => None
        end
    end.

  (** a move that is not possible is passed over *)
  Fixpoint k_run (from0 : option opoint) (k : stack) (l : list kact) : stack :=
    match l with
    | [] => k
    | a :: l => k_run from0 (match k_step from0 k a with Some k' => k' | None => k end) l
    end.

  (** ** the fork-handling source (multiverse/rollback.rs:95-219) over the Cardano source *)
  (** The consumer passes the point of the last block of its chain, or from0 if the chain is empty. *)
  Record fstack := FStack { f_world : fworld (point := opoint); f_wait : option ((gset bytes -> list bytes) * option opoint); f_in : state; f_seen : list seen; f_base : list nblock }.

  Definition kf_start (d : nat) (c : list nblock) : fstack := FStack (f_start d) None (initial c) [] c.
  Definition kf_chains (k : fstack) : list (list nblock) := f_base k :: (f_seen k ≫= fun x => match x with NodeHas c => [c] | _ => [] end).
  Definition kf_from (from0 : option opoint) (k : fstack) : option opoint :=
    match last (f_chain (f_world k)) with Some b => point_of b | None => from0 end.

  Definition kf_inner (k : fstack) (a : action) : option fstack :=
    match step (f_in k) a with
    | None => None
    | Some (s, o) =>
        match f_wait k, answer_of o with
        | Some (enum, from), Some ans => Some (FStack (f_step point_of (f_world k) (FPull enum from ans)) None s (f_seen k ++ o) (f_base k))
        | _, _ => Some (FStack (f_world k) (f_wait k) s (f_seen k ++ o) (f_base k))
        end
    end.

  (** what the inner source would be asked; None: the pull returns without a call of the inner pull (rollback.rs:96-98, or an error
      before 128) *)
  Definition kf_asks (enum : gset bytes -> list bytes) (from : option opoint) (k : fstack) : option (list opoint) :=
    match fh_events (f_source (f_world k)) with
    | _ :: _ => None
    | [] => match fh_checkpoints point_of enum (f_source (f_world k)) from with inl _ => None | inr cps => Some cps end
    end.

  (** order: how the hash set of points is listed (rollback.rs:125) *)
  Inductive fact :=
  | KFPull (enum : gset bytes -> list bytes) (order : list opoint -> list opoint)
  | KFCaller
  | KFHandler (ok late : bool)
  | KFNode (c : list nblock)
  | KFCancel.
  Definition fact_fair (a : fact) : Prop :=
    match a with KFPull enum order => fair enum /\ forall l p, p ∈ order l <-> p ∈ l | _ => True end.

  Definition kf_step (from0 : option opoint) (k : fstack) (a : fact) : option fstack :=
    match a with
    | KFPull enum order =>
        match f_wait k with
        | Some _ => None
        | None =>
            let from := kf_from from0 k in
            match kf_asks enum from k with
            | None => Some (FStack (f_step point_of (f_world k) (FPull enum from ANone)) None (f_in k) (f_seen k) (f_base k))
            | Some cps =>
                match step (f_in k) (Pull (to_point <$> order cps)) with
                | Some (s, o) => Some (FStack (f_world k) (Some (enum, from)) s (f_seen k ++ o) (f_base k))
                | None => None
                end
            end
        end
    | KFCaller => kf_inner k Caller
    | KFHandler ok late => kf_inner k (Handler ok late)
    | KFNode c => kf_inner k (Node c)
    | KFCancel =>
        match f_wait k with
        | Some _ => match step (f_in k) Cancel with
                    | Some (s, o) => Some (FStack (f_world k) None s (f_seen k ++ o) (f_base k))
                    | None => None
                    end
        | None => None
        end
    end.

  Fixpoint kf_run (from0 : option opoint) (k : fstack) (l : list fact) : fstack :=
    match l with
    | [] => k
    | a :: l => kf_run from0 (match kf_step from0 k a with Some k' => k' | None => k end) l
    end.
End Stack.
