(** Model of blockchain-source/src/cardano/{mod,event,point}.rs.  Executable definitions only.

    The source is two tasks: the caller's, which runs pull, and the request handler.  They share a queue of requests and, for
    each request, a channel of events.  Every await is a place where the other task may run, so the model is a function
    [step] from a state and an action to the next state, an action being one move of one of the tasks between two awaits;
    a schedule is a list of actions.  [None] is a task that is blocked, or that has no such move.

    The node is part of the environment: it holds a chain, which any action may replace, and answers from the chain it holds
    at that time as the chain-sync and block-fetch protocols say ([intersect], [range]; a range cannot start at the origin).  Any of its answers may instead be a
    broken connection (the boolean of [Handler]).  Reading a block id and decoding a block (cardano_sdk, cml) are parameters. *)
From Coq Require Import ZArith Ascii.
From stdpp Require Import gmap strings list.
From Verif Require Import TimeModel UtilModel.
Open Scope N_scope.

(** ** points and blocks *)
(** point.rs:4-8 *)
Inductive point := Origin | BlockHeader (slot_nb : N) (hash : string).
#[global] Instance point_eq_dec : EqDecision point.
Proof. solve_decision. Defined.
(** cardano_sdk::protocol::Point: the hash is bytes here *)
Inductive npoint := NOrigin | NPoint (slot : N) (hash : string).
#[global] Instance npoint_eq_dec : EqDecision npoint.
Proof. solve_decision. Defined.
Definition npoint_slot (p : npoint) : N := match p with NOrigin => 0 | NPoint s _ => s end.

(** a block as the node knows it: its point and its bytes *)
Record nblock := NBlock { nb_slot : N; nb_hash : string; nb_raw : string }.
Definition nb_point (b : nblock) : npoint := NPoint (nb_slot b) (nb_hash b).
(** a block as cml decodes it *)
Inductive mkind := EpochBoundary (epoch : N) | ByronMain (epoch : N) | Later.
Record mblock := MBlock_ { m_hash : string; m_prev : option string; m_number : N; m_slot : N; m_kind : mkind }.

(** event.rs:20-28 *)
Record bevent := BEvent { be_id : string; be_parent : string; be_number : N; be_raw : string; be_slot : N; be_boundary : bool; be_epoch : N }.
(** what is sent to the caller: Result<CardanoNetworkEvent<BlockEvent, Tip>> (event.rs:7-11, mod.rs:26) *)
Inductive msg := MTip (p : npoint) | MBlock (b : bevent) | MErr.

(** ** the node *)
Definition on_chain (c : list nblock) (p : npoint) : bool :=
  match p with NOrigin => true | NPoint _ _ => bool_decide (p ∈ map nb_point c) end.
Definition tip_of (c : list nblock) : npoint := match last c with Some b => nb_point b | None => NOrigin end.
(** FindIntersect: the first of the points that is on the chain *)
Fixpoint intersect (c : list nblock) (ps : list npoint) : option npoint :=
  match ps with [] => None | p :: ps => if on_chain c p then Some p else intersect c ps end.
(** RequestRange: the blocks from one point to another, both included; None if there are none such *)
Fixpoint upto (c : list nblock) (t : npoint) : option (list nblock) :=
  match c with
  | [] => None
  | b :: c => if decide (nb_point b = t) then Some [b] else match upto c t with Some l => Some (b :: l) | None => None end
  end.
Fixpoint range (c : list nblock) (f t : npoint) : option (list nblock) :=
  match c with
  | [] => None
  | b :: c' => if decide (nb_point b = f) then upto c t else range c' f t
  end.

(** configuration.rs:6-13, what is used here *)
Record config := Config { cf_from : point; cf_genesis_parent : string; cf_genesis : point; cf_era : era }.

Section Cardano.
  Context (read_id : string -> option string) (decode : string -> option mblock) (cfg : config) (chk : bool).

  (** point.rs:10-22 *)
  Definition point_to_node (p : point) : option npoint :=
    match p with
    | Origin => Some NOrigin
    | BlockHeader s h => match read_id h with Some h => Some (NPoint s h) | None => None end
    end.
  Fixpoint points_to_node (ps : list point) : option (list npoint) :=
    match ps with
    | [] => Some []
    | p :: ps => match point_to_node p, points_to_node ps with Some p, Some ps => Some (p :: ps) | _, _ => None end
    end.

  (** mod.rs:255: a stable sort, highest slot first *)
  Fixpoint insert_desc (p : npoint) (l : list npoint) : list npoint :=
    match l with
    | [] => [p]
    | q :: l' => if npoint_slot q <=? npoint_slot p then p :: l else q :: insert_desc p l'
    end.
  Definition sort_desc (l : list npoint) : list npoint := foldr insert_desc [] l.

  (** event.rs:52-58 *)
  Definition get_parent_id (m : mblock) : string :=
    match m_prev m with Some h => hex_encode h | None => "0x0000000000000000000000000000000000000000" end.

  (** event.rs:107-141; None is a panic *)
  Definition from_serialized_block (raw : string) : option msg :=
    match decode raw with
    | None => None
    | Some m =>
        let event e := MBlock (BEvent (hex_encode (m_hash m)) (get_parent_id m) (m_number m) raw (m_slot m)
                                      (match m_kind m with EpochBoundary _ => true | _ => false end) e) in
        match m_kind m with
        | EpochBoundary e | ByronMain e => Some (event e)
        | Later => match absolute_slot_to_epoch chk (cf_era cfg) (m_slot m) with
                   | Val (Some e) => Some (event e)
                   | Val None => Some MErr
                   | Panics => None
                   end
        end
    end.

  (** event.rs:94-103 *)
  Definition next_from (m : msg) : option point :=
    match m with MBlock b => Some (BlockHeader (be_slot b) (be_id b)) | _ => None end.

  (** ** the two tasks *)
  (** one mpsc channel of events: what is buffered, whether the sender and the receiver still exist *)
  Record chan := Chan { c_queue : list msg; c_tx : bool; c_rx : bool }.
  Definition TX_PROCESSING_CHANNEL_BOUND : N := 1000.   (** mod.rs:21 *)

  (** where the caller is: outside pull, or at mod.rs:60, 81 or 89 *)
  Inductive cpc := CIdle | CRecv (from : list point) | CSend (from : list point) | CWait.
  (** where the handler is: waiting for a request (181), connecting (185), asking for the intersection (259), sending the tip
      (278), asking for the range (291), skipping the first block (302), waiting for a block (305), sending it (312);
      having left the loop (231), or having panicked (event.rs:109) *)
  Inductive hpc :=
  | HIdle
  | HConn (from : list point) (ch : nat)
  | HAsk (from : list point) (skip : bool) (ch : nat)
  | HTip (from tip : npoint) (skip : bool) (ch : nat)
  | HRange (from tip : npoint) (skip : bool) (ch : nat)
  | HSkip (bs : list nblock) (ch : nat)
  | HStream (bs : list nblock) (ch : nat)
  | HSend (m : msg) (bs : list nblock) (ch : nat)
  | HExit
  | HDead.

  Record state := St {
    s_node : list nblock;
    s_c : cpc; s_current : option nat;
    s_open : bool;                              (** the caller still holds the sender of requests *)
    s_requests : list (list point * nat);
    s_h : hpc; s_handle : bool;                 (** the handler has a connection *)
    s_chans : gmap nat chan; s_next : nat
  }.
  Definition initial (c : list nblock) : state := St c CIdle None true [] HIdle true ∅ 0.

  Definition chan_of (s : state) (ch : nat) : chan := default (Chan [] false false) (s_chans s !! ch).
  Definition set_chan (s : state) (ch : nat) (x : chan) : state :=
    St (s_node s) (s_c s) (s_current s) (s_open s) (s_requests s) (s_h s) (s_handle s) (<[ch := x]> (s_chans s)) (s_next s).
  Definition set_c (s : state) (p : cpc) : state :=
    St (s_node s) p (s_current s) (s_open s) (s_requests s) (s_h s) (s_handle s) (s_chans s) (s_next s).
  Definition set_h (s : state) (p : hpc) (handle : bool) : state :=
    St (s_node s) (s_c s) (s_current s) (s_open s) (s_requests s) p handle (s_chans s) (s_next s).
  Definition close_tx (s : state) (ch : nat) : state :=
    let x := chan_of s ch in set_chan s ch (Chan (c_queue x) false (c_rx x)).
  Definition drop_rx (s : state) (ch : option nat) : state :=
    match ch with None => s | Some ch => let x := chan_of s ch in set_chan s ch (Chan [] (c_tx x) false) end.
  Definition set_current (s : state) (ch : option nat) : state :=
    St (s_node s) (s_c s) ch (s_open s) (s_requests s) (s_h s) (s_handle s) (s_chans s) (s_next s).

  Inductive action :=
  | Pull (from : list point)      (** the caller starts pull(from) *)
  | Caller                        (** a pull that has started goes on *)
  | Cancel                        (** the caller drops a pull that has not returned *)
  | Clear                         (** clear_buffers *)
  | Stop                          (** stop: the caller drops everything *)
  | Handler (ok late : bool)      (** the handler goes on; ok: its call to the node, if it makes one, succeeds; late: the time
                                      since the last tip event is at least the pace *)
  | Node (c : list nblock).       (** the node's chain is now c *)

  (** what can be seen from outside: pull is called; a request is made; a pull returns an event, None or an error; a pull finds that the
      previous request has ended, before it makes a new one; and the node *)
  Inductive seen := Called (from : list point) | Asked (from : list point) | Got (m : msg) | GotNone | GotErr | Ended | NodeHas (c : list nblock).

  (** recv on the current channel: a message, the end, or blocked *)
  Inductive recvd := RMsg (m : msg) (s : state) | REnd | RWait.
  Definition recv (s : state) (ch : nat) : recvd :=
    let x := chan_of s ch in
    match c_queue x with
    | m :: q => RMsg m (set_chan s ch (Chan q (c_tx x) (c_rx x)))
    | [] => if c_tx x then RWait else REnd
    end.

  (** mod.rs:54-90 *)
  Definition caller (s : state) : option (state * list seen) :=
    match s_c s with
    | CIdle => None
    | CRecv from =>
        match s_current s with
        | None => Some (set_c s (CSend from), [])
        | Some ch =>
            match recv s ch with
            | RMsg m s' => Some (set_c s' CIdle, [Got m])
            | REnd => Some (set_c s (CSend from), [Ended])
            | RWait => None
            end
        end
    | CSend from =>
        match s_h s with
        | HExit | HDead => Some (set_c s CIdle, [GotErr])
        | _ =>
            match s_requests s with
            | _ :: _ => None                     (** the queue of requests holds one (mod.rs:123) *)
            | [] =>
                let from := match from with [] => [cf_from cfg] | _ => from end in
                let ch := s_next s in
                let s := drop_rx s (s_current s) in
                Some (St (s_node s) CWait (Some ch) (s_open s) [(from, ch)] (s_h s) (s_handle s)
                         (<[ch := Chan [] true true]> (s_chans s)) (S ch), [Asked from])
            end
        end
    | CWait =>
        match s_current s with
        | None => None
        | Some ch =>
            match recv s ch with
            | RMsg m s' => Some (set_c s' CIdle, [Got m])
            | REnd => Some (set_c s CIdle, [GotNone])
            | RWait => None
            end
        end
    end.

  (** send on a channel of bounded size: sent, refused because the receiver is gone, or blocked *)
  Inductive sent := SSent (s : state) | SClosed | SWait.
  Definition send (s : state) (ch : nat) (m : msg) : sent :=
    let x := chan_of s ch in
    if c_rx x then
      if N.of_nat (length (c_queue x)) <? TX_PROCESSING_CHANNEL_BOUND
      then SSent (set_chan s ch (Chan (c_queue x ++ [m]) (c_tx x) (c_rx x)))
      else SWait
    else SClosed.

  (** block_fetch returns Ok (226-228) or an error (223-225); the channel is dropped either way *)
  Definition finish (s : state) (ch : nat) (ok : bool) : state := set_h (close_tx s ch) HIdle ok.

  (** a panic drops the channel and the queue of requests *)
  Definition die (s : state) (ch : nat) : state :=
    let s := foldl (fun s r => close_tx s (snd r)) (close_tx s ch) (s_requests s) in
    St (s_node s) (s_c s) (s_current s) (s_open s) [] HDead false (s_chans s) (s_next s).

  (** mod.rs:166-324 *)
  Definition handler (s : state) (ok late : bool) : option state :=
    match s_h s with
    | HIdle =>
        match s_requests s with
        | (from, ch) :: rest =>
            Some (St (s_node s) (s_c s) (s_current s) (s_open s) rest (HConn from ch) (s_handle s) (s_chans s) (s_next s))
        | [] => if s_open s then None else Some (set_h s HExit false)
        end
    | HConn from ch =>
        if s_handle s || ok then
          Some (set_h s (if bool_decide (from = [BlockHeader 0 (cf_genesis_parent cfg)])
                         then HAsk [cf_genesis cfg] false ch else HAsk from true ch) true)
        else Some (finish s ch false)
    | HAsk from skip ch =>
        match points_to_node from with
        | None => Some (finish s ch false)
        | Some ps =>
            if ok then
              match intersect (s_node s) (sort_desc ps) with
              | None => Some (finish s ch true)
              | Some p => if decide (tip_of (s_node s) = p) then Some (finish s ch true)
                          else Some (set_h s (HTip p (tip_of (s_node s)) skip ch) true)
              end
            else Some (finish s ch false)
        end
    | HTip p tip skip ch =>
        if late then
          match send s ch (MTip tip) with
          | SSent s' => Some (set_h s' (HRange p tip skip ch) true)
          | SClosed => Some (set_h s (HRange p tip skip ch) true)
          | SWait => None
          end
        else Some (set_h s (HRange p tip skip ch) true)
    | HRange p tip skip ch =>
        if ok then
          match range (s_node s) p tip with
          | None => Some (finish s ch true)
          | Some bs => Some (set_h s (if skip then HSkip bs ch else HStream bs ch) true)
          end
        else Some (finish s ch false)
    | HSkip bs ch => if ok then Some (set_h s (HStream (tail bs) ch) true) else Some (finish s ch false)
    | HStream bs ch =>
        if ok then
          match bs with
          | [] => Some (finish s ch true)
          | b :: bs => match from_serialized_block (nb_raw b) with
                       | Some m => Some (set_h s (HSend m bs ch) true)
                       | None => Some (die s ch)
                       end
          end
        else Some (finish s ch false)
    | HSend m bs ch =>
        match send s ch m with
        | SSent s' => Some (set_h s' (HStream bs ch) true)
        | SClosed => Some (finish s ch false)
        | SWait => None
        end
    | HExit | HDead => None
    end.

  Definition step (s : state) (a : action) : option (state * list seen) :=
    match a with
    | Pull from => match s_c s with CIdle => if s_open s then Some (set_c s (CRecv from), [Called from]) else None | _ => None end
    | Caller => caller s
    | Cancel => match s_c s with CIdle => None | _ => Some (set_c s CIdle, []) end
    | Clear => match s_c s with CIdle => Some (set_current (drop_rx s (s_current s)) None, []) | _ => None end
    | Stop =>
        match s_c s with
        | CIdle => let s := set_current (drop_rx s (s_current s)) None in
                   Some (St (s_node s) (s_c s) None false (s_requests s) (s_h s) (s_handle s) (s_chans s) (s_next s), [])
        | _ => None
        end
    | Handler ok late => match handler s ok late with Some s => Some (s, []) | None => None end
    | Node c => Some (St c (s_c s) (s_current s) (s_open s) (s_requests s) (s_h s) (s_handle s) (s_chans s) (s_next s), [NodeHas c])
    end.

  (** a schedule; an action that is not possible is passed over *)
  Fixpoint run (s : state) (l : list action) : state * list seen :=
    match l with
    | [] => (s, [])
    | a :: l => match step s a with
                | Some (s', o) => let (s'', o') := run s' l in (s'', o ++ o')
                | None => run s l
                end
    end.
End Cardano.
