(** Model of cardano-cli-tools/oura-block-fetcher/src/main.rs.  Executable definitions only.

    The library that talks to the node (oura) is outside: the parsers of its arguments and its table of known networks are
    parameters, and what its source sends is any list of events. *)
From Coq Require Import NArith Ascii String.
From stdpp Require Import prelude numbers strings list.
From Verif Require Import JsonModel.
Open Scope N_scope.

(** the parts of oura's events that the program looks at: main.rs:120-130 *)
Record oblock := OBlock { ob_number : N; ob_slot : N; ob_hash : string; ob_cbor : option string }.
Inductive oevent := EvBlock (b : oblock) | EvRollback (slot : N) (hash : string) | EvOther (name : string).

(** main.rs:125-128 *)
Definition oline (b : oblock) (cbor : string) : string :=
  ("Block #" ++ display_u64 (ob_number b) ++ ", point: " ++ ob_hash b ++ "@" ++ display_u64 (ob_slot b) ++ ", raw cbor hex: " ++ cbor)%string.
(** main.rs:120-131: the lines printed, and whether the loop was left with an error *)
Fixpoint print_events (evs : list oevent) : list string * bool :=
  match evs with
  | [] => ([], false)
  | EvBlock b :: rest =>
      match ob_cbor b with
      | Some cbor => let '(lines, failed) := print_events rest in (oline b cbor :: lines, failed)
      | None => ([], true)
      end
  | _ :: rest => print_events rest
  end.

Section tool.
  Context {P W : Type}.
  (** MagicArg::from_str, ChainWellKnownInfo::try_from_magic, the value of main.rs:39-52, PointArg::from_str *)
  Variables (parse_magic : string -> option N) (well_known : N -> option W) (sancho : W) (parse_point : string -> option P).
  (** oura's filter, main.rs:108-118 *)
  Variable passes : oevent -> bool.

  Inductive bearer := Unix | Tcp.
  Inductive intersect := AtOrigin | AtPoint (p : P).
  (** the configuration of the source; the fields that the program leaves at None are left out *)
  Record source_config := SourceConfig {
    sc_bearer : bearer; sc_address : string; sc_magic : N; sc_known : W; sc_intersect : intersect; sc_min_depth : N;
    sc_include_transactions : bool; sc_include_cbor : bool
  }.
  (** main.rs:28-101, up to the start of the source; None: an error is returned *)
  Definition oura_setup (magic : string) (b : bearer) (since : option string) (socket : string) : option source_config :=
    m ← parse_magic magic;
    w ← (if m =? 4 then Some sancho else well_known m);
    s ← match since with None => Some AtOrigin | Some t => AtPoint <$> parse_point t end;
    Some (match b with
          | Unix => SourceConfig Unix socket m w s 0 true true
          | Tcp => SourceConfig Tcp socket m w s 0 true true
          end).
  (** main.rs:103-134, for the events that the source has sent *)
  Definition oura_fetch (evs : list oevent) : list string * bool := print_events (List.filter passes evs).
End tool.
Arguments intersect : clear implicits.
Arguments source_config : clear implicits.
