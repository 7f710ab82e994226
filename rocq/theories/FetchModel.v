(** Model of cardano-cli-tools/cardano-net-fetcher/src/main.rs: the program that prints the blocks of a chain.  Executable
    definitions only.  The command line (clap) and the choice of the network's configuration (38-44) are left out: the
    configuration is the parameter [cfg] of the Cardano source. *)
From Coq Require Import NArith Ascii String.
From stdpp Require Import gmap strings list.
From Verif Require Import ValueModel EstimModel TimeModel UtilModel CardanoModel JsonModel.
Open Scope N_scope.

(** main.rs:22-27.  [split(',')] gives at least one part; [remove(0)] on an empty list panics. *)
Inductive since_result := SinceOk (id : string) (slot : N) | SinceErr | SincePanic.
Fixpoint split_comma (t : text) : list text :=
  match t with
  | [] => [[]]
  | c :: t => if Ascii.eqb c "," then [] :: split_comma t
              else match split_comma t with p :: ps => (c :: p) :: ps | [] => [[c]] end
  end.
Definition parse_since (s : string) : since_result :=
  match split_comma (text_of s) with
  | [] => SincePanic
  | slot :: rest =>
      match parse_u64 slot with
      | None => SinceErr
      | Some n => match rest with [] => SincePanic | id :: _ => SinceOk (of_text id) n end
      end
  end.

(** main.rs:46-55 *)
Definition start_points (since : option (string * N)) : list point :=
  match since with None => [] | Some (id, slot) => [BlockHeader slot id] end.

(** main.rs:75-81: the line that is printed for a block *)
Definition line (b : bevent) : string :=
  ("Block #" ++ display_u64 (be_number b) ++ ", point: " ++ be_id b ++ "@" ++ display_u64 (be_slot b) ++ ", raw cbor hex: " ++ hex_encode (be_raw b))%string.

(** The loop (main.rs:62-82) over the Cardano source.  Between two awaits only the program, the source's request handler or the
    node moves; [FProgram] is a move of the program, inside its pull or from one pull to the next. *)
Inductive fetch_action := FProgram | FHandler (ok late : bool) | FNode (c : list nblock).
(** how the program ended: the loop was left, an error was returned *)
Inductive fetch_end := EndOk | EndErr.
Record fetch := Fetch { ft_in : state; ft_from : list point; ft_lines : list string; ft_end : option fetch_end; ft_seen : list seen }.

Section Fetch.
  Context (read_id : string -> option string) (decode : string -> option mblock) (cfg : config) (chk : bool).
  Notation step := (CardanoModel.step read_id decode cfg chk).

  Definition fetch_start (c : list nblock) (since : option (string * N)) : fetch := Fetch (initial c) (start_points since) [] None [].

  (** the pull has returned this *)
  Definition fetch_returned (f : fetch) (s : state) (o : list seen) : fetch :=
    let go from lines fin := Fetch s from lines fin (ft_seen f ++ o) in
    match o with
    | [Got (MBlock b)] =>
        go (match next_from (MBlock b) with Some p => [p] | None => ft_from f end) (ft_lines f ++ [line b]) None
    | [Got (MTip _)] => go (ft_from f) (ft_lines f) None
    | [Got MErr] | [GotErr] => go (ft_from f) (ft_lines f) (Some EndErr)
    | [GotNone] => go (ft_from f) (ft_lines f) (Some EndOk)
    | _ => go (ft_from f) (ft_lines f) None
    end.
  (** the move of the source that a move of the fetcher is *)
  Definition source_action (f : fetch) (a : fetch_action) : action :=
    match a with
    | FProgram => match s_c (ft_in f) with CIdle => Pull (ft_from f) | _ => Caller end
    | FHandler ok late => Handler ok late
    | FNode c => Node c
    end.
  Definition fetch_step (f : fetch) (a : fetch_action) : option fetch :=
    match ft_end f with
    | Some _ => None                       (** the process has ended *)
    | None => match step (ft_in f) (source_action f a) with Some (s, o) => Some (fetch_returned f s o) | None => None end
    end.
  (** an action that is not possible is passed over *)
  Fixpoint fetch_run (f : fetch) (l : list fetch_action) : fetch :=
    match l with
    | [] => f
    | a :: l => fetch_run (match fetch_step f a with Some f' => f' | None => f end) l
    end.
End Fetch.
