(** * Specification of the two sources

    What the wrapped source may send, what the consumer does with what it gets, and what it
    means that a block is settled. Nothing here uses the functions of SourceModel.v except
    the two [pull]s, which are what is specified. *)
From Coq Require Import Lia NArith List.
From stdpp Require Import prelude numbers list gmap sorting.
From Verif Require Import MultiverseModel SourceModel.

Local Open Scope N_scope.

(** ** Blocks received *)

(** [n] parent links lead from [b] back to [a], all of them among the blocks [R]. *)
Inductive back (R : list block) : nat -> block -> block -> Prop :=
| back_self b : b ∈ R -> back R 0 b b
| back_link n b p a : b ∈ R -> b_parent b = b_id p -> back R n p a -> back R (S n) b a.

(** A block of the greatest number. *)
Definition top (R : list block) (t : block) : Prop :=
  t ∈ R /\ forall x, x ∈ R -> b_num x <= b_num t.

(** A top block has [d] blocks after [x]: [x] is confirmed at depth [d]. *)
Definition settled (d : nat) (R : list block) (x : block) : Prop :=
  exists t, top R t /\ back R d t x.

(** What the wrapped source may send, as the list of all the blocks received so far: the
    first block is arbitrary; then a block already received, or a new child of a received
    block, numbered one more than its parent. Forks are allowed, as long as they do not
    leave out a settled block. *)
Inductive grows (d : nat) : list block -> Prop :=
| grows_nil : grows d []
| grows_first b :
    b_num b < 2 ^ 64 -> b_parent b <> b_id b -> grows d [b]
| grows_again R b : grows d R -> b ∈ R -> grows d (R ++ [b])
| grows_child R p b :
    grows d R -> p ∈ R -> b_parent b = b_id p -> b_num b = b_num p + 1 ->
    b_num b < 2 ^ 64 ->
    (forall x, x ∈ R -> b_id x <> b_id b /\ b_parent x <> b_id b) ->
    (forall x, settled d R x -> exists n, back R n p x) ->
    grows d (R ++ [b]).

(** Blocks that follow each other. *)
Fixpoint linked (C : list block) : Prop :=
  match C with
  | [] => True
  | b :: C' =>
      match C' with
      | [] => True
      | b' :: _ => b_parent b' = b_id b /\ b_num b' = b_num b + 1 /\ linked C'
      end
  end.

(** The sequence of the blocks that have been settled while [R] was received: it begins
    with the first block, every block follows its predecessor, and it lists exactly the
    blocks that were settled at some time. *)
Record settled_chain (d : nat) (R D : list block) : Prop := {
  sc_linked : linked D;
  sc_first : D = [] \/ head D = head R;
  sc_exact : forall x, x ∈ D <-> exists P Q, R = P ++ Q /\ settled d P x }.

Section consumer.
Context {point : Type} `{EqDecision point} (nf : block -> option point).

(** ** The consumer of the confirming source

    It pulls with the point of the last block it has accepted, or with [from0] if it has
    accepted none. It may fail to accept a block (and then pulls again from where it was).
    The process may be restarted: the store is opened again, and the consumer still knows
    what it has accepted. Every step may see the hash tables in another order. *)
Inductive act :=
| Pull (enum : gset bytes -> list bytes) (ans : answer) (accept : bool)
| Reopen (enum : gset bytes -> list bytes).

Definition act_fair (a : act) : Prop :=
  match a with Pull enum _ _ => fair enum | Reopen enum => fair enum end.

(** The source, the blocks it has received from the wrapped source, the blocks the consumer
    has accepted, and the results of all the pulls, oldest first. *)
Record world := World {
  w_source : ms; w_received : list block; w_accepted : list block;
  w_results : list (answer * pulled event) }.

Definition resume_point (from0 : option point) (accepted : list block) : option point :=
  match last accepted with Some b => nf b | None => from0 end.

(** [None] if the store cannot be opened. *)
Definition w_step (from0 : option point) (w : world) (a : act) : option world :=
  match a with
  | Pull enum ans accept =>
      let '(st, asked, r) :=
        ms_pull nf enum (w_source w) (resume_point from0 (w_accepted w)) ans in
      Some (World st
        (w_received w ++
           match asked, ans with Some _, AEvent (EvBlock b) => [b] | _, _ => [] end)
        (w_accepted w ++
           match r with PEvent (EvBlock b) => if accept then [b] else [] | _ => [] end)
        (w_results w ++ [(match asked with Some _ => ans | None => ANone end, r)]))
  | Reopen enum =>
      match mv_load_from (m_tree (ms_mv (w_source w))) (m_from (ms_mv (w_source w))) with
      | Done m =>
          match ms_new enum m (ms_depth (w_source w)) with
          | Done st => Some (World st (w_received w) (w_accepted w) (w_results w))
          | _ => None
          end
      | _ => None
      end
  end.

Fixpoint w_run (from0 : option point) (w : world) (acts : list act) : option world :=
  match acts with
  | [] => Some w
  | a :: acts' => match w_step from0 w a with
                  | Some w' => w_run from0 w' acts'
                  | None => None
                  end
  end.

(** The consumer accepts what it gets. *)
Definition accepts (a : act) : Prop :=
  match a with Pull _ _ accept => accept = true | Reopen _ => True end.

(** It does so unless it began without a point. *)
Definition may_drop (from0 : option point) (a : act) : Prop := from0 = None \/ accepts a.

(** A source over a fresh database that keeps all blocks. *)
Definition w_start (d : nat) : world := World (Ms mv_temporary d None) [] [] [].

(** Every answer of a pull, except a block accepted by the store, is passed on: errors and
    tips as such, and nothing else is an error. *)
Definition well_answered (ar : answer * pulled event) : Prop :=
  match ar with
  | (AErr, r) => r = PErr
  | (AEvent (EvTip t), r) => r = PEvent (EvTip t)
  | (_, r) => r = PNone \/ exists b, r = PEvent (EvBlock b)
  end.

(** Points tell blocks apart: every block has one, and it determines the identifier. *)
Definition points_ok : Prop :=
  (forall b, is_Some (nf b)) /\ forall b b', nf b = nf b' -> b_id b = b_id b'.

(** ** The consumer of the fork-handling source

    It keeps a chain of blocks, newest last; a block is appended; a rollback cuts the chain
    back to the newest block with the given point, and to nothing if there is none. *)
Fixpoint cut_rev (p : point) (rc : list block) : list block :=
  match rc with
  | [] => []
  | b :: rc' => if decide (nf b = Some p) then b :: rc' else cut_rev p rc'
  end.
Definition cut (p : point) (c : list block) : list block := rev (cut_rev p (rev c)).

Definition apply_event (c : list block) (e : fevent point) : list block :=
  match e with
  | FInner (EvBlock b) => c ++ [b]
  | FInner (EvTip _) => c
  | FRollback p => cut p c
  end.

Definition apply_pulled (c : list block) (r : pulled (fevent point)) : list block :=
  match r with PEvent e => apply_event c e | _ => c end.

(** One pull: what the wrapped source answers, and the point the consumer passes. *)
Inductive fpull := FPull (enum : gset bytes -> list bytes) (from : option point) (ans : answer).

Definition fpull_fair (a : fpull) : Prop := match a with FPull enum _ _ => fair enum end.

(** The source, the blocks received that were not answered with "nothing new", the
    consumer's chain, and the results of all the pulls. *)
Record fworld := FWorld {
  f_source : fh point; f_received : list block; f_chain : list block;
  f_results : list (pulled (fevent point)) }.

Definition received_by (asked : option (list point)) (ans : answer)
    (r : pulled (fevent point)) : list block :=
  match asked, ans, r with
  | Some _, AEvent (EvBlock b), PNone => []
  | Some _, AEvent (EvBlock b), _ => [b]
  | _, _, _ => []
  end.

Definition f_step (w : fworld) (a : fpull) : fworld :=
  match a with
  | FPull enum from ans =>
      let '(st, asked, r) := fh_pull nf enum (f_source w) from ans in
      FWorld st (f_received w ++ received_by asked ans r) (apply_pulled (f_chain w) r)
        (f_results w ++ [r])
  end.

Fixpoint f_run (w : fworld) (acts : list fpull) : fworld :=
  match acts with
  | [] => w
  | a :: acts' => f_run (f_step w a) acts'
  end.

(** A source over a fresh database, and a consumer that has nothing. *)
Definition f_start (d : nat) : fworld := FWorld (Fh mv_temporary d None None []) [] [] [].

(** The consumer's chain once the queued events are consumed. *)
Definition consumed (w : fworld) : list block :=
  foldl apply_event (f_chain w) (fh_events (f_source w)).

(** Every block is the child of the block before it. *)
Fixpoint parent_linked (C : list block) : Prop :=
  match C with
  | [] => True
  | b :: C' =>
      match C' with
      | [] => True
      | b' :: _ => b_parent b' = b_id b /\ parent_linked C'
      end
  end.

(** The chain the consumer should hold: from the first block received to the last. *)
Definition follows (R C : list block) : Prop :=
  (R = [] /\ C = []) \/
  exists first lst, head R = Some first /\ last R = Some lst /\
    head C = Some first /\ last C = Some lst /\ parent_linked C.

(** What is known of the received blocks: an identifier is one block, a child has a greater
    number than its parent (hashes do not go in circles), and no received block is the
    parent of the first one. *)
Record sane (R : list block) : Prop := {
  sn_id : forall b b', b ∈ R -> b' ∈ R -> b_id b = b_id b' -> b = b';
  sn_num : forall p c, p ∈ R -> c ∈ R -> b_parent c = b_id p -> b_num p < b_num c;
  sn_small : forall b, b ∈ R -> b_num b < 2 ^ 64;
  sn_first : forall f p, head R = Some f -> p ∈ R -> b_parent f <> b_id p }.

(** From [k] parents lead to the block [x] without leaving the store. *)
Inductive stored_path (m : mv) : bytes -> block -> Prop :=
| path_here k x : mv_get m k = Some x -> stored_path m k x
| path_parent k b x : mv_get m k = Some b -> stored_path m (b_parent b) x -> stored_path m k x.

(** The first pull that brings a block passes a point; and whenever the source receives a
    block that does not follow the previous one, some block that is stored afterwards is
    the ancestor of both. *)
Definition fork_point_stored (w : fworld) (a : fpull) : Prop :=
  match a with
  | FPull enum from ans =>
      let '(st, asked, r) := fh_pull nf enum (f_source w) from ans in
      forall b, received_by asked ans r = [b] ->
      match last (f_received w) with
      | None => from <> None
      | Some l => b_parent b <> b_id l ->
          exists x, stored_path (fh_mv st) (b_id l) x /\ stored_path (fh_mv st) (b_id b) x
      end
  end.

Fixpoint fork_points_stored (w : fworld) (acts : list fpull) : Prop :=
  match acts with
  | [] => True
  | a :: acts' => fork_point_stored w a /\ fork_points_stored (f_step w a) acts'
  end.

(** As long as no block has been received, the consumer passes a point. *)
Fixpoint first_has_point (w : fworld) (acts : list fpull) : Prop :=
  match acts with
  | [] => True
  | FPull enum from ans :: acts' =>
      (f_received w = [] -> from <> None) /\ first_has_point (f_step w (FPull enum from ans)) acts'
  end.

(** Neither a panic nor an endless loop. *)
Definition fine (r : pulled (fevent point)) : Prop := r <> PPanic /\ r <> PLoop.

(** ** Any stream

    Any sequence of pulls, with any points and any answers whose blocks have numbers of 64
    bits (the type of the code). For every pull: the point passed, the answer of the wrapped
    source (if it was asked) and the result. *)
Definition fpull_small (a : fpull) : Prop :=
  match a with FPull _ _ (AEvent (EvBlock b)) => b_num b < 2 ^ 64 | _ => True end.

Fixpoint ms_pulls (st : ms) (acts : list fpull)
  : ms * list (option point * option answer * pulled event) :=
  match acts with
  | [] => (st, [])
  | FPull enum from ans :: acts' =>
      let '(st1, asked, r) := ms_pull nf enum st from ans in
      let '(st2, rs) := ms_pulls st1 acts' in
      (st2, (from, match asked with Some _ => Some ans | None => None end, r) :: rs)
  end.

Fixpoint fh_pulls (st : fh point) (acts : list fpull)
  : fh point * list (option point * option answer * pulled (fevent point)) :=
  match acts with
  | [] => (st, [])
  | FPull enum from ans :: acts' =>
      let '(st1, asked, r) := fh_pull nf enum st from ans in
      let '(st2, rs) := fh_pulls st1 acts' in
      (st2, (from, match asked with Some _ => Some ans | None => None end, r) :: rs)
  end.

End consumer.
Arguments act : clear implicits.
Arguments world : clear implicits.
