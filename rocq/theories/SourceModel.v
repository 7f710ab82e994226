(** * Model of the two sources that are built on the block store

    Source: /repo/blockchain-source/src/multiverse/mod.rs (the confirming source) and
    /repo/blockchain-source/src/multiverse/rollback.rs (the fork-handling source), over the
    block store of MultiverseModel.v.

    Simplifications that hold for the whole file:
    - the wrapped source is not modelled: every pull takes as an argument what the wrapped
      source would answer to it ([answer]), so the theorems hold for all wrapped sources;
      what it is asked ([checkpoints]) is part of the result of the pull;
    - [GetNextFrom::next_from] on a block is a function argument [nf]; a tip event is never
      stored, so its [next_from] is never called;
    - no one else keeps references to keys of the store (the store is owned by the source);
    - a failure inside insert-and-collect is reported with the old state; the theorems show
      that it does not occur. *)
From Coq Require Import Lia NArith List.
From stdpp Require Import prelude numbers list gmap sorting.
From Verif Require Import MultiverseModel.

Local Open Scope N_scope.

(** cardano/event.rs:7-11 [CardanoNetworkEvent]: a tip announcement (with any payload) or
    a block; event.rs:14-16 [is_blockchain_tip] tells them apart. *)
Inductive event := EvTip (t : N) | EvBlock (b : block).

(** What the wrapped source answers: [Result<Option<Event>>]. *)
Inductive answer := AErr | ANone | AEvent (e : event).

(** What a pull returns: [Result<Option<E>>], a panic, or not at all. *)
Inductive pulled (E : Type) := PErr | PNone | PEvent (e : E) | PPanic | PLoop.
Arguments PErr {E}. Arguments PNone {E}. Arguments PEvent {E} _. Arguments PPanic {E}.
Arguments PLoop {E}.

(** The strong references to the stored keys [ks], as [select_best_block] returns them. *)
Definition refs_of (m : mv) (ks : list bytes) : list ref :=
  omap (fun k => (fun e => (k, e_arc e)) <$> m_all m !! k) ks.

(** mod.rs:194-198: the loop that removes the discarded blocks. While one is removed, it,
    the ones still to be removed and the selected one ([sel]) are referenced. *)
Fixpoint gc (m : mv) (sel : list ref) (ds : list ref) : outcome mv :=
  match ds with
  | [] => Done m
  | (k, a) :: ds' =>
      match mv_remove ((k, a) :: ds' ++ sel) m k with
      | Done (m', _) => gc m' sel ds'
      | NotFound => NotFound
      | Panic => Panic
      end
  end.

(** mod.rs:167-202 [multiverse_insert_and_gc]: the store and the selected key. *)
Definition insert_and_gc (enum : gset bytes -> list bytes) (m : mv) (b : block) (depth : nat)
  : outcome (mv * option bytes) :=
  match mv_insert m b with
  | Done m1 =>
      match mv_select enum m1 [] depth 1 with
      | Done (selected, discarded) =>
          match gc m1 (refs_of m1 (option_list selected)) (refs_of m1 (enum discarded)) with
          | Done m2 => Done (m2, selected)
          | NotFound => NotFound
          | Panic => Panic
          end
      | NotFound => NotFound
      | Panic => Panic
      end
  | NotFound => NotFound
  | Panic => Panic
  end.

(** mod.rs:147-152 and rollback.rs:149-156: a selected block that is not the confirmed one. *)
Definition new_stable (confirmed selected : option bytes) : option bytes :=
  match selected with
  | None => None
  | Some s => if decide (confirmed = Some s) then None else Some s
  end.

Section source.
Context {point : Type} `{EqDecision point} (nf : block -> option point).

(** *** The confirming source *)

(** mod.rs:11-16 [MultiverseSource], without the wrapped source. *)
Record ms := Ms { ms_mv : mv; ms_depth : nat; ms_confirmed : option bytes }.

(** mod.rs:19-47 [new]. *)
Definition ms_new (enum : gset bytes -> list bytes) (m : mv) (depth : nat) : outcome ms :=
  match mv_select enum m [] depth 0 with
  | Done (selected, _) => Done (Ms m depth selected)
  | NotFound => NotFound
  | Panic => Panic
  end.

(** mod.rs:68-81: the point of the confirmed block's parent, the block and its point. *)
Definition ms_confirmed_with_parent (st : ms) : option (option point * block * point) :=
  k ← ms_confirmed st;
  b ← mv_get (ms_mv st) k;
  pt ← nf b;
  Some (mv_get (ms_mv st) (b_parent b) ≫= nf, b, pt).

(** mod.rs:94-101: the points of the tips; [inl] is the early return. *)
Fixpoint ms_tip_points (m : mv) (ks : list bytes) : pulled event + list point :=
  match ks with
  | [] => inr []
  | k :: ks' =>
      match mv_get m k with
      | None => inl PPanic
      | Some b =>
          match nf b with
          | None => inl PErr
          | Some p =>
              match ms_tip_points m ks' with
              | inl r => inl r
              | inr ps => inr (p :: ps)
              end
          end
      end
  end.

(** mod.rs:87-125: what the wrapped source is asked; [inl] is the early return. *)
Definition ms_checkpoints (enum : gset bytes -> list bytes) (st : ms) (from : option point)
  : pulled event + list point :=
  match ms_tip_points (ms_mv st) (enum (mv_tips (ms_mv st))) with
  | inl r => inl r
  | inr ps =>
      match ms_confirmed_with_parent st with
      | Some (parent, confirmed, confirmed_point) =>
          if decide (from = parent) then inl (PEvent (EvBlock confirmed))
          else match from with
               | Some f => if decide (f = confirmed_point) then inr (ps ++ [f]) else inl PErr
               | None => inr ps
               end
      | None => inr (ps ++ option_list from)
      end
  end.

(** mod.rs:67-164 [pull]: the new state, what the wrapped source was asked (if it was), and
    the result. *)
Definition ms_pull (enum : gset bytes -> list bytes) (st : ms) (from : option point)
    (ans : answer) : ms * option (list point) * pulled event :=
  match ms_checkpoints enum st from with
  | inl r => (st, None, r)
  | inr cps =>
      match ans with
      | AErr => (st, Some cps, PErr)
      | ANone => (st, Some cps, PNone)
      | AEvent (EvTip t) => (st, Some cps, PEvent (EvTip t))
      | AEvent (EvBlock b) =>
          match mv_get (ms_mv st) (b_id b) with
          | Some _ => (st, Some cps, PNone)
          | None =>
              match insert_and_gc enum (ms_mv st) b (ms_depth st) with
              | NotFound => (st, Some cps, PErr)
              | Panic => (st, Some cps, PPanic)
              | Done (m', selected) =>
                  match new_stable (ms_confirmed st) selected with
                  | None => (Ms m' (ms_depth st) (ms_confirmed st), Some cps, PNone)
                  | Some s =>
                      match mv_get m' s with
                      | None => (Ms m' (ms_depth st) (ms_confirmed st), Some cps, PPanic)
                      | Some x => (Ms m' (ms_depth st) (Some s), Some cps, PEvent (EvBlock x))
                      end
                  end
              end
          end
      end
  end.

(** *** The fork-handling source *)

(** rollback.rs:12-15 [Event]. *)
Inductive fevent := FInner (e : event) | FRollback (p : point).

(** rollback.rs:21-28 [ForkHandlingSource], without the wrapped source. [fh_events] is the
    vector [events] with its last element first: [push] is cons, [pop] takes the head. *)
Record fh := Fh {
  fh_mv : mv; fh_depth : nat; fh_confirmed : option bytes; fh_last : option bytes;
  fh_events : list fevent }.

(** rollback.rs:31-63 [new]. *)
Definition fh_new (enum : gset bytes -> list bytes) (m : mv) (depth : nat) : outcome fh :=
  match mv_select enum m [] depth 0 with
  | Done (selected, _) => Done (Fh m depth selected (b_id <$> last (mv_iter enum m)) [])
  | NotFound => NotFound
  | Panic => Panic
  end.

(** rollback.rs:103-113. *)
Fixpoint fh_tip_points (m : mv) (ks : list bytes) : pulled fevent + list point :=
  match ks with
  | [] => inr []
  | k :: ks' =>
      match mv_get m k with
      | None => inl PErr
      | Some b =>
          match nf b with
          | None => inl PPanic
          | Some p =>
              match fh_tip_points m ks' with
              | inl r => inl r
              | inr ps => inr (p :: ps)
              end
          end
      end
  end.

(** rollback.rs:100-126: what the wrapped source is asked. The code collects the points in a
    hash set; here they are a list, in which only membership matters. *)
Definition fh_checkpoints (enum : gset bytes -> list bytes) (st : fh) (from : option point)
  : pulled fevent + list point :=
  match fh_tip_points (fh_mv st) (enum (mv_tips (fh_mv st))) with
  | inl r => inl r
  | inr ps =>
      match fh_confirmed st with
      | None => inr (ps ++ option_list from)
      | Some c =>
          match mv_get (fh_mv st) c ≫= nf with
          | None => inl PPanic
          | Some p => inr (ps ++ p :: option_list from)
          end
      end
  end.

(** rollback.rs:184-187: the identifiers met on the way back from [cursor]. Following
    parents through more blocks than are stored means following them for ever: with
    [fuel] larger than the number of stored blocks, [None] is exactly non-termination. *)
Fixpoint walk_previous (m : mv) (fuel : nat) (cursor : bytes) : option (list bytes) :=
  match fuel with
  | O => None
  | S fuel' =>
      match mv_get m cursor with
      | None => Some []
      | Some e => ids ← walk_previous m fuel' (b_parent e); Some (b_id e :: ids)
      end
  end.

(** The outcome of the second loop: the events it pushed (first pushed first), or a panic of
    [next_from().unwrap()] (rollback.rs:194), or no end. *)
Inductive walked := WEvents (es : list fevent) | WPanic | WLoop.

(** rollback.rs:191-200. *)
Fixpoint walk_current (m : mv) (previous : list bytes) (fuel : nat) (cursor : bytes) : walked :=
  match fuel with
  | O => WLoop
  | S fuel' =>
      match mv_get m cursor with
      | None => WEvents []
      | Some e =>
          if decide (b_id e ∈ previous) then
            match nf e with
            | None => WPanic
            | Some p => WEvents [FRollback p]
            end
          else
            match walk_current m previous fuel' (b_parent e) with
            | WEvents es => WEvents (FInner (EvBlock e) :: es)
            | WPanic => WPanic
            | WLoop => WLoop
            end
      end
  end.

(** rollback.rs:158-216: the event returned and the queue, given the store after the
    insertion, the queue before and the previous [last]. *)
Definition fh_switch (m : mv) (queue : list fevent) (previous : option bytes) (b : block)
    (from : option point) : list fevent * pulled fevent :=
  if decide (previous = Some (b_parent b)) then (queue, PEvent (FInner (EvBlock b)))
  else
    match previous with
    | Some cursor =>
        match walk_previous m (S (mv_len m)) cursor with
        | None => (queue, PLoop)
        | Some ids =>
            match walk_current m ids (S (mv_len m)) (b_id b) with
            | WLoop => (queue, PLoop)
            | WPanic => (queue, PPanic)
            | WEvents es =>
                match rev es ++ queue with
                | [] => ([], PPanic)
                | e :: q => (q, PEvent e)
                end
            end
        end
    | None =>
        match from with
        | None => (FInner (EvBlock b) :: queue, PPanic)
        | Some f => (FInner (EvBlock b) :: queue, PEvent (FRollback f))
        end
    end.

(** rollback.rs:95-219 [pull]. *)
Definition fh_pull (enum : gset bytes -> list bytes) (st : fh) (from : option point)
    (ans : answer) : fh * option (list point) * pulled fevent :=
  match fh_events st with
  | e :: q =>
      (Fh (fh_mv st) (fh_depth st) (fh_confirmed st) (fh_last st) q, None, PEvent e)
  | [] =>
      match fh_checkpoints enum st from with
      | inl r => (st, None, r)
      | inr cps =>
          match ans with
          | AErr => (st, Some cps, PErr)
          | ANone => (st, Some cps, PNone)
          | AEvent (EvTip t) => (st, Some cps, PEvent (FInner (EvTip t)))
          | AEvent (EvBlock b) =>
              match mv_get (fh_mv st) (b_id b) with
              | Some _ => (st, Some cps, PNone)
              | None =>
                  match insert_and_gc enum (fh_mv st) b (fh_depth st) with
                  | NotFound => (st, Some cps, PErr)
                  | Panic => (st, Some cps, PPanic)
                  | Done (m', selected) =>
                      let confirmed :=
                        match new_stable (fh_confirmed st) selected with
                        | Some s => Some s
                        | None => fh_confirmed st
                        end in
                      let (q, r) := fh_switch m' [] (fh_last st) b from in
                      (Fh m' (fh_depth st) confirmed (Some (b_id b)) q, Some cps, r)
                  end
              end
          end
      end
  end.

End source.
Arguments fevent : clear implicits.
Arguments fh : clear implicits.
