(** * The confirming and the fork-handling source, and crashes in the middle of a pull

    Source: /repo/blockchain-source/src/multiverse/mod.rs and rollback.rs over /repo/multiverse/src/lib.rs;
    the writes are those of MultiverseCrashModel.v.  A pull writes the block it received and
    then removes the discarded blocks one by one; the process may stop between any two of
    these writes, and is then started again over the store it left.

    Simplification: the wrapped source is as in SourceModel.v; that the crash also ends the
    wrapped source only matters for its next answers, which are arbitrary anyway. *)
From Coq Require Import Lia NArith List.
From stdpp Require Import prelude numbers gmap sorting list.
From Verif Require Import MultiverseModel MultiverseSpec MultiverseCrashModel SourceModel SourceSpec.

Local Open Scope N_scope.

(** mod.rs:194-198: the writes of the loop that removes the discarded blocks. *)
Fixpoint gc_writes (m : mv) (sel : list ref) (ds : list ref) : list write :=
  match ds with
  | [] => []
  | (k, a) :: ds' =>
      call_writes m (ORemove k ((k, a) :: ds' ++ sel)) ++
      match mv_remove ((k, a) :: ds' ++ sel) m k with
      | Done (m', _) => gc_writes m' sel ds'
      | _ => []
      end
  end.

(** mod.rs:167-202: the writes of [multiverse_insert_and_gc]. *)
Definition insert_and_gc_writes (enum : gset bytes -> list bytes) (m : mv) (b : block)
    (depth : nat) : list write :=
  call_writes m (OInsert b) ++
  match mv_insert m b with
  | Done m1 =>
      match mv_select enum m1 [] depth 1 with
      | Done (selected, discarded) =>
          gc_writes m1 (refs_of m1 (option_list selected)) (refs_of m1 (enum discarded))
      | _ => []
      end
  | _ => []
  end.

Section crash.
Context {point : Type} `{EqDecision point} (nf : block -> option point).

(** mod.rs:67-164: the writes of a pull, and the block they store. Only a block that is not
    in the store makes a pull write (mod.rs:133-145). *)
Definition pull_writes (enum : gset bytes -> list bytes) (st : ms) (from : option point)
    (ans : answer) : list write * list block :=
  match ms_checkpoints nf enum st from, ans with
  | inr _, AEvent (EvBlock b) =>
      match mv_get (ms_mv st) (b_id b) with
      | Some _ => ([], [])
      | None => (insert_and_gc_writes enum (ms_mv st) b (ms_depth st), [b])
      end
  | _, _ => ([], [])
  end.

(** A pull, an orderly restart, or a crash after the first [n] writes of a pull and a new
    start. *)
Inductive cact := CAct (a : act) | CCrash (enum : gset bytes -> list bytes) (ans : answer)
  (n : nat) (enum' : gset bytes -> list bytes).

(** The consumer gets nothing from the pull that crashed. The block counts as received if
    it was written. [None] if the store cannot be opened (lib.rs:289-304) or the source not
    be made (mod.rs:19-47). *)
Definition c_step (from0 : option point) (w : world) (a : cact)
  : option world :=
  match a with
  | CAct a => w_step nf from0 w a
  | CCrash enum ans n enum' =>
      let '(ws, bs) := pull_writes enum (w_source w) (resume_point nf from0 (w_accepted w)) ans in
      match mv_load_from (apply_writes (m_tree (ms_mv (w_source w))) (take n ws))
              (m_from (ms_mv (w_source w))) with
      | Done m =>
          match ms_new enum' m (ms_depth (w_source w)) with
          | Done st => Some (World st (w_received w ++ match n with O => [] | _ => bs end)
                               (w_accepted w) (w_results w))
          | _ => None
          end
      | _ => None
      end
  end.

Fixpoint c_run (from0 : option point) (w : world) (acts : list cact)
  : option world :=
  match acts with
  | [] => Some w
  | a :: acts' =>
      match c_step from0 w a with Some w' => c_run from0 w' acts' | None => None end
  end.

(** The hash orders are orders of the sets they list. *)
Definition cact_fair (a : cact) : Prop :=
  match a with
  | CAct a => act_fair a
  | CCrash enum _ _ enum' => fair enum /\ fair enum'
  end.

(** A consumer that began with a point must not lose its first block: it accepts all it
    gets, and there is no crash before its first block. *)
Fixpoint first_safe (from0 : option point) (w : world) (acts : list cact) : Prop :=
  match acts with
  | [] => True
  | a :: acts' =>
      match a with
      | CAct a => may_drop from0 a
      | CCrash _ _ _ _ => from0 = None \/ w_accepted w <> []
      end /\
      match c_step from0 w a with Some w' => first_safe from0 w' acts' | None => True end
  end.

(** rollback.rs:95-219: the same for the fork-handling source, which serves its queue first. *)
Definition fh_pull_writes (enum : gset bytes -> list bytes) (st : fh point)
    (from : option point) (ans : answer) : list write * list block :=
  match fh_events st with
  | _ :: _ => ([], [])
  | [] =>
      match fh_checkpoints nf enum st from, ans with
      | inr _, AEvent (EvBlock b) =>
          match mv_get (fh_mv st) (b_id b) with
          | Some _ => ([], [])
          | None => (insert_and_gc_writes enum (fh_mv st) b (fh_depth st), [b])
          end
      | _, _ => ([], [])
      end
  end.

(** A crash after the first [n] writes of a pull, and a new start (rollback.rs:31-63); the
    consumer keeps its chain. *)
Definition f_crash (w : fworld (point := point)) (enum : gset bytes -> list bytes)
    (from : option point) (ans : answer) (n : nat) (enum' : gset bytes -> list bytes)
  : option (fworld (point := point)) :=
  let '(ws, bs) := fh_pull_writes enum (f_source w) from ans in
  match mv_load_from (apply_writes (m_tree (fh_mv (f_source w))) (take n ws))
          (m_from (fh_mv (f_source w))) with
  | Done m =>
      match fh_new enum' m (fh_depth (f_source w)) with
      | Done st => Some (FWorld st (f_received w ++ match n with O => [] | _ => bs end)
                           (f_chain w) (f_results w))
      | _ => None
      end
  | _ => None
  end.

End crash.
