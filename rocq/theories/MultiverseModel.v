(** * Model of the multiverse crate: the in-memory block graph and its sled tree

    Source: /repo/multiverse/src/{lib.rs,entry.rs,variant.rs,visitor/depth_ordered.rs}.

    Simplifications that hold for the whole file:
    - identifiers are their bytes ([K: AsRef<[u8]>] is taken to be injective, as it is
      for [BlockId]); blocks carry an opaque payload next to the three [Variant] fields;
    - the sled tree is a finite map from byte keys to blocks, i.e. the JSON round trip of
      a block (lib.rs:210,299) is the identity and sled itself never fails;
    - an [Arc<K>] is a key and the number of the allocation, so that two allocations of
      equal keys are told apart the way [Weak::upgrade] tells them apart;
    - the clones of a key in [tips], [roots], [ordered] and [children] are the clone of
      the key in [all] (lib.rs:359,368,381,395,401): the sets hold keys, and the
      allocation is read from [all];
    - iteration over a [HashSet] is an enumeration function given by the caller, about
      which the theorems only assume that it lists the set ([fair]). *)
From Coq Require Import Lia NArith List.
From stdpp Require Import prelude numbers list gmap sorting.

Local Open Scope N_scope.

Notation bytes := (list N).

(** variant.rs:1-20: what the store needs to know of a block; [b_data] is everything
    else the block carries. *)
Record block := Block { b_id : bytes; b_parent : bytes; b_num : N; b_data : N }.

Global Instance block_eq_dec : EqDecision block.
Proof. solve_decision. Defined.

(** entry.rs:22-25 [EntryRef]: an [Arc] of the key; the number is the allocation. *)
Notation ref := (bytes * nat)%type.

(** entry.rs:12-17 [Entry]; [e_arc] is the allocation of the key under which the entry
    is stored in [all]; [e_parent] is [EntryWeakRef], [None] for [Weak::new()]. *)
Record entry := Entry {
  e_arc : nat; e_parent : option ref; e_children : gset bytes; e_value : block }.

(** lib.rs:107-120 [Multiverse]; [m_next] is the next allocation. *)
Record mv := Mv {
  m_tree : gmap bytes block;
  m_all : gmap bytes entry;
  m_ordered : gmap N (gset bytes);
  m_tips : gset bytes;
  m_roots : gset bytes;
  m_from : N;
  m_next : nat }.

(** What a call does: it returns, it fails with [MultiverseError::NotFound], or an
    [assert!]/[expect] of the code fails. *)
Inductive outcome (A : Type) := Done (a : A) | NotFound | Panic.
Arguments Done {A} _. Arguments NotFound {A}. Arguments Panic {A}.

(** u64::to_be_bytes: the [k] low bytes of [n], most significant first. *)
Fixpoint be_bytes (k : nat) (n : N) : bytes :=
  match k with
  | O => []
  | S k' => (n / 256 ^ N.of_nat k') mod 256 :: be_bytes k' n
  end.

(** lib.rs:578-593 [mk_sled_key]; 45 is [b'-']. *)
Definition mk_sled_key (counter : N) (key : bytes) : bytes :=
  be_bytes 8 counter ++ [45] ++ key.

(** The order in which sled iterates: lexicographic on bytes. *)
Fixpoint bytes_cmp (x y : bytes) : comparison :=
  match x, y with
  | [], [] => Eq
  | [], _ :: _ => Lt
  | _ :: _, [] => Gt
  | a :: x', b :: y' => match N.compare a b with Eq => bytes_cmp x' y' | c => c end
  end.

Definition bytes_le (x y : bytes) : Prop := bytes_cmp x y <> Gt.

Global Instance bytes_le_dec : RelDecision bytes_le.
Proof. intros x y. unfold bytes_le. destruct (bytes_cmp x y); [left|left|right]; congruence. Defined.

(** lib.rs:160-181 [new_with] on the tree [t]; the memory is empty. *)
Definition mv_new_with (t : gmap bytes block) (store_from : N) : mv :=
  Mv t ∅ ∅ ∅ ∅ store_from 0.

(** lib.rs:183-190 [temporary]: a fresh database, [store_from] = [BlockNumber::MIN]. *)
Definition mv_temporary : mv := mv_new_with ∅ 0.

(** lib.rs:192-197 [db_remove]. *)
Definition mv_db_remove (m : mv) (counter : N) (key : bytes) : mv :=
  Mv (delete (mk_sled_key counter key) (m_tree m)) (m_all m) (m_ordered m) (m_tips m)
     (m_roots m) (m_from m) (m_next m).

(** lib.rs:199-216 [db_insert]: the new tree and whether the key was new. *)
Definition mv_db_insert (m : mv) (b : block) : mv * bool :=
  if N.leb (m_from m) (b_num b) then
    let key := mk_sled_key (b_num b) (b_id b) in
    (Mv (<[key := b]> (m_tree m)) (m_all m) (m_ordered m) (m_tips m) (m_roots m)
        (m_from m) (m_next m),
     match m_tree m !! key with None => true | Some _ => false end)
  else (m, false).

(** lib.rs:218-227 [clear]. *)
Definition mv_clear (m : mv) : mv := Mv ∅ ∅ ∅ ∅ ∅ (m_from m) (m_next m).

(** lib.rs:245-252 [is_empty], [len]; 262 [contains]; 324-326 [get]; 144-146 [tips]. *)
Definition mv_len (m : mv) : nat := size (m_all m).
Definition mv_is_empty (m : mv) : bool := bool_decide (m_all m = ∅).
Definition mv_contains (m : mv) (k : bytes) : bool := bool_decide (is_Some (m_all m !! k)).
Definition mv_get (m : mv) (k : bytes) : option block := e_value <$> m_all m !! k.
Definition mv_tips (m : mv) : gset bytes := m_tips m.

(** lib.rs:390-407, the part of [insert_in_memory] after the parent was looked up. A
    [HashMap::insert] on a present key keeps the stored key, hence its allocation. *)
Definition mv_link (m : mv) (parent : option ref) (b : block) : mv :=
  let k := b_id b in
  let arc := match m_all m !! k with Some e => e_arc e | None => m_next m end in
  Mv (m_tree m)
     (<[k := Entry arc parent ∅ b]> (m_all m))
     (<[b_num b := {[k]} ∪ default ∅ (m_ordered m !! b_num b)]> (m_ordered m))
     ({[k]} ∪ m_tips m)
     (m_roots m) (m_from m) (S (m_next m)).

(** lib.rs:349-407 [insert_in_memory]. *)
Definition mv_insert_in_memory (m : mv) (b : block) : outcome mv :=
  let k := b_id b in
  match m_all m !! b_parent b with
  | Some pe =>
      let pe' := Entry (e_arc pe) (e_parent pe) ({[k]} ∪ e_children pe) (e_value pe) in
      Done (mv_link
        (Mv (m_tree m) (<[b_parent b := pe']> (m_all m)) (m_ordered m)
            (m_tips m ∖ {[b_parent b]}) (m_roots m) (m_from m) (m_next m))
        (Some (b_parent b, e_arc pe)) b)
  | None =>
      if decide (k ∈ m_roots m) then Panic
      else Done (mv_link
        (Mv (m_tree m) (m_all m) (m_ordered m) (m_tips m) ({[k]} ∪ m_roots m)
            (m_from m) (m_next m)) None b)
  end.

(** lib.rs:337-347 [insert]. *)
Definition mv_insert (m : mv) (b : block) : outcome mv :=
  let (m1, fresh) := mv_db_insert m b in
  if negb fresh && bool_decide (is_Some (m_all m1 !! b_id b)) then Done m1
  else mv_insert_in_memory m1 b.

(** entry.rs:74-77 [EntryWeakRef::upgrade]: the allocation lives while the store or the
    caller keeps a strong reference to it; [held] are the references the caller keeps. *)
Definition mv_upgrade (m : mv) (held : list ref) (w : option ref) : option ref :=
  match w with
  | None => None
  | Some (k, a) =>
      if bool_decide (e_arc <$> m_all m !! k = Some a) || bool_decide ((k, a) ∈ held)
      then Some (k, a) else None
  end.

(** lib.rs:433-448, the part of [remove] that unlinks the removed block from its parent. *)
Definition mv_unlink (m : mv) (held : list ref) (parent : option ref) (key : bytes) : outcome mv :=
  match mv_upgrade m held parent with
  | None => Done m
  | Some (p, _) =>
      match m_all m !! p with
      | None => Done m
      | Some pe =>
          if decide (key ∈ e_children pe) then
            let ch := e_children pe ∖ {[key]} in
            let all := <[p := Entry (e_arc pe) (e_parent pe) ch (e_value pe)]> (m_all m) in
            if decide (ch = ∅) then
              if decide (p ∈ m_tips m) then Panic
              else Done (Mv (m_tree m) all (m_ordered m) ({[p]} ∪ m_tips m) (m_roots m)
                            (m_from m) (m_next m))
            else Done (Mv (m_tree m) all (m_ordered m) (m_tips m) (m_roots m)
                          (m_from m) (m_next m))
          else Panic
      end
  end.

(** lib.rs:409-462 [remove]. *)
Definition mv_remove (held : list ref) (m : mv) (key : bytes) : outcome (mv * block) :=
  match m_all m !! key with
  | None => NotFound
  | Some e =>
      let m1 := Mv (m_tree m) (delete key (m_all m)) (m_ordered m) (m_tips m)
                   (m_roots m ∖ {[key]}) (m_from m) (m_next m) in
      let m2 :=
        if decide (key ∈ m_roots m) then
          if decide (e_children e ## m_roots m1) then
            Done (Mv (m_tree m1) (m_all m1) (m_ordered m1) (m_tips m1)
                     (e_children e ∪ m_roots m1) (m_from m1) (m_next m1))
          else Panic
        else Done m1 in
      match m2 with
      | Done m2 =>
          match mv_unlink m2 held (e_parent e) key with
          | Done m3 =>
              let counter := b_num (e_value e) in
              let ordered :=
                match m_ordered m3 !! counter with
                | None => m_ordered m3
                | Some s => if decide (s ∖ {[key]} = ∅) then delete counter (m_ordered m3)
                            else <[counter := s ∖ {[key]}]> (m_ordered m3)
                end in
              let m4 := Mv (m_tree m3) (m_all m3) ordered (m_tips m3 ∖ {[key]}) (m_roots m3)
                           (m_from m3) (m_next m3) in
              Done (mv_db_remove m4 counter key, e_value e)
          | NotFound => NotFound
          | Panic => Panic
          end
      | NotFound => NotFound
      | Panic => Panic
      end
  end.

(** [tree.iter().values()] (lib.rs:296): values in ascending order of their keys. *)
Definition key_le (x y : bytes * block) : Prop := bytes_le x.1 y.1.
Global Instance key_le_dec : RelDecision key_le.
Proof. intros x y. unfold key_le. apply _. Defined.

Definition tree_values (t : gmap bytes block) : list block :=
  (merge_sort key_le (map_to_list t)).*2.

Fixpoint mv_load (m : mv) (bs : list block) : outcome mv :=
  match bs with
  | [] => Done m
  | b :: bs' =>
      match mv_insert_in_memory m b with
      | Done m' => mv_load m' bs'
      | NotFound => NotFound
      | Panic => Panic
      end
  end.

(** lib.rs:289-304 [load_from] (and 313-320 [open]) on the tree [t]. *)
Definition mv_load_from (t : gmap bytes block) (store_from : N) : outcome mv :=
  mv_load (mv_new_with t store_from) (tree_values t).

(** lib.rs:470-482 [ancestor]; the key is all that matters of [tip]. *)
Fixpoint mv_ancestor (m : mv) (held : list ref) (tip : bytes) (min_depth : nat)
  : outcome (option bytes) :=
  match min_depth with
  | O => Done (Some tip)
  | S d =>
      match m_all m !! tip with
      | None => Panic
      | Some e =>
          match mv_upgrade m held (e_parent e) with
          | None => Done None
          | Some (p, _) => mv_ancestor m held p d
          end
      end
  end.

(** The keys of the [BTreeMap] [ordered] in its iteration order. *)
Definition sorted_keys {A} (o : gmap N A) : list N := merge_sort N.le ((map_to_list o).*1).

(** The enumeration of a hash set lists its elements, in any order. *)
Definition fair (enum : gset bytes -> list bytes) : Prop := forall X, enum X ≡ₚ elements X.

(** lib.rs:518-521: the keys of [ordered.range(MIN..max)]. *)
Definition mv_older (m : mv) (max : N) : gset bytes :=
  ⋃ (omap (fun n => if N.ltb n max then m_ordered m !! n else None) (sorted_keys (m_ordered m))).

(** lib.rs:496-528 [select_best_block_longest_chain] (and 489-494 [select_best_block]):
    the selected block and the discarded ones. *)
Definition mv_select (enum : gset bytes -> list bytes) (m : mv) (held : list ref)
    (depth : nat) (age_gap : N) : outcome (option bytes * gset bytes) :=
  let selected :=
    match last (sorted_keys (m_ordered m)) with
    | None => Done None
    | Some n =>
        match enum (default ∅ (m_ordered m !! n)) with
        | [] => Done None
        | tip :: _ => mv_ancestor m held tip depth
        end
    end in
  match selected with
  | Done None => Done (None, ∅)
  | Done (Some s) =>
      match m_all m !! s with
      | None => Done (Some s, ∅)
      | Some e => Done (Some s, mv_older m (b_num (e_value e) - age_gap))
      end
  | NotFound => NotFound
  | Panic => Panic
  end.

(** lib.rs:553-562: the loop over the other tips. *)
Fixpoint mv_longest (m : mv) (result : bytes) (longest : N) (tips : list bytes) : outcome bytes :=
  match tips with
  | [] => Done result
  | t :: tips' =>
      match m_all m !! t with
      | None => Panic
      | Some e => if N.ltb longest (b_num (e_value e))
                  then mv_longest m t (b_num (e_value e)) tips'
                  else mv_longest m result longest tips'
      end
  end.

(** lib.rs:530-565 [preferred_fork_tip], [prefer_longest_chain_fork_tip]. *)
Definition mv_preferred_fork_tip (enum : gset bytes -> list bytes) (m : mv)
  : outcome (option bytes) :=
  match enum (m_tips m) with
  | [] => Done None
  | t :: tips' =>
      match m_all m !! t with
      | None => Panic
      | Some e =>
          match mv_longest m t (b_num (e_value e)) tips' with
          | Done r => Done (Some r)
          | NotFound => NotFound
          | Panic => Panic
          end
      end
  end.

(** visitor/depth_ordered.rs:29-44 [next], called until it returns [None]: [drain] empties
    the bucket even though only its first element is taken, so the next call drops it. *)
Fixpoint mv_iter_keys (enum : gset bytes -> list bytes) (m : mv) (ns : list N) : list block :=
  match ns with
  | [] => []
  | n :: ns' =>
      match enum (default ∅ (m_ordered m !! n)) with
      | [] => mv_iter_keys enum m ns'
      | k :: _ =>
          match m_all m !! k with
          | None => []
          | Some e => e_value e :: mv_iter_keys enum m ns'
          end
      end
  end.

(** lib.rs:277-279 [iter], visitor/depth_ordered.rs:19-22. *)
Definition mv_iter (enum : gset bytes -> list bytes) (m : mv) : list block :=
  mv_iter_keys enum m (sorted_keys (m_ordered m)).

(** The public mutating calls; [held] are the references the caller keeps while it calls
    [remove]; [OReopen] drops the store and opens the same tree again. *)
Inductive mv_op :=
| OInsert (b : block)
| ORemove (k : bytes) (held : list ref)
| OClear
| OReopen (store_from : N).

(** What the caller sees of a call: it went through, the removed block, or not found. *)
Inductive mv_ret := RUnit | RBlock (b : block) | RNotFound.

Definition mv_step (m : mv) (o : mv_op) : outcome (mv * mv_ret) :=
  match o with
  | OInsert b =>
      match mv_insert m b with
      | Done m' => Done (m', RUnit) | NotFound => NotFound | Panic => Panic
      end
  | ORemove k held =>
      match mv_remove held m k with
      | Done (m', b) => Done (m', RBlock b) | NotFound => Done (m, RNotFound) | Panic => Panic
      end
  | OClear => Done (mv_clear m, RUnit)
  | OReopen f =>
      match mv_load_from (m_tree m) f with
      | Done m' => Done (m', RUnit) | NotFound => NotFound | Panic => Panic
      end
  end.

(** A history of calls: the final store and the results, or the first failure. *)
Fixpoint mv_run (m : mv) (os : list mv_op) : outcome (mv * list mv_ret) :=
  match os with
  | [] => Done (m, [])
  | o :: os' =>
      match mv_step m o with
      | Done (m', r) =>
          match mv_run m' os' with
          | Done (m'', rs) => Done (m'', r :: rs)
          | NotFound => NotFound
          | Panic => Panic
          end
      | NotFound => NotFound
      | Panic => Panic
      end
  end.
