(** Model of fraos/src: the append-only log.  Executable definitions only.

    A file is its list of bytes.  A file mapping (memmap2, MAP_SHARED) is a window of the file: reading it
    reads the file, writing it writes the file; touching a byte past the end of the file is [Panic]
    (SIGBUS, or inside the last page a write that never reaches the file).  An anonymous mapping is a
    private buffer.  Offsets and lengths are nat; a sequence number is an N and its multiplication by 16
    wraps at 2^64 as in a release build.  RwLock and Mutex poisoning do not occur (no code panics while
    holding them in the model).  I/O failures are the boolean fields of [faults].  The two constants of
    growable_mmap.rs are the record [cfg]; [real_cfg] has the values of the code. *)
From Coq Require Import Lia.
From stdpp Require Import numbers list.

Notation byte := N (only parsing).
Notation file := (list N) (only parsing).

Record cfg := Cfg { min_mmap : nat; max_mmaps : nat }.
(** growable_mmap.rs:11-12 *)
Definition real_cfg : cfg := Cfg (N.to_nat 524288) (N.to_nat 2048).

(** error.rs, by kind *)
Inductive err := EmptyRecord | DataFileDamaged | IndexFileDamaged | IoError | IndexOrder | DataLength.
Inductive res (A : Type) := Ok (a : A) | Err (e : err) | Panic.
Arguments Ok {A} a. Arguments Err {A} e. Arguments Panic {A}.

(** which system call fails *)
Record faults := Faults { f_extend : bool; f_map : bool; f_protect : bool; f_flush : bool; f_remap : bool }.
Definition no_faults : faults := Faults false false false false false.

(** ** index_on_mmaps.rs *)
(** 56-58 MmapChunkAddressMapper *)
Record chunk := Chunk { c_start : nat; c_bounds : list nat }.
(** 82-91 size *)
Definition c_size (c : chunk) : nat := default 0 (last (c_bounds c)).
(** 73-80 global_chunk_end *)
Definition c_end (c : chunk) : nat := c_start c + c_size c.
(** 119-135 append_relative_end *)
Definition c_append (c : chunk) (e : nat) : res chunk :=
  if e =? 0 then Err IndexOrder
  else if e <=? c_size c then Err IndexOrder
  else Ok (Chunk (c_start c) (c_bounds c ++ [e])).

(** slice::binary_search_by: the loop of the standard library (any version satisfies the same contract).
    [cmp x] compares the key of [x] with the target; inl is Ok(position), inr is Err(insertion point). *)
Fixpoint bsearch_loop {A} (fuel : nat) (cmp : A -> comparison) (l : list A) (lo hi : nat) : nat + nat :=
  match fuel with
  | 0 => inr lo
  | S f =>
      if lo <? hi then
        let mid := lo + (hi - lo) / 2 in
        match l !! mid with
        | None => inr lo
        | Some x => match cmp x with
                    | Lt => bsearch_loop f cmp l (mid + 1) hi
                    | Gt => bsearch_loop f cmp l lo mid
                    | Eq => inl mid
                    end
        end
      else inr lo
  end.
Definition bsearch {A} (cmp : A -> comparison) (l : list A) : nat + nat :=
  bsearch_loop (S (length l)) cmp l 0 (length l).

(** 142-193 MmapChunkAddressMapper::find: offset and length *)
Definition c_find (c : chunk) (address : nat) : res (option (nat * nat)) :=
  if (c_size c =? 0) || (address <? c_start c) || (c_end c <=? address) then Ok None
  else
    let rel := address - c_start c in
    if rel =? 0 then Ok ((fun b => (rel, b)) <$> head (c_bounds c))
    else match bsearch (fun b => Nat.compare b rel) (c_bounds c) with
         | inl pos =>
             match c_bounds c !! pos, c_bounds c !! (pos + 1) with
             | Some off, Some nxt => Ok (Some (off, nxt - off))
             | Some _, None => Err IndexOrder
             | None, _ => Panic
             end
         | inr ins =>
             match c_bounds c !! ins with
             | Some upper => Ok (Some (rel, upper - rel))
             | None => Panic
             end
         end.

(** 60-64, 241-246 IndexOnMmaps and its len *)
Definition i_len (idx : list chunk) : nat := match last idx with Some c => c_end c | None => 0 end.
(** 201-215 append *)
Definition i_append (idx : list chunk) (c : chunk) : res (list chunk) :=
  if c_size c =? 0 then Ok idx
  else if c_start c =? i_len idx then Ok (idx ++ [c]) else Err IndexOrder.
(** 217-239 find: mapping number, offset, length *)
Definition i_find (idx : list chunk) (address : nat) : res (option (nat * nat * nat)) :=
  match bsearch (fun c => Nat.compare (if (c_start c <=? address) && (address <? c_end c) then address else c_start c) address) idx with
  | inr _ => Ok None
  | inl n =>
      match idx !! n with
      | None => Panic
      | Some c => match c_find c address with
                  | Ok (Some (off, len)) => Ok (Some (n, off, len))
                  | Ok None => Ok None
                  | Err e => Err e
                  | Panic => Panic
                  end
      end
  end.

(** ** shared_mmap.rs and memmap2 mappings *)
(** a read-only view: a window of the file, or the bytes of an anonymous mapping *)
Inductive view := VFile (off len : nat) | VAnon (bs : list byte).
Definition view_len (v : view) : nat := match v with VFile _ len => len | VAnon bs => length bs end.
Definition view_sub (v : view) (a n : nat) : view :=
  match v with VFile off _ => VFile (off + a) n | VAnon bs => VAnon (take n (drop a bs)) end.
(** shared_mmap.rs:37-78 slice(a..b) *)
Definition view_slice (v : view) (a b : nat) : view :=
  let len := view_len v in
  if (len =? 0) || (len <=? a) || (b =? 0) then view_sub v 0 0
  else
    let e := Nat.min (b - 1) (len - 1) in
    view_sub v a (if a <=? e then e - a + 1 else 0).
(** the bytes seen through a view; None past the end of the file *)
Definition view_read (F : option file) (v : view) : option (list byte) :=
  match v with
  | VAnon bs => Some bs
  | VFile off len =>
      match F with
      | Some f => if off + len <=? length f then Some (take len (drop off f)) else None
      | None => None
      end
  end.

(** the mutable tail mapping *)
Inductive amap := AFile (off len : nat) | AAnon (buf : list byte).

(** writing bytes into a file *)
Definition write_at (f : file) (p : nat) (w : list byte) : file := take p f ++ w ++ drop (p + length w) f.
(** File::set_len: cut, or extend with zeros *)
Definition set_len (f : file) (n : nat) : file := resize n 0%N f.

(** ** growable_mmap.rs *)
(** 20-30 ActiveMmap, 32-35 Storage, 42-45 GrowableMmap *)
Record active := Active { a_len : nat; a_map : amap; a_bounds : chunk }.
Record gmm := Gmm { g_file : option file; g_index : list chunk; g_maps : list view; g_active : option active }.

(** 48-87 new *)
Definition gmm_new (F : option file) (existing : option nat) : res gmm :=
  match F with
  | None => Ok (Gmm None [] [] None)
  | Some f =>
      if match existing with Some e => length f <? e | None => false end then Err DataFileDamaged
      else
        let cap := default (length f) existing in
        if cap =? 0 then Ok (Gmm F [] [] None)
        else match c_append (Chunk 0 []) cap with
             | Ok c => match i_append [] c with
                       | Ok idx => Ok (Gmm F idx [VFile 0 cap] None)
                       | Err e => Err e
                       | Panic => Panic
                       end
             | Err e => Err e
             | Panic => Panic
             end
  end.

(** 89-99 len *)
Definition gmm_len (g : gmm) : nat :=
  match g_active g with None => i_len (g_index g) | Some a => c_end (a_bounds a) end.

(** 321-326 get_new_mmap_size *)
Definition new_mmap_size (k : cfg) (g : gmm) (add : nat) : nat :=
  match g_file g with None => add | Some _ => Nat.max add (min_mmap k) end.

(** 328-346 create_mmap: the file afterwards and the mapping *)
Definition create_mmap (fl : faults) (F : option file) (size offset : nat) : option file * res amap :=
  match F with
  | Some f =>
      if f_extend fl then (F, Err IoError)
      else
        let F' := Some (set_len f (offset + size)) in
        if f_map fl then (F', Err IoError) else (F', Ok (AFile offset size))
  | None => if f_map fl then (F, Err IoError) else (F, Ok (AAnon (replicate size 0%N)))
  end.

(** 272-309 rearrange_mmaps *)
Definition rearrange (k : cfg) (fl : faults) (g : gmm) : gmm * res unit :=
  if length (g_maps g) <=? max_mmaps k then (g, Ok tt)
  else match g_file g with
       | None => (g, Ok tt)
       | Some _ =>
           if f_remap fl then (g, Err IoError)
           else
             let n := i_len (g_index g) in
             match c_append (Chunk 0 []) n with
             | Ok c => match i_append [] c with
                       | Ok idx => (Gmm (g_file g) idx [VFile 0 n] (g_active g), Ok tt)
                       | Err e => (g, Err e)
                       | Panic => (g, Panic)
                       end
             | Err e => (g, Err e)
             | Panic => (g, Panic)
             end
       end.

(** 101-176: where the data go, with the state in which the closure will be called *)
Definition grow_prepare (k : cfg) (fl : faults) (g : gmm) (ext : nat) : gmm * res nat :=
  match g_active g with
  | None =>
      let size := new_mmap_size k g ext in
      let mapped := i_len (g_index g) in
      let (F', r) := create_mmap fl (g_file g) size mapped in
      let g1 := Gmm F' (g_index g) (g_maps g) None in
      match r with
      | Ok m =>
          match c_append (Chunk mapped []) ext with
          | Ok c => (Gmm F' (g_index g) (g_maps g) (Some (Active size m c)), Ok 0)
          | Err e => (g1, Err e)
          | Panic => (g1, Panic)
          end
      | Err e => (g1, Err e)
      | Panic => (g1, Panic)
      end
  | Some a =>
      let cur := c_size (a_bounds a) in
      if cur + ext <? a_len a then
        match c_append (a_bounds a) (cur + ext) with
        | Ok c => (Gmm (g_file g) (g_index g) (g_maps g) (Some (Active (a_len a) (a_map a) c)), Ok cur)
        | Err e => (g, Err e)
        | Panic => (g, Panic)
        end
      else
        let size := new_mmap_size k g ext in
        let mapped := c_end (a_bounds a) in
        let (F', r) := create_mmap fl (g_file g) size mapped in
        let g1 := Gmm F' (g_index g) (g_maps g) (Some a) in
        match r with
        | Ok m =>
            match c_append (Chunk mapped []) ext with
            | Ok c =>
                match i_append (g_index g) (a_bounds a) with
                | Ok idx =>
                    if f_protect fl
                    then (Gmm F' idx (g_maps g) (Some (Active size m c)), Err IoError)
                    else
                      let old := match a_map a with AFile off len => VFile off len | AAnon buf => VAnon buf end in
                      (Gmm F' idx (g_maps g ++ [view_slice old 0 cur]) (Some (Active size m c)), Ok 0)
                | Err e => (Gmm F' (g_index g) (g_maps g) (Some (Active size m c)), Err e)
                | Panic => (g1, Panic)
                end
            (* the mapping and its length are already replaced, the bounds not *)
            | Err e => (Gmm F' (g_index g) (g_maps g) (Some (Active size m (a_bounds a))), Err e)
            | Panic => (g1, Panic)
            end
        | Err e => (g1, Err e)
        | Panic => (g1, Panic)
        end
  end.

(** writing [w] at [start] of the active mapping; None when a byte is past the end of the file *)
Definition active_write (F : option file) (a : active) (start : nat) (w : list byte) : option (option file * active) :=
  match a_map a with
  | AFile off len =>
      match F with
      | Some f => if off + start + length w <=? length f
                  then Some (Some (write_at f (off + start) w), a) else None
      | None => None
      end
  | AAnon buf => Some (F, Active (a_len a) (AAnon (write_at buf start w)) (a_bounds a))
  end.
Definition active_size (a : active) : nat :=
  match a_map a with AFile _ len => len | AAnon buf => length buf end.

(** 101-198 grow_and_apply.  The closure [f] gets the length of the slice and says which bytes it writes
    at its start and whether it then returns Ok. *)
Definition grow_and_apply (k : cfg) (fl : faults) (g : gmm) (ext : nat) (f : nat -> list byte * option err) : gmm * res unit :=
  if ext =? 0 then (g, Err EmptyRecord)
  else
    match grow_prepare k fl g ext with
    | (g1, Err e) => (g1, Err e)
    | (g1, Panic) => (g1, Panic)
    | (g1, Ok start) =>
        match g_active g1 with
        | None => (g1, Err DataFileDamaged)
        | Some a =>
            if active_size a <? start then (g1, Panic)
            else
              let (w, e) := f (active_size a - start) in
              match active_write (g_file g1) a start w with
              | None => (g1, Panic)
              | Some (F', a') =>
                  let g2 := Gmm F' (g_index g1) (g_maps g1) (Some a') in
                  match e with
                  | Some e => (g2, Err e)
                  | None => if f_flush fl then (g2, Err IoError) else rearrange k fl g2
                  end
              end
        end
    end.

(** 200-247 get_ref_and_apply: the slice given to the closure, None when the closure is not called *)
Definition get_ref (g : gmm) (address : nat) : res (option (list byte)) :=
  if address <? i_len (g_index g) then
    match i_find (g_index g) address with
    | Err e => Err e
    | Panic => Panic
    | Ok None => Ok None
    | Ok (Some (n, off, len)) =>
        match g_maps g !! n with
        | None => Panic
        | Some v => match view_read (g_file g) (view_slice v off (off + len)) with
                    | Some bs => Ok (Some bs)
                    | None => Panic
                    end
        end
    end
  else match g_active g with
       | None => Ok None
       | Some a =>
           match c_find (a_bounds a) address with
           | Err e => Err e
           | Panic => Panic
           | Ok None => Ok None
           | Ok (Some (off, len)) =>
               if active_size a <? off + len then Panic
               else match view_read (g_file g) (view_sub (match a_map a with AFile o l => VFile o l | AAnon b => VAnon b end) off len) with
                    | Some bs => Ok (Some bs)
                    | None => Panic
                    end
           end
       end.

(** 249-270 shrink_to_size *)
Definition shrink (g : gmm) : gmm :=
  match g_file g with
  | None => g
  | Some f => Gmm (Some (set_len f (gmm_len g))) (g_index g) (g_maps g) (g_active g)
  end.

(** ** appender.rs *)
(** 13-22 *)
Record appender := Appender { ap_mmap : gmm; ap_size : nat }.
(** 30-58 new; opening the file itself succeeds *)
Definition appender_new (F : option file) (existing : option nat) : res appender :=
  match gmm_new F existing with
  | Ok g => Ok (Appender g (gmm_len g))
  | Err e => Err e
  | Panic => Panic
  end.
(** 63-81 append *)
Definition appender_append (k : cfg) (fl : faults) (ap : appender) (inc : nat) (f : nat -> list byte * option err)
  : appender * res unit :=
  if inc =? 0 then (ap, Ok tt)
  else match grow_and_apply k fl (ap_mmap ap) inc f with
       | (g, Ok _) => (Appender g (ap_size ap + inc), Ok tt)
       | (g, Err e) => (Appender g (ap_size ap), Err e)
       | (g, Panic) => (Appender g (ap_size ap), Panic)
       end.
(** 98-103 *)
Definition appender_shrink (ap : appender) : appender := Appender (shrink (ap_mmap ap)) (ap_size ap).

(** ** seqno.rs *)
(** usize::to_le_bytes / from_le_bytes *)
Fixpoint to_le (n : nat) (x : N) : list byte :=
  match n with 0 => [] | S n => (x mod 256)%N :: to_le n (x / 256) end.
Fixpoint from_le (l : list byte) : N := match l with [] => 0%N | b :: r => (b + 256 * from_le r)%N end.
Definition entry_bytes (e : nat * nat) : list byte := to_le 8 (N.of_nat e.1) ++ to_le 8 (N.of_nat e.2).

(** 111-113, 120-126 *)
Definition idx_len (ap : appender) : nat := ap_size ap / 8 / 2.
Definition idx_is_correct (ap : appender) : bool := ap_size ap mod 16 =? 0.

(** 87-109 get_offset_and_length *)
Definition idx_get (ap : appender) (seqno : N) : res (option (N * N)) :=
  match get_ref (ap_mmap ap) (N.to_nat ((seqno * 8 * 2) mod 2 ^ 64)) with
  | Ok (Some bs) =>
      if length bs <? 16 then Panic
      else Ok (Some (from_le (take 8 bs), from_le (take 8 (drop 8 bs))))
  | Ok None => Ok None
  | Err e => Err e
  | Panic => Panic
  end.
(** 71-76 get_length_at *)
Definition idx_length_at (ap : appender) (at_ : nat) : res N :=
  match idx_get ap (N.of_nat at_) with
  | Ok (Some (_, len)) => Ok len
  | Ok None => Err IndexFileDamaged
  | Err e => Err e
  | Panic => Panic
  end.
(** 132-138 last *)
Definition idx_last (ap : appender) : res (option (N * N)) :=
  if idx_len ap =? 0 then Ok None else idx_get ap (N.of_nat (idx_len ap - 1)).

(** 153-183 find_actual_end, over any function giving the length at a position; the number is the number
    of positions read.  [None] is the loop not having ended within the fuel. *)
Fixpoint find_loop (fuel : nat) (len_at : nat -> res N) (len start end_ reads : nat) : option (res nat * nat) :=
  match fuel with
  | 0 => None
  | S fuel =>
      if start <? len - 1 then
        match len_at (start + 1) with
        | Err e => Some (Err e, reads + 1)
        | Panic => Some (Panic, reads + 1)
        | Ok l1 =>
            if (l1 =? 0)%N then Some (Ok (start + 1), reads + 1)
            else
              let mid := (start + end_) / 2 in
              match len_at mid with
              | Err e => Some (Err e, reads + 2)
              | Panic => Some (Panic, reads + 2)
              | Ok l => if (l =? 0)%N then find_loop fuel len_at len start mid (reads + 2)
                        else find_loop fuel len_at len mid end_ (reads + 2)
              end
        end
      else Some (Err IndexFileDamaged, reads)
  end.
Definition find_actual_end (fuel : nat) (len_at : nat -> res N) (len : nat) : option (res nat * nat) :=
  match len_at 0 with
  | Err e => Some (Err e, 1)
  | Panic => Some (Panic, 1)
  | Ok l0 =>
      if (l0 =? 0)%N || (len =? 0) then Some (Ok 0, 1)
      else match len_at (len - 1) with
           | Err e => Some (Err e, 2)
           | Panic => Some (Panic, 2)
           | Ok l => if negb (l =? 0)%N then Some (Ok len, 2)
                     else find_loop fuel len_at len 0 len 2
           end
  end.
Definition idx_find_end (ap : appender) : res nat :=
  match find_actual_end (S (idx_len ap)) (idx_length_at ap) (idx_len ap) with
  | Some (r, _) => r
  | None => Panic
  end.

(** 19-35 new *)
Definition idx_new (F : option file) : res appender :=
  match appender_new F None with
  | Ok ap =>
      match idx_last ap with
      | Ok None => Ok ap
      | Ok (Some (_, last_len)) =>
          if (last_len =? 0)%N then
            match idx_find_end ap with
            | Ok n => appender_new F (Some (2 * 8 * n))
            | Err e => Err e
            | Panic => Panic
            end
          else Ok ap
      | Err e => Err e
      | Panic => Panic
      end
  | Err e => Err e
  | Panic => Panic
  end.

(** 40-69 append *)
Definition idx_append (k : cfg) (fl : faults) (ap : appender) (recs : list (nat * nat)) : appender * res (option nat) :=
  match recs with
  | [] => (ap, Ok None)
  | _ =>
      if existsb (fun r => r.2 =? 0) recs then (ap, Err EmptyRecord)
      else
        let inc := 8 * 2 * length recs in
        let f slice := if slice <? inc then ([], Some DataLength) else (flat_map entry_bytes recs, None) in
        match appender_append k fl ap inc f with
        | (ap', Ok _) => (ap', Ok (Some (idx_len ap)))
        | (ap', Err e) => (ap', Err e)
        | (ap', Panic) => (ap', Panic)
        end
  end.

(** ** flatfile.rs *)
(** 33-52 append *)
Definition flat_append (k : cfg) (fl : faults) (ap : appender) (recs : list (list byte)) : appender * res unit :=
  match recs with
  | [] => (ap, Ok tt)
  | _ =>
      if existsb (fun r => length r =? 0) recs then (ap, Err EmptyRecord)
      else
        let w := concat recs in
        let f slice := (take slice w, if slice <? length w then Some IoError else None) in
        appender_append k fl ap (length w) f
  end.
(** 59-74 get_record_at_offset *)
Definition flat_get (ap : appender) (off len : N) : res (option (list byte)) :=
  match get_ref (ap_mmap ap) (N.to_nat off) with
  | Ok (Some bs) =>
      if (N.of_nat (length bs) <? len)%N then Err DataLength else Ok (Some (take (N.to_nat len) bs))
  | Ok None => Ok None
  | Err e => Err e
  | Panic => Panic
  end.

(** ** database.rs *)
(** 9-14 Database; the handles are shared, so a clone is the same value *)
Record db := Db { d_data : appender; d_idx : appender }.

(** 50-71 new *)
Definition db_new (DF IF : option file) : res db :=
  match idx_new IF with
  | Ok idx =>
      if idx_is_correct idx then
        match idx_last idx with
        | Ok l =>
            let existing := match l with None => 0%N | Some (o, n) => (o + n)%N end in
            match appender_new DF (Some (N.to_nat existing)) with
            | Ok data => Ok (Db data idx)
            | Err e => Err e
            | Panic => Panic
            end
        | Err e => Err e
        | Panic => Panic
        end
      else Err IndexFileDamaged
  | Err e => Err e
  | Panic => Panic
  end.

(** the (offset, length) pairs of a batch: 89-95 *)
Fixpoint locations (offset : nat) (recs : list (list byte)) : list (nat * nat) :=
  match recs with [] => [] | r :: rest => (offset, length r) :: locations (offset + length r) rest end.

(** 81-102 append_get_seqno; faults of the data and of the index file *)
Definition db_append (k : cfg) (fd fi : faults) (d : db) (recs : list (list byte)) : db * res (option nat) :=
  match recs with
  | [] => (d, Ok None)
  | _ =>
      let upd := locations (ap_size (d_data d)) recs in
      match flat_append k fd (d_data d) recs with
      | (data', Ok _) =>
          match idx_append k fi (d_idx d) upd with
          | (idx', r) => (Db data' idx', r)
          end
      | (data', Err e) => (Db data' (d_idx d), Err e)
      | (data', Panic) => (Db data' (d_idx d), Panic)
      end
  end.
(** 105-115 put, put_seqno *)
Definition db_put_seqno (k : cfg) (fd fi : faults) (d : db) (r : list byte) : db * res nat :=
  match db_append k fd fi d [r] with
  | (d', Ok None) => (d', Err IndexFileDamaged)
  | (d', Ok (Some n)) => (d', Ok n)
  | (d', Err e) => (d', Err e)
  | (d', Panic) => (d', Panic)
  end.

(** 118-125 get_by_seqno *)
Definition db_get (d : db) (seqno : N) : res (option (list byte)) :=
  match idx_get (d_idx d) seqno with
  | Ok None => Ok None
  | Ok (Some (off, len)) => flat_get (d_data d) off len
  | Err e => Err e
  | Panic => Panic
  end.
(** 137-151 *)
Definition db_len (d : db) : nat := idx_len (d_idx d).
Definition db_is_empty (d : db) : bool := db_len d =? 0.
Definition db_last (d : db) : res (option (list byte)) :=
  if db_is_empty d then Ok None else db_get d (N.of_nat (db_len d - 1)).

(** seqno_iter.rs:18-35 next: the item and the new position *)
Definition iter_next (d : db) (seqno : N) : res (option (list byte)) * N :=
  match idx_get (d_idx d) seqno with
  | Ok None => (Ok None, seqno)
  | Ok (Some (off, len)) =>
      match flat_get (d_data d) off len with
      | Ok x => (Ok x, (seqno + 1)%N)
      | Err e => (Err e, seqno)
      | Panic => (Panic, seqno)
      end
  | Err e => (Err e, seqno)
  | Panic => (Panic, seqno)
  end.
(** the items of up to [n] calls of next; true when a call returned None *)
Fixpoint iter_collect (n : nat) (d : db) (seqno : N) : list (res (list byte)) * bool :=
  match n with
  | 0 => ([], false)
  | S n =>
      match iter_next d seqno with
      | (Ok (Some r), s) => let (l, e) := iter_collect n d s in (Ok r :: l, e)
      | (Ok None, _) => ([], true)
      | (Err e, s) => let (l, e') := iter_collect n d s in (Err e :: l, e')
      | (Panic, _) => ([Panic], true)
      end
  end.

(** 164-169 Drop *)
Definition db_drop (d : db) : db := Db (appender_shrink (d_data d)) (appender_shrink (d_idx d)).
(** the two files: data, seqno *)
Definition db_files (d : db) : option file * option file := (g_file (ap_mmap (d_data d)), g_file (ap_mmap (d_idx d))).

(** ** Crashes: the file contents at some moment of grow_and_apply (process crash: what was stored through
    a shared mapping or by set_len stays). *)
Inductive grow_point := GStart | GExtended | GWritten (n : nat).
Definition grow_file_at (k : cfg) (g : gmm) (w : list byte) (p : grow_point) : option file :=
  match p with
  | GStart => g_file g
  | GExtended => g_file (fst (grow_prepare k no_faults g (length w)))
  | GWritten n =>
      match grow_prepare k no_faults g (length w) with
      | (g1, Ok start) =>
          match g_active g1 with
          | Some a => match active_write (g_file g1) a start (take n w) with Some (F, _) => F | None => g_file g1 end
          | None => g_file g1
          end
      | (g1, _) => g_file g1
      end
  end.

(** crash points of append_get_seqno and of Drop: inside the data append (data bytes are written in any
    number), inside the index append (8-byte words, in program order), between the two, and in Drop after
    the index file has been cut *)
Inductive crash_point :=
| CrashData (p : grow_point)
| CrashIndexStart | CrashIndexExtended | CrashIndexWords (n : nat)
| CrashInDrop.
Definition crash_files (k : cfg) (d : db) (recs : list (list byte)) (p : crash_point) : option file * option file :=
  let idx_w := flat_map entry_bytes (locations (ap_size (d_data d)) recs) in
  let data_after := g_file (ap_mmap (fst (flat_append k no_faults (d_data d) recs))) in
  let idx_at gp := grow_file_at k (ap_mmap (d_idx d)) idx_w gp in
  match p with
  | CrashInDrop => (g_file (ap_mmap (d_data d)), g_file (shrink (ap_mmap (d_idx d))))
  | _ =>
  (* an empty batch or one with an empty record is refused before anything is touched *)
  if (length recs =? 0) || existsb (fun r => length r =? 0) recs then db_files d
  else match p with
  | CrashData gp => (grow_file_at k (ap_mmap (d_data d)) (concat recs) gp, g_file (ap_mmap (d_idx d)))
  | CrashIndexStart => (data_after, g_file (ap_mmap (d_idx d)))
  | CrashIndexExtended => (data_after, idx_at GExtended)
  | CrashIndexWords n => (data_after, idx_at (GWritten (8 * n)))
  | CrashInDrop => db_files d
  end
  end.

(** ** Histories of one log kept in files *)
Inductive fop :=
| FAppend (recs : list (list byte))
| FAppendFail (fd fi : faults) (recs : list (list byte))   (* an append during which system calls may fail *)
| FReopen                                        (* drop the only handle, open again *)
| FCrash (recs : list (list byte)) (p : crash_point).   (* crash while appending, open again *)
Definition files_op (k : cfg) (d : db) (o : fop) : res db :=
  match o with
  | FAppend recs => match db_append k no_faults no_faults d recs with
                    | (_, Panic) => Panic
                    | (d', _) => Ok d'
                    end
  | FAppendFail fd fi recs => match db_append k fd fi d recs with
                              | (_, Panic) => Panic
                              | (d', _) => Ok d'
                              end
  | FReopen => let (DF, IF) := db_files (db_drop d) in db_new DF IF
  | FCrash recs p => let (DF, IF) := crash_files k d recs p in db_new DF IF
  end.
Fixpoint files_run (k : cfg) (d : db) (h : list fop) : res db :=
  match h with
  | [] => Ok d
  | o :: r => match files_op k d o with Ok d' => files_run k d' r | Err e => Err e | Panic => Panic end
  end.
Definition files_open (k : cfg) (h : list fop) : res db :=
  match db_new (Some []) (Some []) with Ok d => files_run k d h | Err e => Err e | Panic => Panic end.
(** an in-memory log *)
Fixpoint mem_run (k : cfg) (d : db) (h : list (list (list byte))) : res db :=
  match h with
  | [] => Ok d
  | recs :: r => match db_append k no_faults no_faults d recs with
                 | (_, Panic) => Panic
                 | (d', _) => mem_run k d' r
                 end
  end.
Definition mem_open (k : cfg) (h : list (list (list byte))) : res db :=
  match db_new None None with Ok d => mem_run k d h | Err e => Err e | Panic => Panic end.
