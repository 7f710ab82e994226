(** Model of the read-only views of a memory mapping that fraos hands out: fraos/src/shared_mmap.rs. *)
From Coq Require Import NArith Lia.
From stdpp Require Import prelude list.
Open Scope nat_scope.

Section View.
  Context {byte : Type}.

  (** shared_mmap.rs:8-13: the mapping, which every view shares; the length of the view; its pointer, here the distance from the
      start of the mapping *)
  Record shared := Shared { sh_map : list byte; sh_len : nat; sh_pos : nat }.

  (** std::ops::Bound over usize *)
  Inductive bound := Included (n : N) | Excluded (n : N) | Unbounded.

  (** shared_mmap.rs:16-24 *)
  Definition sh_new (m : list byte) : shared := Shared m (length m) 0.
  (** shared_mmap.rs:26-32 *)
  Definition sh_length (v : shared) : nat := sh_len v.
  Definition sh_is_empty (v : shared) : bool := sh_len v =? 0.

  (** start + 1 on usize: None is the overflow panic of a build with overflow checks *)
  Definition usize_succ (chk : bool) (n : N) : option N :=
    if (n + 1 <? 2 ^ 64)%N then Some (n + 1)%N else if chk then None else Some ((n + 1) mod 2 ^ 64)%N.
  (** shared_mmap.rs:43-47 *)
  Definition first_of (chk : bool) (b : bound) : option N :=
    match b with Included n => Some n | Excluded n => usize_succ chk n | Unbounded => Some 0%N end.
  (** shared_mmap.rs:56-67: the last position asked for; None where there is none *)
  Definition last_of (len : nat) (b : bound) : option N :=
    match b with
    | Included n => Some n
    | Excluded n => if (n =? 0)%N then None else Some (n - 1)%N
    | Unbounded => Some (N.of_nat len - 1)%N
    end.

  (** shared_mmap.rs:36-79; None: the panic of [usize_succ] *)
  Definition sh_slice (chk : bool) (v : shared) (s e : bound) : option shared :=
    if sh_len v =? 0 then Some (Shared (sh_map v) 0 (sh_pos v))
    else
      match first_of chk s with
      | None => None
      | Some start =>
          if (N.of_nat (sh_len v) <=? start)%N then Some (Shared (sh_map v) 0 (sh_pos v))
          else
            match last_of (sh_len v) e with
            | None => Some (Shared (sh_map v) 0 (sh_pos v))
            | Some en =>
                let en := N.min en (N.of_nat (sh_len v) - 1) in
                let len := if (start <=? en)%N then (en - start + 1)%N else 0%N in
                Some (Shared (sh_map v) (N.to_nat len) (sh_pos v + N.to_nat start))
            end
      end.

  (** shared_mmap.rs:81-83, 91-95: the bytes of the view; None: memory outside the mapping would be read *)
  Definition sh_bytes (v : shared) : option (list byte) :=
    if sh_pos v + sh_len v <=? length (sh_map v) then Some (take (sh_len v) (drop (sh_pos v) (sh_map v))) else None.

  (** slices of slices, in turn *)
  Fixpoint sh_slices (chk : bool) (v : shared) (l : list (bound * bound)) : option shared :=
    match l with
    | [] => Some v
    | (s, e) :: l => match sh_slice chk v s e with Some v => sh_slices chk v l | None => None end
    end.
End View.
Arguments shared : clear implicits.
