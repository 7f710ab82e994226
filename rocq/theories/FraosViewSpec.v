(** What a range of positions selects from a list, said without the code. *)
From Coq Require Import NArith.
From stdpp Require Import prelude list.
From Verif Require Import FraosViewModel.

Definition from_start (s : bound) (i : N) : Prop :=
  match s with Included n => (n <= i)%N | Excluded n => (n < i)%N | Unbounded => True end.
Definition to_end (e : bound) (i : N) : Prop :=
  match e with Included n => (i <= n)%N | Excluded n => (i < n)%N | Unbounded => True end.
(** [out] is the part of [l] at the positions within the bounds: the bytes there, in order, and no others *)
Definition selects {A} (s e : bound) (l out : list A) : Prop :=
  exists before after, l = before ++ out ++ after /\
    forall i, i < length l -> (from_start s (N.of_nat i) /\ to_end e (N.of_nat i) <-> length before <= i < length before + length out).
(** the number a start bound carries is not the last of usize with [Excluded] *)
Definition startable (s : bound) : Prop := match s with Excluded n => (n + 1 < 2 ^ 64)%N | _ => True end.
(** slices of slices *)
Inductive selects_all {A} : list (bound * bound) -> list A -> list A -> Prop :=
| sel_nil l : selects_all [] l l
| sel_cons s e r l m out : selects s e l m -> selects_all r m out -> selects_all ((s, e) :: r) l out.
