(** What a history of inserts and removes leaves: a plain list of unspent outputs. *)
From stdpp Require Import gmap strings list.
From Coq Require Import ZArith.
From Verif Require Import StoreModel.
Open Scope Z_scope.

Definition present (p : pointer) (l : list utxo) : Prop := Exists (fun u => u_ptr u = p) l.
Global Instance present_dec p l : Decision (present p l).
Proof. apply Exists_dec. intro u. apply _. Defined.

Definition spec_step (l : list utxo) (o : store_op) : list utxo :=
  match o with
  | Insert u => if decide (present (u_ptr u) l) then l else l ++ [u]
  | Remove p => filter (fun u => u_ptr u <> p) l
  end.
(** the unspent outputs after a history *)
Definition unspent (h : list store_op) : list utxo := foldl spec_step [] h.

(** whether an operation is accepted *)
Definition spec_ok (l : list utxo) (o : store_op) : op_result :=
  match o with
  | Insert u => if decide (present (u_ptr u) l) then OpErr else OpOk
  | Remove p => if decide (present p l) then OpOk else OpErr
  end.
Fixpoint spec_results (l : list utxo) (h : list store_op) : list op_result :=
  match h with [] => [] | o :: r => spec_ok l o :: spec_results (spec_step l o) r end.

(** tokens of an output: the main one and those of its assets *)
Definition holds (t : token) (u : utxo) : Prop := t = MAIN \/ t ∈ map a_fp (u_assets u).
Global Instance holds_dec t u : Decision (holds t u).
Proof. unfold holds. apply _. Defined.

(** how much of a token an output has: all its assets of that token *)
Definition quantity (t : token) (u : utxo) : Z :=
  (if decide (t = MAIN) then u_value u else 0) +
  foldr Z.add 0 (map a_qty (filter (fun a => a_fp a = t) (u_assets u))).

Definition sumZ (l : list Z) : Z := foldr Z.add 0 l.

(** an output that lists each token at most once, and not the main one *)
Definition wf_utxo (u : utxo) : Prop := NoDup (MAIN :: map a_fp (u_assets u)).
Definition wf_op (o : store_op) : Prop := match o with Insert u => wf_utxo u | Remove _ => True end.
