(** The signed total of a history, and what it means for a balance to report a signed total. *)
From Coq Require Import ZArith QArith List.
From Verif Require Import ValueModel ValueSpec BalanceModel.
Import ListNotations.
Open Scope Q_scope.

(** credits minus debits *)
Fixpoint total (l : list (bal_op dec)) : Q :=
  match l with
  | [] => 0
  | Credit v :: r => amount v + total r
  | Debit v :: r => - amount v + total r
  end.

Definition op_amount (o : bal_op dec) : dec := match o with Credit v => v | Debit v => v end.
Definition nonneg_ops (l : list (bal_op dec)) : Prop := Forall (fun o => 0 <= amount (op_amount o)) l.

(** the balance [b] reports exactly the signed total [t] *)
Definition reports (b : dbalance) (t : Q) : Prop :=
  match b with
  | Excess v => 0 < t /\ amount v == t
  | Debt v => t < 0 /\ amount v == - t
  | Balanced => t == 0
  end.

(** the signed total a balance stands for *)
Definition signed (b : dbalance) : Q :=
  match b with Excess v => amount v | Debt v => - amount v | Balanced => 0 end.
Definition normal (b : dbalance) : Prop :=
  match b with Excess v | Debt v => 0 < amount v | Balanced => True end.
