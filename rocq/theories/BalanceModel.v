(** Model of core/src/balance.rs.  Executable definitions only.
    Parametrised by the amounts and their operations, so that it can be used with the decimal amounts
    of ValueModel.v and with integer amounts (all amounts written with one common scale). *)
From Coq Require Import ZArith Bool.
From Verif Require Import ValueModel.

Section Balance.
  Variable V : Type.
  Variables (vadd vsub : V -> V -> V) (vcmp : V -> V -> comparison) (vzero : V).

  Definition veqb (a b : V) : bool := match vcmp a b with Eq => true | _ => false end.

  (** core/src/balance.rs:8-12 *)
  Inductive balance := Debt (v : V) | Balanced | Excess (v : V).

  (** core/src/balance.rs:14-34 (and Default, 36-40) *)
  Definition bal_zero : balance := Balanced.
  Definition in_debt (b : balance) : bool := match b with Debt _ => true | _ => false end.
  Definition balanced (b : balance) : bool := match b with Balanced => true | _ => false end.
  Definition in_excess (b : balance) : bool := match b with Excess _ => true | _ => false end.

  (** core/src/balance.rs:52-61 PartialEq *)
  Definition bal_eqb (a b : balance) : bool :=
    match a, b with
    | Balanced, Balanced => true
    | Excess l, Excess r => veqb l r
    | Debt l, Debt r => veqb l r
    | _, _ => false
    end.

  (** core/src/balance.rs:63-85 Balance + Balance *)
  Definition bal_add (a b : balance) : balance :=
    match a, b with
    | Balanced, rhs => rhs
    | lhs, Balanced => lhs
    | Excess l, Excess r => Excess (vadd l r)
    | Debt l, Debt r => Debt (vadd l r)
    | Debt l, Excess r =>
        match vcmp l r with Lt => Excess (vsub r l) | Eq => Balanced | Gt => Debt (vsub l r) end
    | Excess l, Debt r =>
        match vcmp l r with Lt => Debt (vsub r l) | Eq => Balanced | Gt => Excess (vsub l r) end
    end.

  (** core/src/balance.rs:87-108 &Balance + &Value (110-127: owned and assigning variants delegate) *)
  Definition bal_add_value (b : balance) (r : V) : balance :=
    match b with
    | Debt l =>
        match vcmp l r with Lt => Excess (vsub r l) | Eq => Balanced | Gt => Debt (vsub l r) end
    | Balanced => if veqb r vzero then Balanced else Excess r
    | Excess l => Excess (vadd l r)
    end.

  (** core/src/balance.rs:129-150 &Balance - &Value (152-169: owned and assigning variants delegate) *)
  Definition bal_sub_value (b : balance) (r : V) : balance :=
    match b with
    | Debt l => Debt (vadd l r)
    | Balanced => if veqb r vzero then Balanced else Debt r
    | Excess l =>
        match vcmp l r with Lt => Debt (vsub r l) | Eq => Balanced | Gt => Excess (vsub l r) end
    end.

  (** a history of [+=] (credit) and [-=] (debit) *)
  Inductive bal_op := Credit (v : V) | Debit (v : V).
  Definition bal_step (b : balance) (o : bal_op) : balance :=
    match o with Credit v => bal_add_value b v | Debit v => bal_sub_value b v end.
  Fixpoint bal_run (b : balance) (l : list bal_op) : balance :=
    match l with nil => b | cons o r => bal_run (bal_step b o) r end.
End Balance.

Arguments Debt {V}. Arguments Balanced {V}. Arguments Excess {V}.
Arguments Credit {V}. Arguments Debit {V}.
Arguments in_debt {V}. Arguments balanced {V}. Arguments in_excess {V}.

(** amounts as decimals *)
Definition dbalance := balance dec.
Definition dbal_run : dbalance -> list (bal_op dec) -> dbalance :=
  bal_run dec dec_add dec_sub dec_cmp (dec_of_Z 0).
Definition dbal_add : dbalance -> dbalance -> dbalance := bal_add dec dec_add dec_sub dec_cmp.
Definition dbal_eqb : dbalance -> dbalance -> bool := bal_eqb dec dec_cmp.

(** amounts as integers at one common scale (see [common_scale] in ValueProps.v) *)
Definition zbalance := balance Z.
Definition zbal_add_value : zbalance -> Z -> zbalance := bal_add_value Z Z.add Z.sub Z.compare 0%Z.
Definition zbal_sub_value : zbalance -> Z -> zbalance := bal_sub_value Z Z.add Z.sub Z.compare 0%Z.
Definition zbal_add : zbalance -> zbalance -> zbalance := bal_add Z Z.add Z.sub Z.compare.
