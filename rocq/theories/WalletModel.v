(** A wallet that pays from one pool of outputs, request after request: how the store, the selection algorithms and
    the balancers are used together.  Executable definitions only.

    Both LargestFirst and Thermostat hand out and take back the store of available outputs (UTxOStoreSupport,
    algorithm.rs:25-28; largest_first.rs:38-47, thermostat.rs:696-706), so one pool serves all of them.  The caller
    modelled here does what this interface asks for: it keeps what get_available_utxos returned (a copy, utxo_store.rs is
    persistent) and puts it back with set_available_utxos when any step fails or panics; it does not send a
    transaction with a negative output; after a payment it inserts the change outputs under the new transaction's id,
    at the positions after the fixed outputs.  The functions it calls are those of StoreModel, SelModel and ThermoModel. *)
From Coq Require Import ZArith.
From stdpp Require Import gmap strings list.
From Verif Require Import ValueModel BalanceModel StoreModel SelModel SelProps ThermoModel.
Open Scope Z_scope.

(** the orders in which the hash maps are iterated during a payment *)
Record orders := Orders {
  w_enum : nat -> enumeration; w_ord : torder asset; w_ordb : torder (balance Z); w_ordc : torder uout; w_ordv : torder uout
}.

(** LargestFirst followed by BalanceChangeFee or by BalanceChangeSingleOutput, or the Thermostat *)
Inductive way := ToFee | ToChange (extra : option string) | ByThermostat (cfg : tconfig).

(** a payment: the state of a fee estimator, the id of the transaction, inputs from elsewhere, outputs, change address *)
Record payment (E : Type) := Payment {
  p_way : way; p_orders : orders; p_est : E; p_tx : string;
  p_ins : list utxo; p_outs : list uout; p_change : option string
}.
Arguments Payment {E}. Arguments p_way {E}. Arguments p_orders {E}. Arguments p_est {E}. Arguments p_tx {E}.
Arguments p_ins {E}. Arguments p_outs {E}. Arguments p_change {E}.

Inductive request (E : Type) := Receive (u : utxo) | Pay (p : payment E).
Arguments Receive {E}. Arguments Pay {E}.

(** what the caller sees of a request: an output that is now available; the inputs taken from the pool, the change
    outputs as they become available, and the fee; or nothing *)
Inductive event (E : Type) :=
| Received (u : utxo)
| Paid (p : payment E) (chosen : list utxo) (back : list utxo) (fee : Z)
| Refused.
Arguments Received {E}. Arguments Paid {E}. Arguments Refused {E}.

(** the change outputs of a payment as outputs of its transaction, the first at position i *)
Fixpoint outputs_of (tx : string) (i : N) (changes : list uout) : list utxo :=
  match changes with
  | [] => []
  | o :: l => Utxo (tx, i) (o_addr o) (o_value o) (o_assets o) (default ""%string (o_extra o)) :: outputs_of tx (i + 1) l
  end.

Section Wallet.
  Context {E : Type} (est : estimator E) (sc : Z) (above : Z -> Z -> N -> bool) (chk : bool).

  (** one payment: what is left available, the inputs chosen, the changes, the fee.  largest_first.rs:65-135 with
      balance_change_fee.rs:41-86 or balance_change_single_output.rs:48-141, or thermostat.rs:592-686 *)
  Definition attempt (st : store) (p : payment E) : option (store * list utxo * list uout * Z) :=
    let o := p_orders p in
    let su := from_fixed (p_ins p) (p_outs p) (p_change p) in
    match p_way p with
    | ByThermostat cfg =>
        match th_select est (w_enum o) sc above chk cfg (w_ord o) (w_ordb o) (w_ordc o) (w_ordv o) st (p_est p) su with
        | (st', SDone (_, r)) => Some (st', se_chosen r, se_changes r, se_fee r)
        | _ => None
        end
    | w =>
        match lf_select est (w_enum o) (w_ord o) st (p_est p) su with
        | (st', SDone (e', sel)) =>
            match (match w with
                   | ToChange extra => single_change est (w_ord o) (w_ordb o) extra e' (after sel (p_change p))
                   | _ => fee_balance est (w_ord o) e' (after sel (p_change p))
                   end) with
            | SDone (_, r) => Some (st', se_chosen sel, se_changes r, se_fee r)
            | _ => None
            end
        | _ => None
        end
    end.

  (** one request of the caller *)
  Definition wallet_step (st : store) (r : request E) : store * event E :=
    match r with
    | Receive u =>
        match store_insert st u with (st', OpOk) => (st', Received u) | _ => (st, Refused) end
    | Pay p =>
        match attempt st p with
        | None => (st, Refused)
        | Some (st', chosen, changes, fee) =>
            if forallb (fun o => 0 <=? o_value o) changes then
              let back := outputs_of (p_tx p) (N.of_nat (length (p_outs p))) changes in
              match insert_all st' back with
              | Some st'' => (st'', Paid p chosen back fee)
              | None => (st, Refused)
              end
            else (st, Refused)
        end
    end.

  Fixpoint wallet_run (st : store) (rs : list (request E)) : store * list (event E) :=
    match rs with
    | [] => (st, [])
    | r :: rs => let '(st1, ev) := wallet_step st r in let '(st2, evs) := wallet_run st1 rs in (st2, ev :: evs)
    end.
End Wallet.
