(** Model of utxo-selection/src/common.rs, estimate.rs, algorithms/largest_first.rs,
    algorithms/balance_change_fee.rs and algorithms/balance_change_single_output.rs.
    Executable definitions only.

    Amounts are integers at one common scale (theorem C02_common_scale).  HashMap<TokenId, _> is a finite map;
    where the code iterates over one, the order is an argument.  A fee estimator is any state machine with the
    operations of the trait TransactionFeeEstimator (record [estimator] below); a [&self] operation is a function
    of the state, a [&mut self] operation also gives the state it leaves, whether it succeeds or fails. *)
From Coq Require Import ZArith.
From stdpp Require Import gmap strings list.
From Verif Require Import ValueModel BalanceModel StoreModel.
Open Scope Z_scope.

(** core/src/tx/utxo.rs:48-56 UTxOBuilder *)
Record uout := Uout { o_addr : string; o_value : Z; o_assets : list asset; o_extra : option string }.

Notation assets := (gmap token asset).
Notation balances := (gmap token (balance Z)).

(** an order in which a HashMap<TokenId, A> may be iterated *)
Definition torder (A : Type) := gmap token A -> list (token * A).
Definition fair_t {A} (o : torder A) : Prop := forall m, o m ≡ₚ map_to_list m.

(** estimate.rs:7-25; None / false is an Err *)
Record estimator (E : Type) := Estimator {
  e_min_fee : E -> option Z;
  e_fee_in : E -> utxo -> option Z;
  e_add_in : E -> utxo -> E * bool;
  e_fee_out : E -> uout -> option Z;
  e_add_out : E -> uout -> E * bool;
  e_min_value : E -> uout -> E * option Z;
  e_size : E -> option N;
  e_max : E -> option N
}.
Arguments Estimator {E}.
Arguments e_min_fee {E}. Arguments e_fee_in {E}. Arguments e_add_in {E}. Arguments e_fee_out {E}.
Arguments e_add_out {E}. Arguments e_min_value {E}. Arguments e_size {E}. Arguments e_max {E}.

(** common.rs:6-17 *)
Record setup := Setup {
  su_in : Z; su_in_assets : assets;
  su_out : Z; su_out_assets : assets;
  su_fixed_in : list utxo; su_fixed_out : list uout;
  su_change : option string
}.

(** common.rs:84-98 *)
Record selection := Selection {
  se_in : Z; se_in_assets : assets;
  se_out : Z; se_out_assets : assets;
  se_fixed_in : list utxo; se_fixed_out : list uout;
  se_chosen : list utxo; se_changes : list uout;
  se_fee : Z
}.

(** [entry(fingerprint).or_insert(TransactionAsset::new(..)).quantity += quantity]
    (common.rs:45-52, 61-68, largest_first.rs:166-173, 198-205, balance_change_single_output.rs:121-128) *)
Definition add_asset (m : assets) (a : asset) : assets :=
  let cur := default (Asset (a_policy a) (a_name a) (a_fp a) 0) (m !! a_fp a) in
  <[a_fp a := Asset (a_policy cur) (a_name cur) (a_fp cur) (a_qty cur + a_qty a)]> m.
Definition add_assets (m : assets) (l : list asset) : assets := foldl add_asset m l.

(** common.rs:34-80 *)
Definition from_fixed (ins : list utxo) (outs : list uout) (change : option string) : setup :=
  Setup (foldl (fun v u => v + u_value u) 0 ins)
        (foldl (fun m u => add_assets m (u_assets u)) ∅ ins)
        (foldl (fun v o => v + o_value o) 0 outs)
        (foldl (fun m o => add_assets m (o_assets o)) ∅ outs)
        ins outs change.

(** common.rs:100-110 *)
Definition main_balance_of (input output fee : Z) : (balance Z) :=
  zbal_sub_value (zbal_sub_value (zbal_add_value (Balanced) input) fee) output.

(** [*token_balances.entry(token).or_default() += / -= quantity] *)
Definition bal_plus (m : balances) (t : token) (q : Z) : balances :=
  <[t := zbal_add_value (default (Balanced) (m !! t)) q]> m.
Definition bal_minus (m : balances) (t : token) (q : Z) : balances :=
  <[t := zbal_sub_value (default (Balanced) (m !! t)) q]> m.

(** common.rs:112-124 *)
Definition asset_balances (ord : torder asset) (ins outs : assets) : balances :=
  foldl (fun m ta => bal_minus m ta.1 (a_qty ta.2))
        (foldl (fun m ta => bal_plus m ta.1 (a_qty ta.2)) ∅ (ord ins)) (ord outs).

Definition all_balanced (m : balances) : bool := forallb (fun tb => balanced tb.2) (map_to_list m).

(** common.rs:126-137 *)
Definition are_assets_balanced (ord : torder asset) (ins outs : assets) : bool :=
  all_balanced (asset_balances ord ins outs).

(** common.rs:140-148 *)
Definition is_balanced (ord : torder asset) (s : selection) : bool :=
  balanced (main_balance_of (se_in s) (se_out s) (se_fee s)) &&
  are_assets_balanced ord (se_in_assets s) (se_out_assets s).

(** common.rs:152-177 *)
Definition are_utxos_balanced (ord : torder asset) (s : selection) : bool :=
  if is_balanced ord s then
    let m1 := foldl (fun m u => foldl (fun m a => bal_plus m (a_fp a) (a_qty a))
                                      (bal_plus m MAIN (u_value u)) (u_assets u))
                    ∅ (se_fixed_in s ++ se_chosen s) in
    let m2 := foldl (fun m o => foldl (fun m a => bal_minus m (a_fp a) (a_qty a))
                                      (bal_minus m MAIN (o_value o)) (o_assets o))
                    m1 (se_fixed_out s ++ se_changes s) in
    all_balanced (bal_minus m2 MAIN (se_fee s))
  else false.

(** the result of an operation: the value, an Err (with the estimator it leaves), a panic, or more iterations of a
    loop than the bound the model gives it (proved never to happen) *)
Inductive outcome (E A : Type) := SDone (a : A) | SFail (e : E) | SPanic | SLoop.
Arguments SDone {E A}. Arguments SFail {E A}. Arguments SPanic {E A}. Arguments SLoop {E A}.

(** ** Largest first *)
(** largest_first.rs:215-230; the hash order may differ at every call, so it is indexed by the number of available
    outputs, which decreases at every selection *)
Definition largest_for (enum : nat -> enumeration) (st : store) (t : token) : option (option (utxo * store)) :=
  match iter_token_ordered_by_value_rev (enum (store_len st)) st t with
  | [] => Some None
  | u :: _ =>
      match store_remove st (u_ptr u) with
      | (st', OpOk) => Some (Some (u, st'))
      | (_, OpErr) => Some None
      | (_, OpPanic) => None
      end
  end.

(** the variables of select_inputs that its loops update (largest_first.rs:72-81) *)
Record lf (E : Type) := Lf {
  l_utxos : store; l_est : E; l_assets : assets; l_total : Z; l_fee : Z; l_chosen : list utxo
}.
Arguments Lf {E}. Arguments l_utxos {E}. Arguments l_est {E}. Arguments l_assets {E}. Arguments l_total {E}.
Arguments l_fee {E}. Arguments l_chosen {E}.

Section Largest.
  Context {E : Type} (est : estimator E) (enum : nat -> enumeration).

  (** largest_first.rs:176-178 and 208-210 *)
  Definition lf_charge (s : lf E) (u : utxo) (st' : store) (m' : assets) : outcome E (lf E) :=
    match e_fee_in est (l_est s) u with
    | None => SFail (l_est s)
    | Some f =>
        match e_add_in est (l_est s) u with
        | (e', true) => SDone (Lf st' e' m' (l_total s + u_value u) (l_fee s + f) (l_chosen s ++ [u]))
        | (e', false) => SFail e'
        end
    end.

  (** one asset of the loop of largest_first.rs:161-174 *)
  Definition lf_asset (t : token) (mt : assets * Z) (a : asset) : assets * Z :=
    (add_asset mt.1 a,
     if bool_decide (t <> MAIN) && bool_decide (a_fp a = t) then mt.2 + a_qty a else mt.2).

  (** largest_first.rs:145-181 *)
  Definition lf_take (t : token) (s : lf E) (tb : Z) : outcome E (lf E * Z) :=
    match largest_for enum (l_utxos s) t with
    | None => SPanic
    | Some None => SFail (l_est s)
    | Some (Some (u, st')) =>
        let '(m', tb') := foldl (lf_asset t) (l_assets s, tb) (u_assets u) in
        match lf_charge s u st' m' with
        | SDone s' => SDone (s', tb') | SFail e => SFail e | SPanic => SPanic | SLoop => SLoop
        end
    end.

  (** largest_first.rs:183-213 *)
  Definition lf_take_main (s : lf E) : outcome E (lf E) :=
    match largest_for enum (l_utxos s) MAIN with
    | None => SPanic
    | Some None => SFail (l_est s)
    | Some (Some (u, st')) => lf_charge s u st' (add_assets (l_assets s) (u_assets u))
    end.

  (** largest_first.rs:94-106 *)
  Fixpoint lf_token_loop (fuel : nat) (t : token) (q : Z) (s : lf E) (tb : Z) : outcome E (lf E) :=
    if tb <? q then
      match fuel with
      | O => SLoop
      | S fuel =>
          match lf_take t s tb with
          | SDone (s', tb') => lf_token_loop fuel t q s' tb'
          | SFail e => SFail e | SPanic => SPanic | SLoop => SLoop
          end
      end
    else SDone s.

  (** largest_first.rs:83-107; a is the wanted quantity of token t *)
  Fixpoint lf_tokens (l : list (token * asset)) (s : lf E) : outcome E (lf E) :=
    match l with
    | [] => SDone s
    | (t, a) :: l =>
        let cur := default (Asset (a_policy a) (a_name a) (a_fp a) 0) (l_assets s !! t) in
        let s1 := Lf (l_utxos s) (l_est s) (<[t := cur]> (l_assets s)) (l_total s) (l_fee s) (l_chosen s) in
        match lf_token_loop (S (store_len (l_utxos s))) t (a_qty a) s1 (a_qty cur) with
        | SDone s' => lf_tokens l s'
        | SFail e => SFail e | SPanic => SPanic | SLoop => SLoop
        end
    end.

  (** largest_first.rs:109-119 *)
  Fixpoint lf_main_loop (fuel : nat) (out : Z) (s : lf E) : outcome E (lf E) :=
    if in_debt (main_balance_of (l_total s) out (l_fee s)) then
      match fuel with
      | O => SLoop
      | S fuel =>
          match lf_take_main s with
          | SDone s' => lf_main_loop fuel out s'
          | SFail e => SFail e | SPanic => SPanic | SLoop => SLoop
          end
      end
    else SDone s.

  (** largest_first.rs:65-135: the available outputs after the call, and its result with the estimator it leaves *)
  Definition lf_select (ord : torder asset) (avail : store) (e : E) (su : setup)
    : store * outcome E (E * selection) :=
    match e_min_fee est e with
    | None => (avail, SFail e)
    | Some fee =>
        match lf_tokens (ord (su_out_assets su)) (Lf avail e (su_in_assets su) (su_in su) fee []) with
        | SDone s1 =>
            match lf_main_loop (S (store_len (l_utxos s1))) (su_out su) s1 with
            | SDone s2 =>
                (l_utxos s2,
                 SDone (l_est s2,
                        Selection (l_total s2) (l_assets s2) (su_out su) (su_out_assets su)
                                  (su_fixed_in su) (su_fixed_out su) (l_chosen s2) [] (l_fee s2)))
            | SFail e' => (avail, SFail e') | SPanic => (avail, SPanic) | SLoop => (avail, SLoop)
            end
        | SFail e' => (avail, SFail e') | SPanic => (avail, SPanic) | SLoop => (avail, SLoop)
        end
    end.

  (** largest_first.rs:53-63 set_available_inputs and 24-36 TryFrom<Vec>: None is the Err of a repeated pointer *)
  Fixpoint insert_all (st : store) (l : list utxo) : option store :=
    match l with
    | [] => Some st
    | u :: l => match store_insert st u with (st', OpOk) => insert_all st' l | _ => None end
    end.

  (** ** Giving the excess to the fee: balance_change_fee.rs:41-86 *)
  Definition fee_balance (ord : torder asset) (e : E) (su : setup) : outcome E (E * selection) :=
    if are_assets_balanced ord (su_in_assets su) (su_out_assets su) then
      match e_min_fee est e with
      | None => SFail e
      | Some fee =>
          let done fee :=
            SDone (e, Selection (su_in su) (su_in_assets su) (su_out su) (su_out_assets su)
                                (su_fixed_in su) (su_fixed_out su) [] [] fee) in
          match main_balance_of (su_in su) (su_out su) fee with
          | Debt _ => SFail e
          | Balanced => done fee
          | Excess x => done (fee + x)
          end
      end
    else SFail e.

  (** ** A single change output: balance_change_single_output.rs:48-141 *)
  (** lines 66-85 *)
  Fixpoint excess_assets (ins : assets) (l : list (token * (balance Z))) : option (list asset) :=
    match l with
    | [] => Some []
    | (t, b) :: l =>
        match b with
        | Debt _ => None
        | Balanced => excess_assets ins l
        | Excess x =>
            match ins !! t with
            | None => None
            | Some a => (cons (Asset (a_policy a) (a_name a) (a_fp a) x)) <$> excess_assets ins l
            end
        end
    end.

  Definition single_change (ord : torder asset) (ordb : torder (balance Z)) (extra : option string) (e : E) (su : setup)
    : outcome E (E * selection) :=
    match su_change su with
    | None => SFail e
    | Some addr =>
        match excess_assets (su_in_assets su) (ordb (asset_balances ord (su_in_assets su) (su_out_assets su))) with
        | None => SFail e
        | Some change_assets =>
            match e_min_fee est e with
            | None => SFail e
            | Some fee =>
                let finish value :=
                  match e_fee_out est e (Uout addr value change_assets extra) with
                  | None => SFail e
                  | Some f =>
                      let change := Uout addr (value - f) change_assets extra in
                      match e_add_out est e change with
                      | (e', false) => SFail e'
                      | (e', true) =>
                          SDone (e', Selection (su_in su) (su_in_assets su)
                                               (su_out su + o_value change)
                                               (add_assets (su_out_assets su) (o_assets change))
                                               (su_fixed_in su) (su_fixed_out su) [] [change] (fee + f))
                      end
                  end in
                match main_balance_of (su_in su) (su_out su) fee with
                | Debt _ => SFail e
                | Balanced => finish 0
                | Excess x => finish x
                end
            end
        end
    end.
End Largest.
