(** Model of utxo-selection/src/algorithms/thermostat.rs.  Executable definitions only.

    Amounts are integers at one common scale (theorem C02_common_scale); [sc] of them make one whole unit, which is
    what Value::truncate and to_usize refer to.  Quotients of BigDecimal are only compared with an amount
    (lines 421-423 and 450-463), so "x > total / n" is a parameter [above x total n] of which nothing is assumed; a division
    by zero is a panic.  The order of every hash map iteration is a parameter.  [chk] says whether the build checks
    overflow and debug assertions. *)
From Coq Require Import ZArith.
From stdpp Require Import gmap strings list.
From Verif Require Import ValueModel BalanceModel StoreModel SelModel.
Open Scope Z_scope.

(** thermostat.rs:15-21 *)
Record tconfig := Tconfig {
  c_num : N; c_num_assets : N; c_min : Z; c_max : Z; c_main : token
}.

(** thermostat.rs:35-48 and the estimator the methods are called with.  selected_inputs_value, which nothing reads, is
    left out; available_utxos, outputs, optional_change_address and config are arguments below, the methods do not
    change them. *)
Record thermo (E : Type) := Thermo {
  t_changes : gmap token uout; t_extra : list uout; t_sel : list utxo;
  t_bal : balance Z; t_abal : balances; t_est : E
}.
Arguments Thermo {E}. Arguments t_changes {E}. Arguments t_extra {E}. Arguments t_sel {E}. Arguments t_bal {E}.
Arguments t_abal {E}. Arguments t_est {E}.

(** what a method returns: a value, an Err, a panic, or more iterations than the bound the model gives a loop *)
Inductive res (A : Type) := ROk (a : A) | RErr | RPanic | RLoop.
Arguments ROk {A}. Arguments RErr {A}. Arguments RPanic {A}. Arguments RLoop {A}.

Definition bind {S A B} (p : S * res A) (f : S -> A -> S * res B) : S * res B :=
  match p with
  | (s, ROk a) => f s a
  | (s, RErr) => (s, RErr)
  | (s, RPanic) => (s, RPanic)
  | (s, RLoop) => (s, RLoop)
  end.
Notation "'LET' s , a := p 'IN' q" := (bind p (fun s a => q)) (at level 200, s name, a name, q at level 200).

Definition two64 : N := 18446744073709551616%N.

Section Thermostat.
  Context {E : Type} (est : estimator E) (enum : nat -> enumeration) (sc : Z) (above : Z -> Z -> N -> bool) (chk : bool)
          (cfg : tconfig) (addr : option string) (outputs : list uout).
  Notation st := (thermo E).

  Definition lift {A} (s : st) (o : option A) : st * res A :=
    match o with Some a => (s, ROk a) | None => (s, RErr) end.
  Definition with_est (s : st) (e : E) : st := Thermo (t_changes s) (t_extra s) (t_sel s) (t_bal s) (t_abal s) e.
  Definition with_bal (s : st) (b : balance Z) : st := Thermo (t_changes s) (t_extra s) (t_sel s) b (t_abal s) (t_est s).
  Definition with_abal (s : st) (m : balances) : st := Thermo (t_changes s) (t_extra s) (t_sel s) (t_bal s) m (t_est s).
  Definition put (s : st) (t : token) (o : uout) : st :=
    Thermo (<[t := o]> (t_changes s)) (t_extra s) (t_sel s) (t_bal s) (t_abal s) (t_est s).
  Definition push_extra (s : st) (o : uout) : st :=
    Thermo (t_changes s) (t_extra s ++ [o]) (t_sel s) (t_bal s) (t_abal s) (t_est s).
  (** self.balance += / -= amount *)
  Definition gain (s : st) (v : Z) : st := with_bal s (zbal_add_value (t_bal s) v).
  Definition pay (s : st) (v : Z) : st := with_bal s (zbal_sub_value (t_bal s) v).
  (** the operations of the estimator that take &mut self *)
  Definition add_out (s : st) (o : uout) : st * res unit :=
    match e_add_out est (t_est s) o with (e, true) => (with_est s e, ROk tt) | (e, false) => (with_est s e, RErr) end.
  Definition add_in (s : st) (u : utxo) : st * res unit :=
    match e_add_in est (t_est s) u with (e, true) => (with_est s e, ROk tt) | (e, false) => (with_est s e, RErr) end.
  Definition min_value (s : st) (o : uout) : st * res Z :=
    match e_min_value est (t_est s) o with (e, Some v) => (with_est s e, ROk v) | (e, None) => (with_est s e, RErr) end.

  (** ToPrimitive::to_usize of an amount *)
  Definition to_usize (v : Z) : option N :=
    if v <? 0 then None else if v / sc <? Z.of_N two64 then Some (Z.to_N (v / sc)) else None.
  (** usize multiplication and saturating addition *)
  Definition usize_mul (a b : N) : option N :=
    if (a * b <? two64)%N then Some (a * b)%N else if chk then None else Some ((a * b) mod two64)%N.
  Definition usize_sat_add (a b : N) : N := N.min (a + b) (two64 - 1).

  (** thermostat.rs:69-103 *)
  Definition remaining (s : st) : st * res N :=
    match outputs, t_sel s with
    | o :: _, u :: _ =>
        LET s, fo := lift s (e_fee_out est (t_est s) o) IN
        LET s, size_out := lift s (to_usize fo) IN
        LET s, fi := lift s (e_fee_in est (t_est s) u) IN
        LET s, size_in := lift s (to_usize fi) IN
        match usize_mul size_out (N.of_nat (size (t_abal s))) with
        | None => (s, RPanic)
        | Some room =>
            match usize_mul room 2 with
            | None => (s, RPanic)
            | Some room =>
                LET s, mx := lift s (e_max est (t_est s)) IN
                LET s, cur := lift s (e_size est (t_est s)) IN
                if (size_in =? 0)%N then (s, RPanic)
                else (s, ROk ((mx - usize_sat_add cur room) / size_in)%N)
            end
        end
    | _, _ => (s, RErr)
    end.

  (** thermostat.rs:105-121 *)
  Definition add_input (s : st) (u : utxo) : st :=
    Thermo (t_changes s) (t_extra s) (t_sel s ++ [u]) (zbal_add_value (t_bal s) (u_value u))
           (foldl (fun m a => bal_plus m (a_fp a) (a_qty a)) (t_abal s) (u_assets u)) (t_est s).

  (** thermostat.rs:123-130 *)
  Definition current_balance (s : st) : st * res (balance Z) :=
    LET s, f := lift s (e_min_fee est (t_est s)) IN (s, ROk (zbal_sub_value (t_bal s) f)).

  (** thermostat.rs:132-143: the debug assertion, then expect *)
  Definition current_balance_of (s : st) (t : token) : st * res (balance Z) :=
    if chk && bool_decide (t = MAIN) then (s, RPanic)
    else match t_abal s !! t with Some b => (s, ROk b) | None => (s, RPanic) end.

  (** the closure of thermostat.rs:157-168 *)
  Definition only (t : token) (u : utxo) : bool :=
    (length (u_assets u) <=? 1)%nat && forallb (fun a => bool_decide (a_fp a = t)) (u_assets u).

  (** thermostat.rs:145-183 *)
  Definition select_input_for (s : st) (ut : store) (t : token) : st * res store :=
    match List.find (only t) (iter_token_ordered_by_value_rev (enum (store_len ut)) ut t) with
    | None => (s, RErr)
    | Some u =>
        LET s, _ := add_in s u IN
        let s := add_input s u in
        match store_remove ut (u_ptr u) with
        | (ut', OpOk) => (s, ROk ut')
        | (_, OpErr) => (s, RErr)
        | (_, OpPanic) => (s, RPanic)
        end
    end.

  (** thermostat.rs:194-209 *)
  Fixpoint until_balanced (fuel : nat) (s : st) (ut : store) (t : token) : st * res store :=
    LET s, b := current_balance_of s t IN
    if in_debt b then
      match fuel with
      | O => (s, RLoop)
      | S fuel => LET s, ut' := select_input_for s ut t IN until_balanced fuel s ut' t
      end
    else (s, ROk ut).

  (** thermostat.rs:220-235 *)
  Fixpoint main_until_balanced (fuel : nat) (s : st) (ut : store) : st * res store :=
    LET s, b := current_balance s IN
    if in_debt b then
      match fuel with
      | O => (s, RLoop)
      | S fuel => LET s, ut' := select_input_for s ut (c_main cfg) IN main_until_balanced fuel s ut'
      end
    else (s, ROk ut).

  (** thermostat.rs:259-298: the change of token t, created if need be *)
  Definition change_entry (s : st) (a : string) (t : token) (wmain : Z) : st * res uout :=
    match t_changes s !! t with
    | Some o => (pay s wmain, ROk (Uout (o_addr o) (o_value o + wmain) (o_assets o) (o_extra o)))
    | None =>
        let change := Uout a wmain [] None in
        LET s, m := min_value s change IN
        let '(s, v) := if wmain <? m then (pay s (m - wmain), wmain + (m - wmain)) else (s, wmain) in
        LET s, f := lift s (e_fee_out est (t_est s) (Uout a v [] None)) IN
        let '(s, v) := if v <? m + f then (pay s wmain, v) else (pay s (wmain - f), v - f) in
        LET s, _ := add_out s (Uout a v [] None) IN
        (s, ROk (Uout a v [] None))
    end.

  (** thermostat.rs:303-318 *)
  Definition credit (ut : store) (t : token) (excess : Z) (o : uout) : option uout :=
    match o_assets o with
    | a :: l => Some (Uout (o_addr o) (o_value o) (Asset (a_policy a) (a_name a) (a_fp a) (a_qty a + excess) :: l) (o_extra o))
    | [] =>
        match get_asset_ids ut t with
        | Some (p, n) => Some (Uout (o_addr o) (o_value o) [Asset p n t excess] (o_extra o))
        | None => None
        end
    end.

  (** thermostat.rs:334-343 *)
  Definition clamp (s : st) (t : token) (o : uout) : st :=
    if o_value o <? c_min cfg then
      pay (put s t (Uout (o_addr o) (c_max cfg) (o_assets o) (o_extra o))) (c_max cfg - o_value o)
    else if c_max cfg <? o_value o then
      gain (put s t (Uout (o_addr o) (c_max cfg) (o_assets o) (o_extra o))) (o_value o - c_max cfg)
    else put s t o.

  (** thermostat.rs:240-347 *)
  Definition balance_excess_of (s : st) (ut : store) (t : token) : st * res unit :=
    LET s, b := current_balance_of s t IN
    match b with
    | Excess excess =>
        LET s, a := lift s addr IN
        LET s, cur := current_balance s IN
        let wmain := match cur with Excess w => w | _ => 0 end in
        LET s, o := change_entry s a t wmain IN
        let s := with_abal s (bal_minus (t_abal s) t excess) in
        match credit ut t excess o with
        | None => (s, RPanic)
        | Some o => (clamp s t o, ROk tt)
        end
    | _ => (s, ROk tt)
    end.

  (** thermostat.rs:352-399 *)
  Definition balance_excess (s : st) : st * res unit :=
    LET s, cur := current_balance s IN
    match cur with
    | Excess x =>
        LET s, a := lift s addr IN
        match t_changes s !! c_main cfg with
        | None =>
            let change := Uout a x [] None in
            LET s, m := min_value s change IN
            if x <? m then (s, ROk tt)
            else
              LET s, f := lift s (e_fee_out est (t_est s) change) IN
              if x <? m + f then (s, ROk tt)
              else
                let change := Uout a (x - f) [] None in
                let s := pay s (x - f) in
                LET s, _ := add_out s change IN
                (put s (c_main cfg) change, ROk tt)
        | Some o => (put (pay s x) (c_main cfg) (Uout (o_addr o) (o_value o + x) (o_assets o) (o_extra o)), ROk tt)
        end
    | _ => (s, ROk tt)
    end.

  (** (x / 2).truncate(), value.rs:162-184 *)
  Definition half (v : Z) : Z := if v <? 2 * sc then 0 else v / (2 * sc) * sc.

  (** one iteration of the loop of thermostat.rs:410-470 *)
  Definition split_one (ut : store) (s : st) (t : token) (change : uout) : st * res unit :=
    match get_balance_of ut t with
    | None => (s, ROk tt)
    | Some total =>
        match o_assets change with
        | a :: l =>
            if (c_num_assets cfg =? 0)%N then (s, RPanic)
            else if above (a_qty a) (total + a_qty a) (c_num_assets cfg) then
              let q := half (a_qty a) in
              let new v := Uout (o_addr change) v (Asset (a_policy a) (a_name a) (a_fp a) q :: l) (o_extra change) in
              let rest v := Uout (o_addr change) v (Asset (a_policy a) (a_name a) (a_fp a) (a_qty a - q) :: l) (o_extra change) in
              let s := put s t (rest (o_value change)) in
              LET s, f := lift s (e_fee_out est (t_est s) (new (o_value change))) IN
              let fee_new := half f in
              let v := half (o_value change) in
              if (v <=? fee_new) || (v <=? f) then (s, ROk tt)
              else
                let s := gain (put s t (rest (o_value change - (v - fee_new) - f))) f in
                LET s, _ := add_out s (new (v - fee_new)) IN
                (push_extra s (new (v - fee_new)), ROk tt)
            else (s, ROk tt)
        | [] =>
            if bool_decide (t = c_main cfg) then
              if (c_num cfg =? 0)%N then (s, RPanic)
              else
                LET s, f := lift s (e_fee_out est (t_est s) change) IN
                let fee_new := half f in
                let v := half (o_value change) in
                if (v <=? fee_new) || (v <=? f) then (s, ROk tt)
                else if above (o_value change - f) (total + o_value change) (c_num cfg) then
                  let new := Uout (o_addr change) (v - fee_new) [] (o_extra change) in
                  let s := gain (put s t (Uout (o_addr change) (o_value change - (v - fee_new) - f) [] (o_extra change))) f in
                  let s := push_extra s new in
                  add_out s new
                else (s, ROk tt)
            else (s, ROk tt)
        end
    end.

  (** thermostat.rs:402-474; l is the order in which the changes are visited *)
  Fixpoint split_all (ut : store) (l : list (token * uout)) (s : st) : st * res unit :=
    match l with
    | [] => (s, ROk tt)
    | (t, o) :: l => LET s, _ := split_one ut s t o IN split_all ut l s
    end.

  (** thermostat.rs:486-503 *)
  Fixpoint fund_assets (l : list token) (s : st) (ut : store) : st * res store :=
    match l with
    | [] => (s, ROk ut)
    | t :: l =>
        LET s, ut := until_balanced (S (store_len ut)) s ut t IN
        LET s, _ := balance_excess_of s ut t IN
        fund_assets l s ut
    end.

  (** thermostat.rs:529-549 *)
  Fixpoint extra_inputs (fuel : nat) (l : list token) (empty : list bool) (i : nat) (s : st) (ut : store) : st * res store :=
    LET s, n := remaining s IN
    if (n =? 0)%N then (s, ROk ut)
    else
      match fuel with
      | O => (s, RLoop)
      | S fuel =>
          match l !! i, empty !! i with
          | Some t, Some false =>
              if (N.of_nat (number_utxos_for_token ut t) <=? c_num cfg)%N then
                extra_inputs fuel l (<[i := true]> empty) (S i mod length l) s ut
              else
                match select_input_for s ut t with
                | (s, ROk ut') => extra_inputs fuel l empty (S i mod length l) s ut'
                | (s, RErr) => extra_inputs fuel l (<[i := true]> empty) (S i mod length l) s ut
                | (s, RPanic) => (s, RPanic)
                | (s, RLoop) => (s, RLoop)
                end
          | Some _, Some true =>
              if forallb id empty then (s, ROk ut)
              else extra_inputs fuel l empty (S i mod length l) s ut
          | _, _ => (s, RPanic)
          end
      end.
  Definition extra_fuel (l : list token) (ut : store) : nat := S ((store_len ut + length l + 1) * length l).

  (** thermostat.rs:556-558 *)
  Fixpoint return_excess (l : list token) (s : st) (ut : store) : st * res unit :=
    match l with
    | [] => (s, ROk tt)
    | t :: l => LET s, _ := balance_excess_of s ut t IN return_excess l s ut
    end.

  (** thermostat.rs:476-562: keys is the order of asset_balance.keys(), ordc that of changes.iter_mut() *)
  Definition select (ordc : torder uout) (keys : list token) (avail : store) (s : st) : st * res store :=
    LET s, ut := fund_assets keys s avail IN
    LET s, ut := main_until_balanced (S (store_len ut)) s ut IN
    let l := if (size (t_abal s) =? 0)%nat || (length keys =? 0)%nat then keys ++ [c_main cfg] else keys in
    LET s, ut := extra_inputs (extra_fuel l ut) l (repeat false (length l)) 0 s ut IN
    let l := if (size (t_abal s) =? 0)%nat || ((length l =? 1)%nat && bool_decide (head l = Some (c_main cfg)))
             then removelast l else l in
    LET s, _ := return_excess l s ut IN
    LET s, _ := balance_excess s IN
    LET s, _ := split_all ut (ordc (t_changes s)) s IN
    (s, ROk ut).
End Thermostat.

Section Select.
  Context {E : Type} (est : estimator E) (enum : nat -> enumeration) (sc : Z) (above : Z -> Z -> N -> bool) (chk : bool)
          (cfg : tconfig).

  (** thermostat.rs:597-617: the state select starts from *)
  Definition th_start (ord : torder asset) (e : E) (su : setup) : thermo E :=
    Thermo ∅ [] [] (zbal_sub_value (zbal_add_value Balanced (su_in su)) (su_out su))
           (asset_balances ord (su_in_assets su) (su_out_assets su)) e.

  (** thermostat.rs:592-686: the available outputs after the call, and its result with the estimator it leaves.
      ord, ordb, ordc and ordv are the orders in which the tables of the setup, asset_balance and changes (iter_mut, then
      values, which std gives the same order) are iterated *)
  Definition th_select (ord : torder asset) (ordb : torder (balance Z)) (ordc ordv : torder uout)
      (avail : store) (e : E) (su : setup) : store * outcome E (E * selection) :=
    let s0 := th_start ord e su in
    match select est enum sc above chk cfg (su_change su) (su_fixed_out su) ordc (map fst (ordb (t_abal s0))) avail s0 with
    | (s, ROk ut) =>
        let ins := t_sel s ++ su_fixed_in su in
        let changes := map snd (ordv (t_changes s)) ++ t_extra s in
        let outs := changes ++ su_fixed_out su in
        let done fee :=
          SDone (t_est s,
                 Selection (foldl (fun v u => v + u_value u) 0 ins) (foldl (fun m u => add_assets m (u_assets u)) ∅ ins)
                           (foldl (fun v o => v + o_value o) 0 outs) (foldl (fun m o => add_assets m (o_assets o)) ∅ outs)
                           (su_fixed_in su) (su_fixed_out su) (t_sel s) changes fee) in
        (ut, match t_bal s with Debt _ => SFail (t_est s) | Balanced => done 0 | Excess x => done x end)
    | (s, RErr) => (avail, SFail (t_est s))
    | (s, RPanic) => (avail, SPanic)
    | (s, RLoop) => (avail, SLoop)
    end.
End Select.
