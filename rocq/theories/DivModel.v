(** Model of core/src/value.rs:671-687 (Div<usize>), 564-569 (Hash) and of the representation tags in the conversions of
    core/src/value.rs:196-372.  Executable definitions only.

    The division and the hash are those of the crate bigdecimal 0.4.2 (deps/Cargo.toml), modelled after its source. *)
From Coq Require Import ZArith NArith Ascii String List Bool.
From Verif Require Import ValueModel.
Import ListNotations.
Open Scope Z_scope.

(** ** Division *)
(** (value.rs:683) bigdecimal's DEFAULT_PRECISION *)
Definition PRECISION : Z := 100.

(** (value.rs:683) count_decimal_digits of a positive integer; the crate starts from an estimate from below *)
Fixpoint count_digits (fuel : nat) (n : Z) : Z :=
  match fuel with O => 1 | S f => if n <? 10 then 1 else 1 + count_digits f (n / 10) end.
Definition decimal_digits (n : Z) : Z := count_digits (Z.to_nat (Z.log2 n)) n.

(** (value.rs:683) impl_division, first loop: "while num < *den" *)
Fixpoint shift_up (fuel : nat) (num den scale : Z) : Z * Z :=
  match fuel with
  | O => (num, scale)
  | S f => if num <? den then shift_up f (num * 10) den (scale + 1) else (num, scale)
  end.
(** (value.rs:683) impl_division, second loop: "while !remainder.is_zero() && precision < max_precision", which runs at most
    max_precision - precision times; r is the remainder already shifted by one digit *)
Fixpoint long_division (fuel : nat) (q r den scale : Z) : Z * Z * Z :=
  match fuel with
  | O => (q, r, scale)
  | S f => if r =? 0 then (q, r, scale) else long_division f (q * 10 + r / den) (r mod den * 10) den (scale + 1)
  end.
(** (value.rs:683) impl_division on positive integers; get_rounding_term of the next digit is 1 from 5 on *)
Definition divide_pos (num den scale : Z) : dec :=
  let (num, scale) := shift_up (S (Z.to_nat (Z.log2 den))) num den scale in
  let q := num / den in
  let r := num mod den in
  if r =? 0 then Dec q scale
  else
    match long_division (Z.to_nat (PRECISION - decimal_digits q)) q (r * 10) den scale with
    | (q, r, scale) => Dec (if r =? 0 then q else q + (if 5 <=? r / den then 1 else 0)) scale
    end.
(** Neg of the crate, used where value.rs:683 divides a negative amount *)
Definition dec_opp (v : dec) : dec := Dec (- digits v) (scale v).
(** value.rs:679-687 and the crate's Div; None is the panic "Division by zero" *)
Definition dec_div (v : dec) (n : N) : option dec :=
  let den := Z.of_N n in
  if den =? 0 then None
  else if (digits v =? 0) || (den =? 1) then Some v
  else if digits v =? den then Some (Dec 1 (scale v))
  else if digits v <? 0 then Some (dec_opp (divide_pos (- digits v) den (scale v)))
  else Some (divide_pos (digits v) den (scale v)).

(** ** Hash *)
(** (value.rs:567) str::trim_end_matches of zeros, at most n of them, on the reversed text *)
Fixpoint drop_zeros (n : nat) (t : text) : text :=
  match n, t with
  | S n, c :: r => if Ascii.eqb c "0" then drop_zeros n r else t
  | _, _ => t
  end.
(** (value.rs:567) to_str_radix(10) of the digits *)
Definition show_int (d : Z) : text := if d <? 0 then "-"%char :: show_nat (- d) else show_nat d.
(** value.rs:564-569: what is written to the hasher (the marker writes nothing): the text that the crate's Hash makes *)
Definition hash_text (v : dec) : text :=
  let t := show_int (digits v) in
  if digits v =? 0 then t
  else if 0 <? scale v then rev (drop_zeros (Z.to_nat (scale v)) (rev t))
  else t ++ zeros (- scale v).

(** ** The representation an amount is tagged with *)
Definition tagged : Type := unit_rep * dec.
(** value.rs:196-372: the types of the conversions between a coin and its smallest unit.  to_algo (365-371) is declared to
    return Value<evm::Ether>. *)
Definition to_coin (v : tagged) : option tagged :=
  match fst v with
  | Lovelace => Some (Ada, to_ada (snd v))
  | Wei => Some (Ether, to_ether (snd v))
  | MicroAlgo => Some (Ether, to_algo (snd v))
  | _ => None
  end.
Definition to_base (v : tagged) : option tagged :=
  match fst v with
  | Ada => Some (Lovelace, to_lovelace (snd v))
  | Ether => Some (Wei, to_wei (snd v))
  | Algo => Some (MicroAlgo, to_microalgo (snd v))
  | _ => None
  end.
