(** Model of core/src/value.rs (amounts, units, parsing, printing, truncation).
    Executable definitions only. *)
From Coq Require Import ZArith Ascii String List Bool.
Import ListNotations.
Open Scope Z_scope.

(** * BigDecimal (external crate bigdecimal 0.4.2, deps/Cargo.toml)
    Modelled by its documented contract: an integer [digits] and a [scale], denoting
    digits * 10^(-scale).  Arithmetic is exact; comparison and equality are numeric.
    Simplification: [scale] is an unbounded integer (i64 in the crate). *)
Record dec := Dec { digits : Z; scale : Z }.

(** BigDecimal::new(digits, scale) *)
Definition dec_new (d s : Z) : dec := Dec d s.

(** BigDecimal::from(u64) *)
Definition dec_of_Z (n : Z) : dec := Dec n 0.

(** the digits of [x] written with scale [s] (only used when [scale x <= s]) *)
Definition rescale (s : Z) (x : dec) : Z := digits x * 10 ^ (s - scale x).

(** BigDecimal addition/subtraction: both operands are brought to the larger scale *)
Definition dec_add (x y : dec) : dec :=
  let s := Z.max (scale x) (scale y) in Dec (rescale s x + rescale s y) s.
Definition dec_sub (x y : dec) : dec :=
  let s := Z.max (scale x) (scale y) in Dec (rescale s x - rescale s y) s.

(** BigDecimal multiplication *)
Definition dec_mul (x y : dec) : dec := Dec (digits x * digits y) (scale x + scale y).

(** BigDecimal comparison and equality: numeric *)
Definition dec_cmp (x y : dec) : comparison :=
  let s := Z.max (scale x) (scale y) in Z.compare (rescale s x) (rescale s y).
Definition dec_eqb (x y : dec) : bool :=
  match dec_cmp x y with Eq => true | _ => false end.
Definition dec_ltb (x y : dec) : bool :=
  match dec_cmp x y with Lt => true | _ => false end.

(** * Units and conversions *)

(** core/src/value.rs:374-377  fn scale *)
Definition vscale (v : dec) (s : Z) : dec := dec_mul v (dec_new 1 s).

(** core/src/value.rs:26, 39, 52 *)
Definition ADA_LOVELACE_SCALE_FACTOR : Z := 6.
Definition ETH_WEI_SCALE_FACTOR : Z := 18.
Definition ALGO_MICRO_SCALE_FACTOR : Z := 6.

(** core/src/value.rs:71-76 (the asset identifier plays no role in conversions) *)
Record rule := Rule { main_precision : Z; side_precision : Z }.

(** core/src/value.rs:728-734 *)
Definition rule_erc20 : rule := Rule 0 18.

(** core/src/value.rs:95-119 *)
Definition normalize_from_mainchain (v : dec) (r : rule) : dec := vscale v (main_precision r).
Definition normalize_from_sidechain (v : dec) (r : rule) : dec := vscale v (side_precision r).
Definition from_normalized_to_mainchain (v : dec) (r : rule) : dec := vscale v (- main_precision r).
Definition from_normalized_to_sidechain (v : dec) (r : rule) : dec := vscale v (- side_precision r).

(** The representation markers of core/src/value.rs:21-67 *)
Inductive unit_rep := Normalized | Regulated | Lovelace | Ada | Wei | Ether | MicroAlgo | Algo.

(** [normalize] of each native unit: value.rs:199 (Ada), 226 (Lovelace), 269 (Ether), 296 (Wei),
    323 (Algo), 350 (MicroAlgo).  [Normalized] and [Regulated] have no rule-free normalize: None. *)
Definition normalize (u : unit_rep) (v : dec) : option dec :=
  match u with
  | Ada | Ether | Algo => Some v
  | Lovelace => Some (vscale v ADA_LOVELACE_SCALE_FACTOR)
  | Wei => Some (vscale v ETH_WEI_SCALE_FACTOR)
  | MicroAlgo => Some (vscale v ALGO_MICRO_SCALE_FACTOR)
  | Normalized | Regulated => None
  end.

(** [from_normalized] of each native unit: value.rs:207, 250, 277, 304, 331, 358 *)
Definition from_normalized (u : unit_rep) (v : dec) : option dec :=
  match u with
  | Ada | Ether | Algo => Some v
  | Lovelace => Some (vscale v (- ADA_LOVELACE_SCALE_FACTOR))
  | Wei => Some (vscale v (- ETH_WEI_SCALE_FACTOR))
  | MicroAlgo => Some (vscale v (- ALGO_MICRO_SCALE_FACTOR))
  | Normalized | Regulated => None
  end.

(** value.rs:215 to_lovelace, 258 to_ada, 285 to_wei, 312 to_ether, 339 to_microalgo, 366 to_algo *)
Definition to_lovelace (v : dec) := vscale v (- ADA_LOVELACE_SCALE_FACTOR).
Definition to_ada (v : dec) := vscale v ADA_LOVELACE_SCALE_FACTOR.
Definition to_wei (v : dec) := vscale v (- ETH_WEI_SCALE_FACTOR).
Definition to_ether (v : dec) := vscale v ETH_WEI_SCALE_FACTOR.
Definition to_microalgo (v : dec) := vscale v (- ALGO_MICRO_SCALE_FACTOR).
Definition to_algo (v : dec) := vscale v ALGO_MICRO_SCALE_FACTOR.

(** value.rs:593-669 Add/Sub, 689-699 Sum, 701-726 Mul by an integer *)
Definition v_add := dec_add.
Definition v_sub := dec_sub.
Definition v_sum (l : list dec) : dec := fold_left dec_add l (dec_of_Z 0).
Definition v_mul_int (v : dec) (n : Z) : dec := Dec (digits v * n) (scale v).

(** * Text.  A text is a list of characters (string split into a list). *)
Definition text := list ascii.
Definition digit_char (d : Z) : ascii := ascii_of_nat (48 + Z.to_nat d).

(** decimal digits of a non-negative integer, most significant first; "0" for 0
    (num-bigint to_str_radix(10)).  Fuel: one more than the number of binary digits. *)
Fixpoint show_nat_aux (fuel : nat) (n : Z) (acc : text) : text :=
  match fuel with
  | O => acc
  | S f =>
      let acc' := digit_char (n mod 10) :: acc in
      if n <? 10 then acc' else show_nat_aux f (n / 10) acc'
  end.
Definition show_nat (n : Z) : text := show_nat_aux (S (Z.to_nat (Z.log2 n))) n [].

Definition zeros (n : Z) : text := repeat "0"%char (Z.to_nat n).
Definition tlen (t : text) : Z := Z.of_nat (length t).

(** Display of BigDecimal 0.4.2 (plain notation, no precision given): the three cases of the crate.
    value.rs:495-499 delegates to it; 584-591 (Serialize) writes this text. *)
Definition show_abs (n s : Z) : text :=
  let abs := show_nat n in
  let (before, after) :=
    if tlen abs <=? s then (["0"%char], zeros (s - tlen abs) ++ abs)
    else
      let location := tlen abs - s in
      if tlen abs <? location then (abs ++ zeros (location - tlen abs), [])
      else (firstn (Z.to_nat location) abs, skipn (Z.to_nat location) abs) in
  match after with [] => before | _ => before ++ "."%char :: after end.
Definition show (v : dec) : text :=
  if digits v <? 0 then "-"%char :: show_abs (- digits v) (scale v)
  else show_abs (digits v) (scale v).

(** Plain-notation part of BigDecimal's FromStr: [sign] digits ['.' digits], at least one digit.
    Exponents and '_' separators are accepted by the crate and not modelled here;
    the theorems on the checks that follow parsing hold for any parser. *)
Definition char_digit (c : ascii) : option Z :=
  let n := Z.of_nat (nat_of_ascii c) in
  if (48 <=? n) && (n <=? 57) then Some (n - 48) else None.
Fixpoint read_digits (acc : Z) (t : text) : option Z :=
  match t with
  | [] => Some acc
  | c :: r => match char_digit c with Some d => read_digits (acc * 10 + d) r | None => None end
  end.
Definition is_dot (c : ascii) : bool := Ascii.eqb c ".".
(** str::split('.').next() together with what follows the first dot *)
Fixpoint split_dot (t : text) : text * option text :=
  match t with
  | [] => ([], None)
  | c :: r => if is_dot c then ([], Some r)
              else let (a, b) := split_dot r in (c :: a, b)
  end.
Definition parse_abs (t : text) : option dec :=
  let (lead, trail) := split_dot t in
  let trail := match trail with Some x => x | None => [] end in
  match lead ++ trail with
  | [] => None
  | all => match read_digits 0 all with
           | Some n => Some (Dec n (tlen trail))
           | None => None
           end
  end.
Definition parse_dec (t : text) : option dec :=
  match t with
  | "-"%char :: r => match parse_abs r with Some d => Some (Dec (- digits d) (scale d)) | None => None end
  | "+"%char :: r => parse_abs r
  | _ => parse_abs t
  end.

(** value.rs:535-542: maximum number of decimals per unit *)
Definition max_decimals (u : unit_rep) : Z :=
  match u with
  | Normalized => 18 | Regulated => 18 | Lovelace => 0 | Ada => ADA_LOVELACE_SCALE_FACTOR
  | Wei => 0 | Ether => ETH_WEI_SCALE_FACTOR | MicroAlgo => 0 | Algo => ALGO_MICRO_SCALE_FACTOR
  end.

Inductive parse_error := InvalidDecimal | InvalidDecimalPoint | Negative.

(** value.rs:513-533 derive_from_str!, over any underlying BigDecimal parser *)
Definition value_from_str_with (parse : text -> option dec) (u : unit_rep) (t : text)
  : dec + parse_error :=
  match parse t with
  | None => inr InvalidDecimal
  | Some v =>
      if max_decimals u <? scale v then inr InvalidDecimalPoint
      else if negb (0 <? digits v) && negb (digits v =? 0) then inr Negative
      else inl v
  end.
Definition value_from_str := value_from_str_with parse_dec.

(** core/src/value.rs:571-582 and core/src/number_visitor.rs:88-95 (BigDecimalVisitor::visit_str):
    deserialisation parses the text as a BigDecimal and wraps it, without the checks above. *)
Definition value_deserialize (t : text) : option dec := parse_dec t.

(** value.rs:162-184 truncate *)
Definition truncate (v : dec) : dec :=
  if dec_ltb v (dec_of_Z 1) then dec_of_Z 0
  else
    let (integer, _) := split_dot (show v) in
    match parse_dec integer with Some p => p | None => dec_of_Z 0 end.
