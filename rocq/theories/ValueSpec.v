(** What an amount means, independently of how it is stored: a rational number. *)
From Coq Require Import ZArith QArith Qround.
From Verif Require Import ValueModel.
Open Scope Q_scope.

(** the number an amount stands for *)
Definition amount (v : dec) : Q := inject_Z (digits v) * Qpower (inject_Z 10) (- scale v).

(** [10^k] as a rational, for any integer [k] *)
Definition pow10 (k : Z) : Q := Qpower (inject_Z 10) k.

(** how many base units one whole coin is, as a power of ten *)
Definition decimals_of (u : unit_rep) : Z :=
  match u with
  | Lovelace | MicroAlgo => 6
  | Wei => 18
  | _ => 0
  end.
(** the smallest part of a whole coin is 10 to the minus this; amounts without a unit of their own have 18 places *)
Definition coin_places (u : unit_rep) : Z :=
  match u with
  | Lovelace | Ada | MicroAlgo | Algo => 6
  | Wei | Ether | Normalized | Regulated => 18
  end.
(** how many decimals an amount may have: none below the smallest part of the coin *)
Definition places (u : unit_rep) : Z := coin_places u - decimals_of u.
