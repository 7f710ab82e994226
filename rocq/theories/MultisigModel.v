(** Model of cardano-utils/src/multisig_plan.rs.  Executable definitions only.

    A key hash is its bytes.  Of the native scripts of the Cardano library only the two kinds that the code makes are modelled.
    What turns a script into its hash is a parameter; an address is the pair of network and script hash that it is made of
    (the library's bytes of it are not modelled).  All errors are None. *)
From Coq Require Import ZArith NArith Ascii String.
From stdpp Require Import prelude numbers strings list.
From Verif Require Import UtilModel EstimModel JsonModel.
Open Scope Z_scope.

(** cardano_multiplatform_lib::NativeScript, as far as used *)
Inductive script := Pubkey (key : string) | NOfK (n : N) (l : list script).

(** u32 *)
Definition read_u32 (j : json) : option N := match j with JInt z => if (0 <=? z) && (z <? 2 ^ 32) then Some (Z.to_N z) else None | _ => None end.
(** multisig_plan.rs:58-73; Ed25519KeyHash::from_bytes takes exactly 28 bytes *)
Definition key_of_json (j : json) : option string :=
  s ← read_string j; b ← hex_decode s; if Nat.eqb (String.length b) 28 then Some b else None.
(** multisig_plan.rs:9-13, derived, and 16-22 without the opening of the file *)
Definition plan_of_json (j : json) : option plan :=
  match struct_fields ["quorum"; "keys"]%string false j with
  | Some [a; b] => q ← required read_u32 a; k ← required (read_list key_of_json) b; Some (Plan q k)
  | _ => None
  end.
(** multisig_plan.rs:38-55 *)
Definition to_script (p : plan) : list script := [NOfK (p_quorum p) (map Pubkey (p_keys p))].

Section Address.
  Context {hash : Type} (script_hash : script -> hash).
  (** multisig_plan.rs:24-30; to_script()[0] *)
  Definition plan_hash (p : plan) : option hash := script_hash <$> head (to_script p).
  (** multisig_plan.rs:32-37 *)
  Definition plan_address (p : plan) (network : N) : option (N * hash) := (fun h => (network, h)) <$> plan_hash p.
End Address.
