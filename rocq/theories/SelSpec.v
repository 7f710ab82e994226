(** What input selection and change balancing are expected to do, without reference to how they do it. *)
From Coq Require Import ZArith.
From stdpp Require Import gmap strings list.
From Verif Require Import StoreModel StoreSpec SelModel.
Open Scope Z_scope.

(** how much of token t the listed assets hold *)
Definition held (t : token) (l : list asset) : Z := sumZ (map a_qty (filter (fun a => a_fp a = t) l)).

(** main value and token quantities of lists of inputs and outputs *)
Definition value_in (us : list utxo) : Z := sumZ (map u_value us).
Definition value_out (os : list uout) : Z := sumZ (map o_value os).
Definition token_in (t : token) (us : list utxo) : Z := sumZ (map (fun u => held t (u_assets u)) us).
Definition token_out (t : token) (os : list uout) : Z := sumZ (map (fun o => held t (o_assets o)) os).

(** the quantity of token t that a table of totals reports (a token that is not in it counts for nothing) *)
Definition amount (t : token) (m : assets) : Z := match m !! t with Some a => a_qty a | None => 0 end.

(** every entry of a table is filed under the token it describes *)
Definition filed (m : assets) : Prop := forall t a, m !! t = Some a -> a_fp a = t.

Definition nonneg_list (l : list asset) : Prop := Forall (fun a => 0 <= a_qty a) l.
Definition nonneg_table (m : assets) : Prop := forall t a, m !! t = Some a -> 0 <= a_qty a.
Definition nonneg_in (u : utxo) : Prop := 0 <= u_value u /\ nonneg_list (u_assets u).
Definition nonneg_out (o : uout) : Prop := 0 <= o_value o /\ nonneg_list (o_assets o).

(** the fees an estimator asks for these inputs, added one after the other, and the state it ends in *)
Fixpoint charge {E} (est : estimator E) (e : E) (us : list utxo) : option (E * Z) :=
  match us with
  | [] => Some (e, 0)
  | u :: us =>
      match e_fee_in est e u, e_add_in est e u with
      | Some f, (e', true) => match charge est e' us with Some (e'', g) => Some (e'', f + g) | None => None end
      | _, _ => None
      end
  end.

(** an estimator that never fails on inputs *)
Definition inputs_ok {E} (est : estimator E) : Prop :=
  forall e, is_Some (e_min_fee est e) /\ forall u, is_Some (e_fee_in est e u) /\ snd (e_add_in est e u) = true.
(** an estimator whose fees are not negative *)
Definition fees_nonneg {E} (est : estimator E) : Prop :=
  forall e, (forall f, e_min_fee est e = Some f -> 0 <= f) /\ (forall u f, e_fee_in est e u = Some f -> 0 <= f) /\
            (forall o f, e_fee_out est e o = Some f -> 0 <= f).

(** the history h followed by the removal of the given outputs *)
Definition spend (h : list store_op) (us : list utxo) : list store_op := h ++ map (fun u => Remove (u_ptr u)) us.
