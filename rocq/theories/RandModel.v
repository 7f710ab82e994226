(** Model of utxo-selection/src/algorithms/random_improve.rs.  Executable definitions only.

    Amounts are integers at one common scale [sc] (10 to the number of decimals), as in SelModel.  The thread random
    number generator is any stream [rnd] of numbers; [gen_range(0..n)] is the next one modulo n, so every result in the
    range is possible at every draw.  BTreeSet<usize> is an ascending list.  HashSet<usize> is a list without
    repetition whose iteration order is the argument [hord].  The list of (policy, name) pairs that the code sorts
    (lines 74-84) is taken in the order of the argument [ord], of which the sorted order is one. *)
From Coq Require Import ZArith.
From stdpp Require Import gmap strings list.
From Verif Require Import ValueModel BalanceModel StoreModel SelModel.
Open Scope Z_scope.

#[global] Instance asset_eq_dec : EqDecision asset. Proof. solve_decision. Defined.
#[global] Instance uout_eq_dec : EqDecision uout. Proof. solve_decision. Defined.

(** BTreeSet::insert and BTreeSet::remove *)
Fixpoint set_insert (i : nat) (l : list nat) : list nat :=
  match l with
  | [] => [i]
  | j :: r => if (i <? j)%nat then i :: l else if (i =? j)%nat then l else j :: set_insert i r
  end.
Definition set_remove (i : nat) (l : list nat) : list nat := filter (fun j => j <> i) l.
(** HashSet::insert *)
Definition hash_insert (i : nat) (l : list nat) : list nat := if decide (i ∈ l) then l else l ++ [i].

(** Vec::swap_remove: the element leaves and the last one takes its place *)
Definition swap_remove (r : nat) (l : list nat) : option (nat * list nat) :=
  match l !! r, last l with
  | Some x, Some z =>
      let front := take (length l - 1) l in
      Some (x, if (r =? length l - 1)%nat then front else <[r := z]> front)
  | _, _ => None
  end.

(** [sort_by_key]: a stable sort in ascending order *)
Fixpoint insert_by (key : uout -> Z) (o : uout) (l : list uout) : list uout :=
  match l with
  | [] => [o]
  | p :: r => if key o <=? key p then o :: l else p :: insert_by key o r
  end.
Definition sort_outputs (key : uout -> Z) (l : list uout) : list uout := foldr (insert_by key) [] l.

(** BTreeMap<UTxOBuilder, Vec<usize>>, only used by key: [get], [entry(..).or_default().push(..)], [get_mut] *)
Notation association := (list (uout * list nat)).
Fixpoint assoc_get (o : uout) (l : association) : option (list nat) :=
  match l with
  | [] => None
  | (p, is) :: r => if decide (p = o) then Some is else assoc_get o r
  end.
Fixpoint assoc_set (o : uout) (is : list nat) (l : association) : association :=
  match l with
  | [] => [(o, is)]
  | (p, js) :: r => if decide (p = o) then (p, is) :: r else (p, js) :: assoc_set o is r
  end.
Definition assoc_push (o : uout) (i : nat) (l : association) : association :=
  assoc_set o (default [] (assoc_get o l) ++ [i]) l.

(** [value.raw().to_u64()]: None for a negative amount or one that does not fit; the decimals are dropped *)
Definition to_u64 (sc v : Z) : option Z :=
  if v <? 0 then None else if v / sc <? 2 ^ 64 then Some (v / sc) else None.
(** [c * x] on u64: None is the overflow panic of a build with overflow checks *)
Definition mul_u64 (chk : bool) (c x : Z) : option Z :=
  if c * x <? 2 ^ 64 then Some (c * x) else if chk then None else Some ((c * x) mod 2 ^ 64).

(** the variables that the helper updates: the available indices, the estimator, the token totals, the main total, the
    fee and the position in the random stream *)
Record ri (E : Type) := Ri {
  r_av : list nat; r_est : E; r_assets : assets; r_total : Z; r_fee : Z; r_pos : nat
}.
Arguments Ri {E}. Arguments r_av {E}. Arguments r_est {E}. Arguments r_assets {E}. Arguments r_total {E}.
Arguments r_fee {E}. Arguments r_pos {E}.

Section Random.
  Context {E : Type} (est : estimator E) (rnd : nat -> nat) (chk : bool) (sc : Z) (inputs : list utxo).

  (** an Err carries the estimator and the available indices it leaves *)
  Notation result := (outcome (E * list nat)).

  (** random_improve.rs:211-215; None is an index out of bounds *)
  Fixpoint relevant (by_in : utxo -> option Z) (av : list nat) : option (list nat) :=
    match av with
    | [] => Some []
    | i :: r =>
        match inputs !! i with
        | None => None
        | Some u => (match by_in u with Some _ => cons i | None => fun l => l end) <$> relevant by_in r
        end
    end.

  (** random_improve.rs:240-257: the loop for one output *)
  Fixpoint cover (fuel : nat) (e : E) (by_in : utxo -> option Z) (o : uout) (needed added : Z)
      (rel av : list nat) (pos : nat) (asc : association)
    : result (list nat * list nat * nat * association) :=
    if added <? needed then
      match fuel with
      | O => SLoop
      | S fuel =>
          match rel with
          | [] => SFail (e, av)
          | _ =>
              match swap_remove (rnd pos mod length rel) rel with
              | None => SPanic
              | Some (i, rel') =>
                  match inputs !! i with
                  | None => SPanic
                  | Some u =>
                      match by_in u with
                      | None => SPanic
                      | Some q => cover fuel e by_in o needed (added + q) rel' (set_remove i av) (S pos) (assoc_push o i asc)
                      end
                  end
              end
          end
      end
    else SDone (rel, av, pos, asc).

  (** random_improve.rs:224-258: the outputs, from the largest to the smallest *)
  Fixpoint cover_all (e : E) (by_in : utxo -> option Z) (by_out : uout -> option Z) (outs : list uout)
      (rel av : list nat) (pos : nat) (asc : association)
    : result (list nat * list nat * nat * association) :=
    match outs with
    | [] => SDone (rel, av, pos, asc)
    | o :: outs =>
        match by_out o with
        | None => SFail (e, av)
        | Some needed =>
            match cover (S (length rel)) e by_in o needed 0 rel av pos asc with
            | SDone (rel', av', pos', asc') => cover_all e by_in by_out outs rel' av' pos' asc'
            | SFail f => SFail f | SPanic => SPanic | SLoop => SLoop
            end
        end
    end.

  (** random_improve.rs:271-284; None is a panic *)
  Definition should_improve (cur new min : Z) : option bool :=
    match to_u64 sc cur, to_u64 sc new, to_u64 sc min with
    | Some cur, Some new, Some min =>
        match mul_u64 chk 2 min, mul_u64 chk 3 min with
        | Some ideal, Some max => Some ((Z.abs (ideal - new) <? Z.abs (ideal - cur)) && (new <? max))
        | _, _ => None
        end
    | _, _, _ => None
    end.

  (** random_improve.rs:266-290: one pass over the inputs of an output *)
  Fixpoint improve (e : E) (o : uout) (is rel av : list nat) (pos : nat) : result (list nat * list nat * list nat * nat) :=
    match is with
    | [] => SDone ([], rel, av, pos)
    | i :: is =>
        if (length rel =? 0)%nat then SPanic else
        let r := (rnd pos mod length rel)%nat in
        match rel !! r with
        | None => SFail (e, av)
        | Some j =>
            match inputs !! i, inputs !! j with
            | Some u, Some v =>
                match should_improve (u_value u) (u_value v) (o_value o) with
                | None => SPanic
                | Some swap =>
                    let '(i', rel', av') :=
                      if swap then (j, <[r := i]> rel, set_remove j (set_insert i av)) else (i, rel, av) in
                    match improve e o is rel' av' (S pos) with
                    | SDone (is', rel'', av'', pos') => SDone (i' :: is', rel'', av'', pos')
                    | SFail f => SFail f | SPanic => SPanic | SLoop => SLoop
                    end
                end
            | _, _ => SPanic
            end
        end
    end.

  (** random_improve.rs:262-291 *)
  Fixpoint improve_all (e : E) (outs : list uout) (rel av : list nat) (pos : nat) (asc : association)
    : result (list nat * nat * association) :=
    match outs with
    | [] => SDone (av, pos, asc)
    | o :: outs =>
        match assoc_get o asc with
        | None => SFail (e, av)
        | Some is =>
            match improve e o is rel av pos with
            | SDone (is', rel', av', pos') => improve_all e outs rel' av' pos' (assoc_set o is' asc)
            | SFail f => SFail f | SPanic => SPanic | SLoop => SLoop
            end
        end
    end.

  (** random_improve.rs:301-316, and 144-159: one chosen input is charged and added to the totals *)
  Definition ri_charge (s : ri E) (i : nat) : result (ri E) :=
    match inputs !! i with
    | None => SPanic
    | Some u =>
        match e_fee_in est (r_est s) u with
        | None => SFail (r_est s, r_av s)
        | Some f =>
            match e_add_in est (r_est s) u with
            | (e', true) =>
                SDone (Ri (r_av s) e' (add_assets (r_assets s) (u_assets u)) (r_total s + u_value u) (r_fee s + f) (r_pos s))
            | (e', false) => SFail (e', r_av s)
            end
        end
    end.
  Fixpoint charge_all (is : list nat) (s : ri E) (chosen : list nat) : result (ri E * list nat) :=
    match is with
    | [] => SDone (s, chosen)
    | i :: is =>
        match ri_charge s i with
        | SDone s' => charge_all is s' (hash_insert i chosen)
        | SFail f => SFail f | SPanic => SPanic | SLoop => SLoop
        end
    end.
  (** random_improve.rs:295-318 *)
  Fixpoint finalize (outs : list uout) (asc : association) (s : ri E) (chosen : list nat) : result (ri E * list nat) :=
    match outs with
    | [] => SDone (s, chosen)
    | o :: outs =>
        match assoc_get o asc with
        | None => SFail (r_est s, r_av s)
        | Some is =>
            match charge_all is s chosen with
            | SDone (s', chosen') => finalize outs asc s' chosen'
            | SFail f => SFail f | SPanic => SPanic | SLoop => SLoop
            end
        end
    end.

  (** random_improve.rs:188-321 select_input_and_update_balances *)
  Definition ri_helper (by_in : utxo -> option Z) (by_out : uout -> option Z) (fixed : list uout) (s : ri E)
    : result (ri E * list nat) :=
    match relevant by_in (r_av s) with
    | None => SPanic
    | Some rel =>
        let outs := sort_outputs (fun o => default 0 (by_out o)) (filter (fun o => is_Some (by_out o)) fixed) in
        match cover_all (r_est s) by_in by_out (rev outs) rel (r_av s) (r_pos s) [] with
        | SDone (rel', av', pos', asc) =>
            match (if (length rel' =? 0)%nat then SDone (av', pos', asc)
                   else improve_all (r_est s) outs rel' av' pos' asc) with
            | SDone (av'', pos'', asc') =>
                finalize outs asc' (Ri av'' (r_est s) (r_assets s) (r_total s) (r_fee s) pos'') []
            | SFail f => SFail f | SPanic => SPanic | SLoop => SLoop
            end
        | SFail f => SFail f | SPanic => SPanic | SLoop => SLoop
        end
    end.

  (** [TokenId::new(format!("{policy_id}:{asset_name}"))]: random_improve.rs:87 *)
  Definition pair_token (a : asset) : token := (a_policy a +:+ ":" +:+ a_name a)%string.

  (** random_improve.rs:86-114 *)
  Fixpoint ri_tokens (l : list (token * asset)) (fixed : list uout) (s : ri E) (chosen : list nat)
    : result (ri E * list nat) :=
    match l with
    | [] => SDone (s, chosen)
    | (_, a) :: l =>
        match ri_helper (fun u => find_qty (pair_token a) (u_assets u)) (fun o => find_qty (pair_token a) (o_assets o))
                        fixed s with
        | SDone (s', c) => ri_tokens l fixed s' (foldl (fun l i => hash_insert i l) chosen c)
        | SFail f => SFail f | SPanic => SPanic | SLoop => SLoop
        end
    end.

  (** random_improve.rs:134-160 *)
  Fixpoint ri_extra (fuel : nat) (out : Z) (s : ri E) (chosen : list nat) : result (ri E * list nat) :=
    if r_total s <? out then
      match fuel with
      | O => SLoop
      | S fuel =>
          if (length (r_av s) =? 0)%nat then SFail (r_est s, r_av s) else
          match r_av s !! (rnd (r_pos s) mod length (r_av s))%nat with
          | None => SPanic
          | Some i =>
              match ri_charge (Ri (set_remove i (r_av s)) (r_est s) (r_assets s) (r_total s) (r_fee s) (S (r_pos s))) i with
              | SDone s' => ri_extra fuel out s' (hash_insert i chosen)
              | SFail f => SFail f | SPanic => SPanic | SLoop => SLoop
              end
          end
      end
    else SDone (s, chosen).

  (** random_improve.rs:165-168, 179-184; None is an index out of bounds *)
  Fixpoint at_indices (is : list nat) : option (list utxo) :=
    match is with
    | [] => Some []
    | i :: r => match inputs !! i, at_indices r with Some u, Some us => Some (u :: us) | _, _ => None end
    end.

  (** random_improve.rs:55-177: the indices available after the call, and its result *)
  Definition ri_select (ord : torder asset) (hord : list nat -> list nat) (av : list nat) (e : E) (su : setup)
    : list nat * outcome E (E * selection) :=
    match e_min_fee est e with
    | None => (av, SFail e)
    | Some fee =>
        let s0 := Ri av e (su_in_assets su) (su_in su) fee 0%nat in
        let r :=
          match ri_tokens (ord (su_out_assets su)) (su_fixed_out su) s0 [] with
          | SDone (s1, c1) =>
              match ri_helper (fun u => Some (u_value u)) (fun o => Some (o_value o)) (su_fixed_out su) s1 with
              | SDone (s2, c2) =>
                  ri_extra (S (length (r_av s2))) (su_out su) s2 (foldl (fun l i => hash_insert i l) c1 c2)
              | SFail f => SFail f | SPanic => SPanic | SLoop => SLoop
              end
          | SFail f => SFail f | SPanic => SPanic | SLoop => SLoop
          end in
        match r with
        | SDone (s3, chosen) =>
            match at_indices (hord chosen) with
            | None => (r_av s3, SPanic)
            | Some us =>
                (r_av s3,
                 SDone (r_est s3, Selection (r_total s3) (r_assets s3) (su_out su) (su_out_assets su)
                                            (su_fixed_in su) (su_fixed_out su) us [] (r_fee s3)))
            end
        | SFail (e', av') => (av', SFail e')
        | SPanic => (av, SPanic) | SLoop => (av, SLoop)
        end
    end.
End Random.

(** random_improve.rs:33-39 TryFrom<Vec<UTxODetails>> (TryFrom<UTxOStore>, 20-27, goes through it with the outputs of
    the store in its hash order) *)
Definition ri_new (l : list utxo) : list utxo * list nat := (l, seq 0 (length l)).
(** random_improve.rs:46-53 set_available_inputs: the indices are computed and thrown away *)
Definition ri_set_available (l : list utxo) (r : list utxo * list nat) : list utxo * list nat := (l, r.2).
(** random_improve.rs:179-184 available_inputs; None is an index out of bounds *)
Definition ri_available (r : list utxo * list nat) : option (list utxo) := at_indices r.1 r.2.
