(** What C38 says, in terms of traces: what the node had, what was asked and what the pulls returned. *)
From Coq Require Import ZArith.
From stdpp Require Import gmap strings list.
From Verif Require Import TimeModel UtilModel CardanoModel.
Open Scope N_scope.

(** ** what a trace says *)
Definition got_of (x : seen) : list msg := match x with Got m => [m] | _ => [] end.
Definition chain_of (x : seen) : list (list nblock) := match x with NodeHas c => [c] | _ => [] end.
Definition got (tr : list seen) : list msg := tr ≫= got_of.
Definition chains (tr : list seen) : list (list nblock) := tr ≫= chain_of.
Definition not_asked (x : seen) : Prop := match x with Asked _ => False | _ => True end.

Definition in_force (c0 : list nblock) (tr : list seen) : list nblock := List.last (chains tr) c0.
(** the blocks that pulls returned, in order *)
Definition blocks_of (m : msg) : list bevent := match m with MBlock b => [b] | _ => [] end.
Definition blocks (tr : list seen) : list bevent := got tr ≫= blocks_of.

(** ** answers of the node *)
(** the point of ps on c with the highest slot *)
Definition best (c : list nblock) (ps : list npoint) (p : npoint) : Prop :=
  p ∈ ps /\ on_chain c p = true /\ forall q, q ∈ ps -> on_chain c q = true -> npoint_slot q <= npoint_slot p.
(** the answer to a range request: consecutive blocks of the chain from one point to the other *)
Definition stretch (c : list nblock) (f t : npoint) (seg : list nblock) : Prop := exists pre b rest post,
  c = pre ++ seg ++ post /\ seg = b :: rest /\ nb_point b = f /\ tip_of seg = t.

(** of the chains cs that the node had one after the other, c2 is c1 or a later one *)
Definition after (cs : list (list nblock)) (c1 c2 : list nblock) : Prop := exists a b, cs = a ++ c1 :: b /\ c2 ∈ c1 :: b.

Section Spec.
  Context (read_id : string -> option string) (decode : string -> option mblock) (cfg : config) (chk : bool).
  Notation event_of := (from_serialized_block decode cfg chk).

  (** the point of the node that a point of the caller names: the origin, or a slot with the hash that its identifier is the text of *)
  Definition names (p : point) (q : npoint) : Prop :=
    match p with Origin => q = NOrigin | BlockHeader s h => exists hash, read_id h = Some hash /\ q = NPoint s hash end.

  (** the points asked for in fact, and whether the first block is one the caller has *)
  Definition effective (f : list point) : list point * bool :=
    if bool_decide (f = [BlockHeader 0 (cf_genesis_parent cfg)]) then ([cf_genesis cfg], false) else (f, true).

  (** what one request may have given so far, cs being the chains of the node since it was made *)
  Inductive served (cs : list (list nblock)) (f : list point) : list msg -> Prop :=
  | served_nothing : served cs f []
  | served_tip c1 ps p : c1 ∈ cs -> points_to_node read_id (fst (effective f)) = Some ps -> best c1 ps p -> tip_of c1 <> p ->
      served cs f [MTip (tip_of c1)]
  | served_blocks c1 c2 ps p tips seg del ms : after cs c1 c2 -> points_to_node read_id (fst (effective f)) = Some ps ->
      best c1 ps p -> tip_of c1 <> p ->
      tips = [] \/ tips = [MTip (tip_of c1)] ->
      stretch c2 p (tip_of c1) seg ->
      del `prefix_of` (if snd (effective f) then tail seg else seg) ->
      Forall2 (fun b m => event_of (nb_raw b) = Some m) del ms ->
      served cs f (tips ++ ms).
  (** and the reasons for which it may have ended, when the node always answered *)
  Inductive ended (cs : list (list nblock)) (f : list point) : list msg -> Prop :=
  | ended_unreadable : points_to_node read_id (fst (effective f)) = None -> ended cs f []
  | ended_unknown c1 ps : c1 ∈ cs -> points_to_node read_id (fst (effective f)) = Some ps ->
      (forall p, p ∈ ps -> on_chain c1 p = false) -> ended cs f []
  | ended_up_to_date c1 ps : c1 ∈ cs -> points_to_node read_id (fst (effective f)) = Some ps -> best c1 ps (tip_of c1) -> ended cs f []
  | ended_rolled_back c1 c2 ps p tips : after cs c1 c2 -> points_to_node read_id (fst (effective f)) = Some ps ->
      best c1 ps p -> tip_of c1 <> p -> tips = [] \/ tips = [MTip (tip_of c1)] -> range c2 p (tip_of c1) = None -> ended cs f tips
  | ended_complete c1 c2 ps p tips seg ms : after cs c1 c2 -> points_to_node read_id (fst (effective f)) = Some ps ->
      best c1 ps p -> tip_of c1 <> p -> tips = [] \/ tips = [MTip (tip_of c1)] ->
      stretch c2 p (tip_of c1) seg ->
      Forall2 (fun b m => event_of (nb_raw b) = Some m) (if snd (effective f) then tail seg else seg) ms -> ended cs f (tips ++ ms).
End Spec.
