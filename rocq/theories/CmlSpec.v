(** What is expected of a fee estimator on top of the Cardano library's transaction builder, without reference to how it is
    built. *)
From Coq Require Import ZArith NArith.
From stdpp Require Import gmap strings list.
From Verif Require Import UtilModel CmlModel.
Open Scope Z_scope.

Section Spec.
  Context {Addr Script Datum I B : Type}.
  Notation output := (@loutput Addr Script Datum).
  Notation library := (library Addr Script Datum I B).

  (** a builder is given inputs one after the other and accepts each; quoted adds up what it asked for each beforehand *)
  Inductive given (lib : library) : B -> list I -> B -> N -> Prop :=
  | given_none b : given lib b [] b 0
  | given_more b i is b' b'' f g :
      lb_fee_in lib b i = Some f -> lb_add_in lib b i = (b', true) -> given lib b' is b'' g ->
      given lib b (i :: is) b'' (f + g).

  (** the same output except for its coin, of which it has no more *)
  Definition less_coin (o' o : output) : Prop :=
    lo_addr o' = lo_addr o /\ lo_script o' = lo_script o /\ lo_datum o' = lo_datum o /\
    lv_multi (lo_amount o') = lv_multi (lo_amount o) /\ (lv_coin (lo_amount o') <= lv_coin (lo_amount o))%N.

  (** a builder whose quotes suffice: what it requires once it has the input is no more than before plus the quote; for an
      output this is so also if the output comes with less coin than the one quoted *)
  Definition quotes_inputs (lib : library) : Prop := forall b i b' f g,
    lb_min_fee lib b = Some f -> lb_fee_in lib b i = Some g -> lb_add_in lib b i = (b', true) ->
    exists f', lb_min_fee lib b' = Some f' /\ (f' <= f + g)%N.
  Definition quotes_outputs (lib : library) : Prop := forall b o o' b' f g,
    lb_min_fee lib b = Some f -> lb_fee_out lib b o = Some g -> less_coin o' o -> lb_add_out lib b o' = (b', true) ->
    exists f', lb_min_fee lib b' = Some f' /\ (f' <= f + g)%N.

  (** a quantity of the builder that grows by a with each input and by c with each output it accepts, and that an input it refuses
      does not change *)
  Definition builder_counts (lib : library) (m : B -> Z) (a c : Z) : Prop := forall b,
    (forall i b', lb_add_in lib b i = (b', true) -> m b' = m b + a) /\
    (forall i b', lb_add_in lib b i = (b', false) -> m b' = m b) /\
    (forall o b', lb_add_out lib b o = (b', true) -> m b' = m b + c).
End Spec.
