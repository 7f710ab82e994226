From Coq Require Import ZArith NArith Lia.
From Verif Require Import CounterModel.
Open Scope N_scope.

Lemma checked_add_spec a b : checked_add a b = if a + b <? 2 ^ 64 then Some (a + b) else None.
Proof.
  unfold checked_add, u64_max. destruct (N.leb_spec (a + b) (2 ^ 64 - 1)), (N.ltb_spec (a + b) (2 ^ 64)); try reflexivity; lia.
Qed.

Lemma saturating_add_spec a b : saturating_add a b = N.min (a + b) (2 ^ 64 - 1).
Proof. unfold saturating_add, u64_max. destruct (N.leb_spec (a + b) (2 ^ 64 - 1)); lia. Qed.

Lemma saturating_sub_spec a b : saturating_sub a b = a - b.
Proof. unfold saturating_sub. destruct (N.leb_spec b a); lia. Qed.

Lemma saturating_sub_Z a b : Z.of_N (saturating_sub a b) = Z.max 0 (Z.of_N a - Z.of_N b).
Proof. rewrite saturating_sub_spec. lia. Qed.

Lemma checked_next_spec a : checked_next a = if a <? 2 ^ 64 - 1 then Some (a + 1) else None.
Proof.
  unfold checked_next. rewrite checked_add_spec.
  destruct (N.ltb_spec (a + 1) (2 ^ 64)), (N.ltb_spec a (2 ^ 64 - 1)); try reflexivity; lia.
Qed.

Lemma counters_in_range a b : is_u64 a ->
  is_u64 (saturating_add a b) /\ is_u64 (saturating_sub a b) /\
  (forall c, checked_add a b = Some c -> is_u64 c).
Proof.
  unfold is_u64. intro Ha. split; [|split].
  - rewrite saturating_add_spec. unfold u64_max. lia.
  - rewrite saturating_sub_spec. lia.
  - unfold checked_add. intros c. destruct (N.leb_spec (a + b) u64_max) as [H|H]; [|discriminate].
    intro E; injection E as <-. exact H.
Qed.

Lemma counters_monotone a a' b b' : a <= a' -> b <= b' ->
  saturating_add a b <= saturating_add a' b' /\ saturating_sub a b' <= saturating_sub a' b /\
  (forall c', checked_add a' b' = Some c' -> exists c, checked_add a b = Some c /\ c <= c').
Proof.
  intros Ha Hb. rewrite !saturating_add_spec, !saturating_sub_spec. split; [lia|]. split; [lia|].
  intros c'. rewrite !checked_add_spec. destruct (N.ltb_spec (a' + b') (2 ^ 64)) as [H|H]; [|discriminate].
  intro E; injection E as <-. exists (a + b).
  destruct (N.ltb_spec (a + b) (2 ^ 64)); [split; [reflexivity|lia]|lia].
Qed.
