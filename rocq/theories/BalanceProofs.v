From Coq Require Import ZArith QArith List Bool Lia Lqa Permutation.
From Verif Require Import ValueModel ValueSpec ValueProofs BalanceModel BalanceSpec.
Import ListNotations.
Open Scope Q_scope.

Lemma amount_zero : amount (dec_of_Z 0) == 0.
Proof. reflexivity. Qed.

Lemma cmp_cases a b : match dec_cmp a b with
  | Lt => amount a < amount b | Eq => amount a == amount b | Gt => amount b < amount a end.
Proof.
  rewrite dec_cmp_correct. destruct (amount a ?= amount b) eqn:E.
  - apply Qeq_alt in E; exact E.
  - apply Qlt_alt in E; exact E.
  - apply Qgt_alt in E; exact E.
Qed.

Lemma cmp0_cases a : match dec_cmp a (dec_of_Z 0) with
  | Lt => amount a < 0 | Eq => amount a == 0 | Gt => 0 < amount a end.
Proof. exact (cmp_cases a (dec_of_Z 0)). Qed.

Lemma step_reports b t o :
  reports b t -> 0 <= amount (op_amount o) ->
  reports (bal_step dec dec_add dec_sub dec_cmp (dec_of_Z 0) b o)
          (match o with Credit v => t + amount v | Debit v => t - amount v end).
Proof.
  intros Hr Hn. destruct o as [v|v]; cbn [op_amount] in Hn; cbn [bal_step].
  - destruct b as [l| |l]; cbn [bal_add_value reports] in *.
    + destruct Hr as [H1 H2]. pose proof (cmp_cases l v) as C. destruct (dec_cmp l v); cbn [reports];
      rewrite ?amount_sub; try split; lra.
    + unfold veqb. pose proof (cmp0_cases v) as C.
      destruct (dec_cmp v (dec_of_Z 0)); cbn [reports]; try split; lra.
    + destruct Hr as [H1 H2]. rewrite amount_add. split; lra.
  - destruct b as [l| |l]; cbn [bal_sub_value reports] in *.
    + destruct Hr as [H1 H2]. rewrite amount_add. split; lra.
    + unfold veqb. pose proof (cmp0_cases v) as C.
      destruct (dec_cmp v (dec_of_Z 0)); cbn [reports]; try split; lra.
    + destruct Hr as [H1 H2]. pose proof (cmp_cases l v) as C. destruct (dec_cmp l v); cbn [reports];
      rewrite ?amount_sub; try split; lra.
Qed.

Lemma reports_comp b s t : s == t -> reports b s -> reports b t.
Proof. intros E. destruct b; cbn [reports]; rewrite E; auto. Qed.

Lemma run_reports l : forall b t, reports b t -> nonneg_ops l -> reports (dbal_run b l) (t + total l).
Proof.
  induction l as [|o l IH]; intros b t Hr Hn; cbn [total].
  - apply (reports_comp _ t); [ring|exact Hr].
  - apply Forall_cons_iff in Hn as [Ho Hn]. unfold dbal_run. cbn [bal_run].
    pose proof (IH _ _ (step_reports b t o Hr Ho) Hn) as H.
    eapply reports_comp; [|exact H]. destruct o; ring.
Qed.

Lemma run_from_zero l : nonneg_ops l -> reports (dbal_run Balanced l) (total l).
Proof.
  intro H. apply (reports_comp _ (0 + total l)); [ring|]. apply run_reports; [reflexivity|exact H].
Qed.

Lemma reports_eqb a b t : reports a t -> reports b t -> dbal_eqb a b = true.
Proof.
  unfold dbal_eqb. intros Ha Hb.
  destruct a as [x| |x], b as [y| |y]; cbn [reports bal_eqb] in *; try reflexivity; try (exfalso; lra).
  - change (dec_eqb x y = true). apply dec_eqb_correct. lra.
  - change (dec_eqb x y = true). apply dec_eqb_correct. lra.
Qed.

Lemma total_perm l1 l2 : Permutation l1 l2 -> total l1 == total l2.
Proof.
  induction 1 as [|x l l' H IH|x y l|l l' l'' H1 IH1 H2 IH2]; cbn [total].
  - reflexivity.
  - destruct x; rewrite IH; reflexivity.
  - destruct x, y; ring.
  - rewrite IH1; exact IH2.
Qed.

Lemma nonneg_perm l1 l2 : Permutation l1 l2 -> nonneg_ops l1 -> nonneg_ops l2.
Proof. intros P H. unfold nonneg_ops in *. rewrite <- P. exact H. Qed.

Lemma run_perm l1 l2 : Permutation l1 l2 -> nonneg_ops l1 ->
  dbal_eqb (dbal_run Balanced l1) (dbal_run Balanced l2) = true.
Proof.
  intros P H. apply reports_eqb with (total l1).
  - apply run_from_zero, H.
  - apply (reports_comp _ (total l2)); [symmetry; apply total_perm, P|].
    apply run_from_zero. eapply nonneg_perm; eauto.
Qed.

(** the signed total is right even without normal form *)
Lemma step_signed b o :
  signed (bal_step dec dec_add dec_sub dec_cmp (dec_of_Z 0) b o)
  == match o with Credit v => signed b + amount v | Debit v => signed b - amount v end.
Proof.
  destruct o as [v|v]; cbn [bal_step]; destruct b as [l| |l]; cbn [bal_add_value bal_sub_value signed];
    try (rewrite ?amount_add; lra).
  - pose proof (cmp_cases l v) as C. destruct (dec_cmp l v); cbn [signed]; rewrite ?amount_sub; lra.
  - unfold veqb. pose proof (cmp0_cases v) as C.
    destruct (dec_cmp v (dec_of_Z 0)); cbn [signed]; lra.
  - unfold veqb. pose proof (cmp0_cases v) as C.
    destruct (dec_cmp v (dec_of_Z 0)); cbn [signed]; lra.
  - pose proof (cmp_cases l v) as C. destruct (dec_cmp l v); cbn [signed]; rewrite ?amount_sub; lra.
Qed.

Lemma run_signed l : forall b, signed (dbal_run b l) == signed b + total l.
Proof.
  induction l as [|o l IH]; intro b; cbn [total].
  - unfold dbal_run; cbn [bal_run]. ring.
  - unfold dbal_run in *. cbn [bal_run]. rewrite IH, step_signed. destruct o; ring.
Qed.

Lemma add_signed a b : signed (dbal_add a b) == signed a + signed b.
Proof.
  unfold dbal_add. destruct a as [x| |x], b as [y| |y]; cbn [bal_add signed];
    try (rewrite ?amount_add; lra);
    pose proof (cmp_cases x y) as C; destruct (dec_cmp x y); cbn [signed]; rewrite ?amount_sub; lra.
Qed.

Lemma add_normal a b : normal a -> normal b -> normal (dbal_add a b).
Proof.
  unfold dbal_add. destruct a as [x| |x], b as [y| |y]; cbn [bal_add normal]; intros Ha Hb;
    try (rewrite ?amount_add; lra); try exact I; try assumption;
    pose proof (cmp_cases x y) as C; destruct (dec_cmp x y); cbn [normal]; rewrite ?amount_sub; lra || exact I.
Qed.

Lemma normal_reports a : normal a -> reports a (signed a).
Proof. destruct a; cbn [normal reports signed]; intros; try split; lra. Qed.

Lemma add_reports a b : normal a -> normal b -> reports (dbal_add a b) (signed a + signed b).
Proof.
  intros Ha Hb. apply (reports_comp _ (signed (dbal_add a b))); [apply add_signed|].
  apply normal_reports, add_normal; assumption.
Qed.

Lemma add_comm a b : normal a -> normal b -> dbal_eqb (dbal_add a b) (dbal_add b a) = true.
Proof.
  intros Ha Hb. apply reports_eqb with (signed a + signed b); [apply add_reports; assumption|].
  apply (reports_comp _ (signed b + signed a)); [ring|]. apply add_reports; assumption.
Qed.

(** integer version, used by the selection model *)
Definition zsigned (b : zbalance) : Z :=
  match b with Excess v => v | Debt v => - v | Balanced => 0 end%Z.

Lemma zbal_add_value_signed b v : zsigned (zbal_add_value b v) = (zsigned b + v)%Z.
Proof.
  unfold zbal_add_value. destruct b as [l| |l]; cbn [bal_add_value zsigned]; unfold veqb.
  - destruct (Z.compare_spec l v); cbn [zsigned]; lia.
  - destruct (Z.compare_spec v 0); cbn [zsigned]; lia.
  - lia.
Qed.

Lemma zbal_sub_value_signed b v : zsigned (zbal_sub_value b v) = (zsigned b - v)%Z.
Proof.
  unfold zbal_sub_value. destruct b as [l| |l]; cbn [bal_sub_value zsigned]; unfold veqb.
  - lia.
  - destruct (Z.compare_spec v 0); cbn [zsigned]; lia.
  - destruct (Z.compare_spec l v); cbn [zsigned]; lia.
Qed.

Definition znormal (b : zbalance) : Prop :=
  match b with Excess v | Debt v => (0 < v)%Z | Balanced => True end.

Lemma zbal_add_value_normal b v : znormal b -> (0 <= v)%Z -> znormal (zbal_add_value b v).
Proof.
  unfold zbal_add_value. destruct b as [l| |l]; cbn [bal_add_value znormal]; unfold veqb; intros.
  - destruct (Z.compare_spec l v); cbn [znormal]; lia.
  - destruct (Z.compare_spec v 0); cbn [znormal]; lia.
  - lia.
Qed.

Lemma zbal_sub_value_normal b v : znormal b -> (0 <= v)%Z -> znormal (zbal_sub_value b v).
Proof.
  unfold zbal_sub_value. destruct b as [l| |l]; cbn [bal_sub_value znormal]; unfold veqb; intros.
  - lia.
  - destruct (Z.compare_spec v 0); cbn [znormal]; lia.
  - destruct (Z.compare_spec l v); cbn [znormal]; lia.
Qed.
