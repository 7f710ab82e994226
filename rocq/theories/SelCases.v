(** Concrete cases meeting the hypotheses of the theorems of StoreProps.v, SelProps.v and RandProps.v, named after
    them. *)
From Coq Require Import ZArith Lia.
From stdpp Require Import gmap strings list sorting.
From Verif Require Import ValueModel BalanceModel StoreModel StoreSpec StoreProofs StoreProps SelModel SelSpec SelProofs SelLargestProofs SelProps SelFewestProofs RandModel RandProps.
Open Scope Z_scope.

(** inserting an output that is there and removing one that is not *)
Example C08_failing_changes_nothing_case : spec_ok (unspent ex_h) (Insert other_utxo) = OpErr /\ spec_ok (unspent ex_h) (Remove ("tx", 3%N)) = OpErr /\
  spec_ok (unspent ex_h) (Remove ("tx", 2%N)) = OpOk.
Proof. vm_compute. auto. Qed.
Example C08_unspent_meaning_case : other_utxo ∈ unspent ex_h /\ Utxo ("tx", 3%N) "a" 5 [] "" ∉ unspent ex_h.
Proof.
  assert (E : unspent ex_h = [other_utxo; Utxo ("tx", 2%N) "a" 4 [Asset "p" "n" "tok" 2; Asset "q" "m" "tik" 9] ""]) by (vm_compute; reflexivity).
  rewrite E. split; [left|]. intro H. repeat (apply elem_of_cons in H as [H|H]; [discriminate|]). inversion H.
Qed.
Example C11_insert_remove_case : ~ present (u_ptr dup_utxo) (unspent ex_h).
Proof. apply (bool_decide_unpack _); by vm_compute. Qed.

(** a selection with two inputs, two tokens and a change output; balanced, and not balanced without the change *)
Definition bal_in : list utxo := [case_u1; case_u3].
Definition bal_out : list uout := [case_out].
Definition bal_change : uout := Uout "me" 0 [Asset "p" "a" "A" 2; Asset "p" "b" "B" 2] None.
Definition bal_with (changes : list uout) : selection :=
  let su := from_fixed bal_in (bal_out ++ changes) (Some "me") in
  Selection (su_in su) (su_in_assets su) (su_out su) (su_out_assets su) [case_u1] bal_out [case_u3] changes 2.
Lemma bal_nonneg_in : Forall nonneg_in bal_in.
Proof. repeat constructor; vm_compute; discriminate. Qed.
Lemma bal_nonneg_out : Forall nonneg_out (bal_out ++ [bal_change]).
Proof. repeat constructor; vm_compute; discriminate. Qed.
Lemma nonneg_from_fixed ins outs c : Forall nonneg_in ins -> Forall nonneg_out outs ->
  nonneg_table (su_in_assets (from_fixed ins outs c)) /\ nonneg_table (su_out_assets (from_fixed ins outs c)).
Proof.
  intros Hi Ho. destruct (C39_totals ins outs c) as (_ & _ & Ei & Eo & _). split; apply nonneg_of_amounts; intro t; rewrite ?Ei, ?Eo;
    [apply token_in_nonneg; exact Hi|apply token_out_nonneg; exact Ho].
Qed.
Example C39_is_balanced_case : fair_t (@tnatural asset) /\ 0 <= se_out (bal_with [bal_change]) /\ 0 <= se_fee (bal_with [bal_change]) /\
  nonneg_table (se_in_assets (bal_with [bal_change])) /\ nonneg_table (se_out_assets (bal_with [bal_change])) /\
  is_balanced tnatural (bal_with [bal_change]) = true /\ is_balanced tnatural (bal_with []) = false.
Proof.
  split; [intro m; reflexivity|]. split; [vm_compute; discriminate|]. split; [vm_compute; discriminate|].
  destruct (nonneg_from_fixed bal_in (bal_out ++ [bal_change]) (Some "me") bal_nonneg_in bal_nonneg_out) as [G1 G2].
  split; [exact G1|]. split; [exact G2|]. split; vm_compute; reflexivity.
Qed.
Example C39_are_utxos_balanced_case : Forall nonneg_in (se_fixed_in (bal_with [bal_change]) ++ se_chosen (bal_with [bal_change])) /\
  Forall nonneg_out (se_fixed_out (bal_with [bal_change]) ++ se_changes (bal_with [bal_change])) /\
  are_utxos_balanced tnatural (bal_with [bal_change]) = true /\ are_utxos_balanced tnatural (bal_with []) = false.
Proof. split; [exact bal_nonneg_in|]. split; [exact bal_nonneg_out|]. split; vm_compute; reflexivity. Qed.
Example C39_descriptions_case : exists a, su_in_assets (from_fixed bal_in bal_out None) !! "A" = Some a /\ a_qty a = 8.
Proof. eexists. split; vm_compute; reflexivity. Qed.
(** a selection that fails for want of a token *)
Example C41_fails_only_when_short_case : inputs_ok (flat 2 1 1) /\ fees_nonneg (flat 2 1 1) /\
  exists st' e', lf_select (flat 2 1 1) (fun _ => natural) tnatural (final case_h) (0, 1)%N (from_fixed [] [Uout "you" 3 [Asset "p" "b" "B" 3] None] None) = (st', SFail e').
Proof.
  destruct (flat_ok 2 1 1) as (G1 & G2 & _); [lia|lia|lia|]. split; [exact G1|]. split; [exact G2|].
  assert (H : match snd (lf_select (flat 2 1 1) (fun _ => natural) tnatural (final case_h) (0, 1)%N (from_fixed [] [Uout "you" 3 [Asset "p" "b" "B" 3] None] None)) with SFail _ => true | _ => false end = true) by (vm_compute; reflexivity).
  destruct (lf_select (flat 2 1 1) (fun _ => natural) tnatural (final case_h) (0, 1)%N (from_fixed [] [Uout "you" 3 [Asset "p" "b" "B" 3] None] None)) as [st' r]. exists st'. cbn [snd] in H. destruct r; try discriminate. eexists. reflexivity.
Qed.
Example C42_fee_change_case : let su := from_fixed [case_u1] [Uout "you" 3 [Asset "p" "a" "A" 5] None] None in
  nonneg_table (su_in_assets su) /\ nonneg_table (su_out_assets su) /\ 0 <= su_out su /\
  match fee_balance (flat 2 1 1) tnatural (1, 1)%N su with SDone (_, s) => se_fee s = 7 | _ => False end.
Proof.
  cbv zeta. assert (Hi : Forall nonneg_in [case_u1]) by (repeat constructor; vm_compute; discriminate).
  assert (Ho : Forall nonneg_out [Uout "you" 3 [Asset "p" "a" "A" 5] None]) by (repeat constructor; vm_compute; discriminate).
  destruct (nonneg_from_fixed _ _ None Hi Ho) as [G1 G2]. split; [exact G1|]. split; [exact G2|]. split; vm_compute; [discriminate|reflexivity].
Qed.
Example C43_single_change_case : let su := from_fixed bal_in bal_out (Some "me") in
  filed (su_in_assets su) /\ nonneg_table (su_in_assets su) /\ nonneg_table (su_out_assets su) /\ 0 <= su_out su /\
  match single_change (flat 0 0 1) tnatural tnatural None (2, 1)%N su with
  | SDone (_, s) => map o_value (se_changes s) = [0] /\ se_fee s = 2
  | _ => False
  end.
Proof.
  cbv zeta. assert (Ho : Forall nonneg_out bal_out) by (repeat constructor; vm_compute; discriminate).
  destruct (nonneg_from_fixed bal_in bal_out (Some "me") bal_nonneg_in Ho) as [G1 G2].
  split; [apply filed_from_fixed_in|]. split; [exact G1|]. split; [exact G2|]. split; vm_compute; [discriminate|auto].
Qed.
(** largest-first followed by a single change output, from a store with a history *)
Example C43_pipeline_case : Forall wf_op case_h /\ Forall nonneg_in (unspent case_h) /\ Forall nonneg_out [case_out] /\ Forall no_main_out [case_out] /\
  exists st' e1 sel e2 s, lf_select (flat 2 1 1) (fun _ => natural) tnatural (final case_h) (0, 1)%N (from_fixed [] [case_out] (Some "me")) = (st', SDone (e1, sel)) /\
    single_change (flat 2 1 1) tnatural tnatural None e1 (after sel (Some "me")) = SDone (e2, s).
Proof.
  destruct C40_case_hyps as (_ & _ & W & N & _). split; [exact W|]. split; [exact N|].
  split; [repeat constructor; vm_compute; discriminate|]. split; [repeat constructor|].
  pose proof C42_case as H. unfold case_lf, case_setup in H.
  destruct (lf_select (flat 2 1 1) (fun _ => natural) tnatural (final case_h) (0, 1)%N (from_fixed [] [case_out] (Some "me"))) as [st' [[e1 sel]| | |]]; try contradiction.
  destruct H as [_ H]. destruct (single_change (flat 2 1 1) tnatural tnatural None e1 (after sel (Some "me"))) as [[e2 s]| | |] eqn:S; try contradiction.
  exists st', e1, sel, e2, s. split; [reflexivity|exact S].
Qed.

(** random-improve over seven outputs *)
Lemma case_available : NoDup (ri_new case_inputs).2 /\ ri_available (case_inputs, (ri_new case_inputs).2) = Some case_inputs.
Proof. split; [apply NoDup_seq|reflexivity]. Qed.
Example C44_selected_case : (forall l : list nat, (fun l => l) l ≡ₚ l) /\ NoDup (ri_new case_inputs).2 /\ ri_available (case_inputs, (ri_new case_inputs).2) = Some case_inputs /\
  NoDup case_outs /\ exists av' e' r, run_case (fun n => (n * 3 + 1)%nat) case_inputs case_outs = (av', SDone (e', r)).
Proof.
  split; [reflexivity|]. split; [apply case_available|]. split; [apply case_available|].
  split; [apply (bool_decide_unpack _); by vm_compute|].
  pose proof C44_case as H. destruct (run_case _ case_inputs case_outs) as [av' [[e' r]| | |]]; try contradiction. eauto.
Qed.
Example C44_total_case : (0 < 1) /\ (forall u, u ∈ case_inputs -> 0 <= u_value u / 1 < 2 ^ 64) /\
  (forall o, o ∈ case_outs -> 0 <= o_value o /\ 3 * (o_value o / 1) < 2 ^ 64) /\ (forall u, u ∈ case_inputs -> 0 <= u_value u).
Proof.
  split; [lia|]. repeat split; intros; repeat match goal with
    | H : _ ∈ _ :: _ |- _ => apply elem_of_cons in H as [->|H]
    | H : _ ∈ [] |- _ => inversion H
    | H : _ ∈ case_inputs |- _ => unfold case_inputs in H
    | H : _ ∈ case_outs |- _ => unfold case_outs in H
    end; vm_compute; congruence.
Qed.
(** from an amount of 10 to one of 19 when 10 is wanted: nearer to 20 and below 30 *)
Example C44_improvement_rule_case : 0 <= 10 < 2 ^ 64 /\ 0 <= 19 < 2 ^ 64 /\ 3 * 10 < 2 ^ 64 /\ should_improve true 1 10 19 10 = Some true /\ should_improve true 1 19 31 10 = Some false.
Proof. repeat split; vm_compute; congruence. Qed.
Example C44_improvement_panics_case : should_improve true 1 (2 ^ 64) 0 0 = None /\ should_improve true 1 0 0 (2 ^ 63) = None /\ is_Some (should_improve false 1 0 0 (2 ^ 63)).
Proof. vm_compute. eauto. Qed.
Example C44_empty_output_fails_case : Uout "z" 0 [] None ∈ su_fixed_out (from_fixed [] [Uout "a" 5 [] None; Uout "z" 0 [] None] None) /\ o_value (Uout "z" 0 [] None) <= 0.
Proof. split; [right; left|vm_compute; discriminate]. Qed.
Example C44_pipeline_case : exists av' e1 sel e2 s,
  ri_select (flat 2 1 1) (fun n => (n * 3 + 1)%nat) true 1 case_inputs tnatural (fun l => l) (ri_new case_inputs).2 (0, 0)%N (from_fixed [] case_outs (Some "me")) = (av', SDone (e1, sel)) /\
  single_change (flat 2 1 1) tnatural tnatural None e1 (after sel (Some "me")) = SDone (e2, s).
Proof.
  assert (H : match snd (ri_select (flat 2 1 1) (fun n => (n * 3 + 1)%nat) true 1 case_inputs tnatural (fun l => l) (ri_new case_inputs).2 (0, 0)%N (from_fixed [] case_outs (Some "me"))) with
              | SDone (e1, sel) => match single_change (flat 2 1 1) tnatural tnatural None e1 (after sel (Some "me")) with SDone _ => true | _ => false end
              | _ => false
              end = true) by (vm_compute; reflexivity).
  destruct (ri_select (flat 2 1 1) (fun n => (n * 3 + 1)%nat) true 1 case_inputs tnatural (fun l => l) (ri_new case_inputs).2 (0, 0)%N (from_fixed [] case_outs (Some "me"))) as [av' r]. cbn [snd] in H. destruct r as [[e1 sel]| | |]; try discriminate.
  destruct (single_change _ _ _ _ _ _) as [[e2 s]| | |] eqn:S; try discriminate. exists av', e1, sel, e2, s. split; [reflexivity|exact S].
Qed.
Example C44_set_available_case : (length [coin 0 1 []; coin 1 2 []] <= length [coin 5 9 []; coin 6 8 []; coin 7 7 []])%nat.
Proof. cbn. lia. Qed.
