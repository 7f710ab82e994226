(** Proofs about the thermostat's fee, for setups without tokens and estimators that charge a fixed price per input and
    per output. *)
From Coq Require Import ZArith Lia.
From stdpp Require Import gmap strings list.
From Verif Require Import ValueModel BalanceModel BalanceProofs StoreModel StoreSpec StoreProofs StoreProps SelModel SelSpec SelProofs SelLargestProofs ThermoModel ThermoProofs ThermoRunProofs.
Open Scope Z_scope.

(** an estimator that never fails, asks a for each input and b for each output, and announces these prices *)
Definition linear {E} (est : estimator E) (a b : Z) : Prop := forall e, exists f, e_min_fee est e = Some f /\
  (forall u, e_fee_in est e u = Some a /\ exists e', e_add_in est e u = (e', true) /\ e_min_fee est e' = Some (f + a)) /\
  (forall o, e_fee_out est e o = Some b /\ exists e', e_add_out est e o = (e', true) /\ e_min_fee est e' = Some (f + b)) /\
  (forall o, e_min_fee est (fst (e_min_value est e o)) = Some f).

Section Keeps.
  Context {E : Type} (est : estimator E) (enum : nat -> enumeration) (sc : Z) (chk : bool) (cfg : tconfig) (outputs : list uout).
  Lemma select_input_keeps L s ut t : t_changes s = ∅ -> wp L (select_input_for est enum s ut t) (fun s' _ => t_changes s' = ∅).
  Proof.
    intro H. unfold select_input_for. destruct (List.find _ _); [|exact I]. apply wp_bind, add_in_wp. intro e. cbn zeta.
    destruct (store_remove _ _) as [? [| |]]; cbn; auto.
  Qed.
  Lemma main_until_keeps : forall fuel s ut, t_changes s = ∅ ->
    wp True (main_until_balanced est enum cfg fuel s ut) (fun s' _ => t_changes s' = ∅).
  Proof.
    induction fuel as [|fuel IH]; intros s0 ut H; cbn [main_until_balanced]; apply wp_bind, current_balance_wp; intros f _;
      destruct (in_debt _); cbn [wp]; auto. apply wp_bind. eapply wp_mono; [apply select_input_keeps, H|]. intros s1 ut1 H1. apply IH, H1.
  Qed.
  Lemma extra_inputs_keeps : forall l fuel empty i s ut, t_changes s = ∅ ->
    wp True (extra_inputs est enum sc chk cfg outputs fuel l empty i s ut) (fun s' _ => t_changes s' = ∅).
  Proof.
    induction fuel as [|fuel IH]; intros empty i s0 ut H; cbn [extra_inputs]; apply wp_bind, remaining_wp; intro n;
      destruct (n =? 0)%N; cbn [wp]; auto. destruct (l !! i); [|exact I]. destruct (empty !! i) as [[|]|]; [| |exact I].
    - destruct (forallb id empty); [exact H|apply IH, H].
    - destruct (N.of_nat _ <=? c_num cfg)%N; [apply IH, H|].
      destruct (select_input_for est enum s0 ut t) as [s1 [u1| | |]] eqn:S1; cbn [wp]; auto; apply IH;
        (assert (Q : t_changes s1 = t_changes s0); [|congruence]); revert S1; unfold select_input_for;
        (destruct (List.find _ _); [|intro Q; congruence]); unfold add_in; destruct (e_add_in est _ _) as [e [|]]; cbn [bind];
        try (intro Q; injection Q as <-; reflexivity); try discriminate;
        destruct (store_remove _ _) as [? [| |]]; intro Q; try discriminate; injection Q; intros; subst; reflexivity.
  Qed.
End Keeps.

Section Fee.
  Context {E : Type} (est : estimator E) (enum : nat -> enumeration) (sc : Z) (above : Z -> Z -> N -> bool) (chk : bool)
          (cfg : tconfig) (addr : option string) (outputs : list uout) (ordc : torder uout) (P : Prop) (h : list store_op) (a b : Z).
  Notation st := (thermo E).
  Context (Hfair : forall n, fair (enum n)) (Hwf : Forall wf_op h) (Hmain : c_main cfg = MAIN).
  Context (Hlin : linear est a b) (Hfine : fine est sc cfg P h) (Hworth : Forall (fun u => a <= u_value u) (unspent h)).

  Definition covered (s : st) : Prop := exists f, e_min_fee est (t_est s) = Some f /\ f <= zsigned (t_bal s).
  Definition exactly (s : st) : Prop := e_min_fee est (t_est s) = Some (zsigned (t_bal s)).

  Lemma select_input_covered s ut t : inv est sc cfg P h [] s ut -> t = MAIN -> covered s ->
    match select_input_for est enum s ut t with
    | (s', ROk _) => covered s'
    | (s', RErr) => covered s'
    | _ => True
    end.
  Proof.
    intros [[A B C D X] G] Ht (f & Hf & Hc). subst ut. unfold select_input_for.
    assert (Hw2 : Forall wf_op (spend h (t_sel s))) by (apply spend_wf, Hwf).
    destruct (List.find _ _) as [u|] eqn:Fu; [|exists f; auto].
    apply find_some in Fu as [Hin Ho]. apply elem_of_list_In in Hin.
    destruct (C10_listings (spend h (t_sel s)) t (enum (store_len (final (spend h (t_sel s))))) Hw2 (Hfair _)) as (_ & _ & Pm & _).
    change (fst (store_run store_new (spend h (t_sel s)))) with (final (spend h (t_sel s))) in Pm.
    rewrite Pm in Hin. apply elem_of_list_filter in Hin as [_ Hu].
    destruct (Hlin (t_est s)) as (f' & Hf' & Li & _). rewrite Hf in Hf'. injection Hf' as <-.
    destruct (Li u) as (_ & e' & Ha & He').
    unfold add_in. rewrite Ha. cbn [bind]. rewrite (remove_present _ _ Hu).
    exists (f + a). split; [exact He'|]. cbn [add_input with_est t_bal]. rewrite zbal_add_value_signed.
    rewrite Forall_forall in Hworth. assert (a <= u_value u); [|lia]. apply Hworth. rewrite <- B. apply elem_of_app. right. exact Hu.
  Qed.

  Lemma main_until_covered : forall fuel s ut, inv est sc cfg P h [] s ut -> (store_len ut < fuel)%nat ->
    wp True (main_until_balanced est enum cfg fuel s ut) (fun s' ut' => inv est sc cfg P h [] s' ut' /\ covered s').
  Proof.
    induction fuel as [|fuel IH]; intros s ut H Hl; [lia|]. cbn [main_until_balanced].
    apply wp_bind, current_balance_wp. intros f Hf.
    destruct (in_debt (zbal_sub_value (t_bal s) f)) eqn:D; cbn [wp].
    - apply wp_bind. rewrite Hmain.
      assert (X := select_input_for_cases est enum sc cfg P h [] Hfair Hwf s ut MAIN H (or_introl eq_refl)).
      destruct (select_input_for est enum s ut MAIN) as [s1 [ut1| | |]]; cbn [wp]; auto.
      destruct X as [I1 L1 _ _]. apply IH; [exact I1|lia].
    - split; [exact H|]. exists f. split; [exact Hf|]. destruct H as [_ G]. destruct (G Hfine) as [G1 _ _].
      assert (0 <= f) by (destruct Hfine as (Fe & _); apply (proj1 (Fe (t_est s))); exact Hf).
      assert (Q := zbal_sub_value_normal (t_bal s) f G1 ltac:(assumption)).
      assert (R := zbal_sub_value_signed (t_bal s) f). destruct (zbal_sub_value (t_bal s) f); cbn in *; [discriminate|lia|lia].
  Qed.

  Lemma extra_covered : forall fuel empty i s ut, inv est sc cfg P h [] s ut -> covered s ->
    wp True (extra_inputs est enum sc chk cfg outputs fuel [MAIN] empty i s ut) (fun s' ut' => inv est sc cfg P h [] s' ut' /\ covered s').
  Proof.
    induction fuel as [|fuel IH]; intros empty i s ut H Hc; cbn [extra_inputs]; apply wp_bind, remaining_wp; intro n;
      destruct (n =? 0)%N; cbn [wp]; auto.
    destruct ([MAIN] !! i) as [t|] eqn:Et; [|exact I]. destruct (empty !! i) as [[|]|]; [| |exact I].
    - destruct (forallb id empty); [split; auto|apply IH; auto].
    - destruct (N.of_nat _ <=? c_num cfg)%N; [apply IH; auto|].
      assert (Em : t = MAIN) by (destruct i; [injection Et; auto|discriminate]).
      assert (X := select_input_for_cases est enum sc cfg P h [] Hfair Hwf s ut t H (or_introl Em)).
      assert (Y := select_input_covered s ut t H Em Hc).
      destruct (select_input_for est enum s ut t) as [s1 [ut1| | |]]; cbn [wp]; auto.
      + destruct X as [I1 _ _ _]. apply IH; auto.
      + apply IH; auto. destruct X as [e ->]. apply inv_est, H.
  Qed.

  Lemma balance_excess_exact L s : covered s -> t_changes s = ∅ ->
    wp L (balance_excess est cfg addr s) (fun s' _ => covered s' /\ (t_changes s' = ∅ \/ exactly s')).
  Proof.
    intros (f & Hf & Hc) C0. unfold balance_excess. apply wp_bind, current_balance_wp. intros f0 Hf0.
    rewrite Hf in Hf0. injection Hf0 as <-.
    assert (R := zbal_sub_value_signed (t_bal s) f).
    assert (Cs : covered s) by (exists f; auto).
    destruct (zbal_sub_value (t_bal s) f) as [d| |x] eqn:Cur; [split; auto|split; auto|].
    apply wp_bind, wp_lift. intros ad _. rewrite C0, lookup_empty.
    destruct (Hlin (t_est s)) as (f' & Hf' & _ & _ & Lm). rewrite Hf in Hf'. injection Hf' as <-.
    apply wp_bind, min_value_wp. intros e m Hm. specialize (Lm (Uout ad x [] None)). rewrite Hm in Lm. cbn [fst] in Lm.
    assert (Ce : covered (with_est s e)) by (exists f; auto).
    destruct (x <? m); [split; auto|]. apply wp_bind, wp_lift. intros g Hg. destruct (x <? m + g); [split; auto|]. cbn zeta.
    destruct (Hlin e) as (f' & Hf' & _ & Lo & _). rewrite Lm in Hf'. injection Hf' as <-.
    destruct (Lo (Uout ad x [] None)) as [Lg _]. cbn [with_est t_est] in Hg. rewrite Hg in Lg. injection Lg as ->.
    destruct (Lo (Uout ad (x - b) [] None)) as (_ & e' & Ha & He').
    unfold add_out. cbn [pay with_bal with_est t_est]. rewrite Ha. cbn [bind wp].
    cbn [zsigned] in R.
    assert (Ex : exactly (put (with_est (pay (with_est s e) (x - b)) e') (c_main cfg) (Uout ad (x - b) [] None))).
    { unfold exactly. cbn [put with_est pay with_bal t_est t_bal]. rewrite He', zbal_sub_value_signed. f_equal. lia. }
    split; [|right; exact Ex]. exists (zsigned (t_bal (put (with_est (pay (with_est s e) (x - b)) e') (c_main cfg) (Uout ad (x - b) [] None)))).
    split; [exact Ex|lia].
  Qed.

  Lemma split_one_exact L ut s t o d : e_min_fee est (t_est s) = Some (zsigned (t_bal s) - d) ->
    wp L (split_one est sc above cfg ut s t o) (fun s' _ => e_min_fee est (t_est s') = Some (zsigned (t_bal s') - d)).
  Proof.
    intro H. unfold split_one. destruct (get_balance_of ut t) as [total|]; [|exact H].
    destruct (Hlin (t_est s)) as (f' & Hf' & _ & Lo & _). rewrite H in Hf'. injection Hf' as <-.
    destruct (o_assets o) as [|x l].
    - destruct (bool_decide _); [|exact H]. destruct (c_num cfg =? 0)%N; [exact I|].
      apply wp_bind, wp_lift. intros f Hf. cbn zeta. destruct (_ || _); [exact H|]. destruct (above _ _ _); [|exact H].
      destruct (Lo o) as [Hb _]. rewrite Hf in Hb. injection Hb as ->.
      match goal with |- wp _ (add_out _ ?S ?O) _ => destruct (Lo O) as (_ & e' & Ha & He') end.
      unfold add_out. cbn [push_extra gain with_bal put t_est]. rewrite Ha. cbn [wp with_est t_est t_bal push_extra gain with_bal put].
      rewrite He', zbal_add_value_signed. f_equal. lia.
    - destruct (c_num_assets cfg =? 0)%N; [exact I|]. destruct (above _ _ _); [|exact H]. cbn zeta.
      apply wp_bind, wp_lift. intros f Hf. destruct (_ || _); [exact H|].
      match type of Hf with e_fee_out _ _ ?O = _ => destruct (Lo O) as [Hb _]; cbn [put t_est] in Hf; rewrite Hf in Hb; injection Hb as -> end.
      match goal with |- wp _ (bind (add_out _ ?S ?O) _) _ => destruct (Lo O) as (_ & e' & Ha & He') end.
      unfold add_out. cbn [push_extra gain with_bal put t_est]. rewrite Ha. cbn [bind wp with_est t_est t_bal push_extra gain with_bal put].
      rewrite He', zbal_add_value_signed. f_equal. lia.
  Qed.
  Lemma split_all_exact ut d : forall l s, e_min_fee est (t_est s) = Some (zsigned (t_bal s) - d) ->
    wp True (split_all est sc above cfg ut l s) (fun s' _ => e_min_fee est (t_est s') = Some (zsigned (t_bal s') - d)).
  Proof.
    induction l as [|[t o] l IH]; intros s H; [exact H|]. cbn [split_all]. apply wp_bind.
    eapply wp_mono; [apply split_one_exact, H|]. intros s1 [] H1. apply IH, H1.
  Qed.

  Lemma select_fee s : fair_t ordc -> inv est sc cfg P h [] s (final h) -> t_changes s = ∅ ->
    wp True (select est enum sc above chk cfg addr outputs ordc [] (final h) s) (fun s' _ =>
      covered s' /\ (t_changes s' = ∅ /\ t_extra s' = [] \/ exactly s')).
  Proof.
    intros Ho I0 C0. unfold select. cbn [fund_assets bind].
    assert (Keep := main_until_keeps est enum cfg). assert (Keep2 := extra_inputs_keeps est enum sc chk cfg outputs).
    assert (And : forall {A} (p : st * res A) (Q R : st -> A -> Prop), wp True p Q -> wp True p R -> wp True p (fun s a => Q s a /\ R s a)).
    { intros A p Q R W1 W2. destruct p as [s0 [x| | |]]; cbn in *; auto. }
    apply wp_bind. eapply wp_mono; [apply And; [apply (main_until_covered _ s (final h) I0); lia|apply Keep, C0]|].
    cbn beta zeta. intros s2 ut2 ((I2 & Cv2) & C2). rewrite orb_true_r. cbn [app]. rewrite Hmain.
    apply wp_bind. eapply wp_mono; [apply And; [apply (extra_covered _ _ _ s2 ut2 I2 Cv2)|apply Keep2, C2]|].
    cbn beta. intros s3 ut3 ((I3 & Cv3) & C3).
    cbn [length Nat.eqb andb head]. rewrite (bool_decide_eq_true_2 (Some MAIN = Some MAIN)) by reflexivity. rewrite orb_true_r.
    cbn [removelast return_excess bind]. apply wp_bind.
    assert (Xe : wp True (balance_excess est cfg addr s3) (fun s' _ => t_extra s' = [])).
    { destruct I3 as [[? ? ? ? X3] _]. unfold balance_excess. apply wp_bind, current_balance_wp. intros f _.
      destruct (zbal_sub_value _ _); [exact X3|exact X3|]. apply wp_bind, wp_lift. intros ad _. destruct (t_changes s3 !! c_main cfg); [exact X3|].
      apply wp_bind, min_value_wp. intros e m _. destruct (_ <? m); [exact X3|]. apply wp_bind, wp_lift. intros g _.
      destruct (_ <? m + g); [exact X3|]. apply wp_bind, add_out_wp. intro e'. exact X3. }
    eapply wp_mono; [apply And; [apply (balance_excess_exact True s3 Cv3 C3)|exact Xe]|].
    cbn beta. intros s4 [] (((f & Hf & Hc) & Hx) & X4).
    apply wp_bind. destruct Hx as [C4|Hx].
    - rewrite C4. assert (O0 : ordc ∅ = []).
      { assert (Q := Ho ∅). rewrite map_to_list_empty in Q. apply Permutation_nil_r in Q. exact Q. }
      rewrite O0. cbn [split_all wp]. split; [exists f; auto|]. left. auto.
    - eapply wp_mono; [apply (split_all_exact ut3 0); unfold exactly in Hx; rewrite Hx; f_equal; lia|].
      cbn beta. intros s5 [] H5. rewrite Z.sub_0_r in H5. split; [exists (zsigned (t_bal s5)); split; [exact H5|lia]|]. right. exact H5.
  Qed.
End Fee.
