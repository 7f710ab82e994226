(** Proofs about which inputs the thermostat takes for a setup without tokens: the largest first, and beyond need only
    while enough outputs stay available and the transaction has room. *)
From Coq Require Import ZArith Lia Sorting.
From stdpp Require Import gmap strings list.
From Verif Require Import ValueModel BalanceModel BalanceProofs StoreModel StoreSpec StoreProofs StoreProps SelModel SelSpec SelProofs SelLargestProofs ThermoModel ThermoProofs ThermoRunProofs ThermoFeeProofs.
Open Scope Z_scope.

(** an estimator that knows the size of the transaction: k for an input, k2 for an output, at most mx in all *)
Definition sized {E} (est : estimator E) (k k2 mx : N) : Prop := forall e, exists n, e_size est e = Some n /\ e_max est e = Some mx /\
  (forall u, e_size est (fst (e_add_in est e u)) = Some (n + k)%N) /\
  (forall o, e_size est (fst (e_add_out est e o)) = Some (n + k2)%N) /\
  (forall o, e_size est (fst (e_min_value est e o)) = Some n).

Lemma filter_main (l : list utxo) : filter (holds MAIN) l = l.
Proof. induction l as [|u l IH]; [reflexivity|]. rewrite filter_cons_True by (left; reflexivity). f_equal. exact IH. Qed.

Section Extra.
  Context {E : Type} (est : estimator E) (enum : nat -> enumeration) (sc : Z) (above : Z -> Z -> N -> bool) (chk : bool)
          (cfg : tconfig) (addr : option string) (outputs : list uout) (ordc : torder uout) (P : Prop) (h : list store_op) (a b : Z).
  Notation st := (thermo E).
  Context (Hfair : forall n, fair (enum n)) (Hwf : Forall wf_op h) (Hmain : c_main cfg = MAIN).
  Context (Hlin : linear est a b) (Hfine : fine est sc cfg P h).
  Context (base f0 : Z).

  Lemma pure_main u : wf_utxo u -> only MAIN u = true <-> u_assets u = [].
  Proof.
    intro W. split.
    - intro H. destruct (only_spec MAIN u H W) as [?|(x & _ & ? & ?)]; [assumption|congruence].
    - intro H. unfold only. rewrite H. reflexivity.
  Qed.

  (** the last input taken was needed *)
  Definition needed (sel : list utxo) : Prop :=
    exists l u, sel = l ++ [u] /\ base + value_in l < f0 + a * Z.of_nat (length l).
  Definition greedy (s : st) : Prop :=
    StronglySorted (fun u w => u_value w <= u_value u) (t_sel s) /\
    (forall u w, u ∈ t_sel s -> w ∈ unspent (spend h (t_sel s)) -> u_assets w = [] -> u_value w <= u_value u) /\
    (forall u, u ∈ t_sel s -> u_assets u = []).
  Definition tracked (s : st) : Prop :=
    e_min_fee est (t_est s) = Some (f0 + a * Z.of_nat (length (t_sel s))) /\
    zsigned (t_bal s) = base + value_in (t_sel s) /\ greedy s.

  Lemma sorted_snoc (l : list utxo) u : StronglySorted (fun u w => u_value w <= u_value u) l -> (forall x, x ∈ l -> u_value u <= u_value x) ->
    StronglySorted (fun u w => u_value w <= u_value u) (l ++ [u]).
  Proof.
    induction l as [|x l IH]; intros S H; cbn [app]; [repeat constructor|].
    inversion S as [|? ? S1 S2]; subst. constructor; [apply IH; [exact S1|intros; apply H; right; assumption]|].
    apply Forall_app. split; [exact S2|]. constructor; [apply H; left|constructor].
  Qed.

  Lemma find_sorted {A} (R : A -> A -> Prop) (f : A -> bool) l u : StronglySorted R l -> List.find f l = Some u ->
    forall w, w ∈ l -> f w = true -> w = u \/ R u w.
  Proof.
    induction l as [|x l IH]; intros S F w Hw Hf; [discriminate|]. inversion S as [|? ? S1 S2]; subst. cbn [List.find] in F.
    destruct (f x) eqn:Fx.
    - injection F as ->. apply elem_of_cons in Hw as [->|Hw]; [left; reflexivity|right]. rewrite Forall_forall in S2. apply S2, Hw.
    - apply elem_of_cons in Hw as [->|Hw]; [congruence|]. apply IH; assumption.
  Qed.

  Lemma select_input_tracked s ut : inv est sc cfg P h [] s ut -> tracked s ->
    match select_input_for est enum s ut MAIN with
    | (s', ROk ut') => tracked s' /\ exists u, t_sel s' = t_sel s ++ [u] /\ t_est s' = fst (e_add_in est (t_est s) u) /\
                       length (unspent (spend h (t_sel s))) = S (length (unspent (spend h (t_sel s'))))
    | (s', RErr) => s' = s
    | _ => True
    end.
  Proof.
    intros [[A B C D X] G] (Hf & Hb & G1 & G2 & G3). subst ut. unfold select_input_for.
    assert (Hw2 : Forall wf_op (spend h (t_sel s))) by (apply spend_wf, Hwf).
    destruct (List.find _ _) as [u|] eqn:Fu; [|reflexivity].
    destruct (C10_listings (spend h (t_sel s)) MAIN (enum (store_len (final (spend h (t_sel s))))) Hw2 (Hfair _)) as (_ & _ & Pm & _ & So & _).
    change (fst (store_run store_new (spend h (t_sel s)))) with (final (spend h (t_sel s))) in Pm, So.
    assert (Fs := find_sorted _ _ _ _ So Fu).
    apply find_some in Fu as [Hin Ho]. apply elem_of_list_In in Hin.
    rewrite Pm in Hin. apply elem_of_list_filter in Hin as [_ Hu].
    assert (Wu := unspent_wf _ Hw2 _ Hu). apply (pure_main u Wu) in Ho.
    destruct (Hlin (t_est s)) as (f' & Hf' & Li & _). rewrite Hf in Hf'. injection Hf' as <-.
    destruct (Li u) as (_ & e' & Ha & He').
    unfold add_in. rewrite Ha. cbn [bind]. rewrite (remove_present _ _ Hu).
    assert (Pu := unspent_spend_one _ _ Hu).
    cbn [add_input with_est t_sel t_bal t_est]. split; [split; [|split]|].
    - cbn [add_input with_est t_sel t_bal t_est]. rewrite He', app_length. cbn [length]. f_equal. lia.
    - cbn [add_input with_est t_sel t_bal t_est]. rewrite zbal_add_value_signed, value_in_app, value_in_one. lia.
    - unfold greedy. cbn [add_input with_est t_sel]. split; [|split].
      + apply sorted_snoc; [exact G1|]. intros x Hx. apply G2; auto.
      + intros x w Hx Hw Hp. rewrite spend_app in Hw.
        assert (Hw' : w ∈ unspent (spend h (t_sel s))) by (rewrite <- Pu; right; exact Hw).
        apply elem_of_app in Hx as [Hx|Hx]; [apply G2; auto|]. apply elem_of_list_singleton in Hx as ->.
        destruct (Fs w) as [->|R].
        * rewrite Pm. apply elem_of_list_filter. split; [left; reflexivity|exact Hw'].
        * apply pure_main; [apply (unspent_wf _ Hw2 _ Hw')|exact Hp].
        * lia.
        * cbn beta in R. unfold quantity in R. rewrite !decide_True, Ho, Hp in R by reflexivity. cbn in R. lia.
      + intros x Hx. apply elem_of_app in Hx as [Hx|Hx]; [apply G3, Hx|]. apply elem_of_list_singleton in Hx as ->. exact Ho.
    - exists u. split; [reflexivity|]. split; [rewrite Ha; reflexivity|]. rewrite spend_app, <- (Permutation_length Pu). reflexivity.
  Qed.

  Lemma main_until_needed : forall fuel s ut, inv est sc cfg P h [] s ut -> tracked s -> (t_sel s = [] \/ needed (t_sel s)) -> 
    wp True (main_until_balanced est enum cfg fuel s ut) (fun s' ut' =>
      inv est sc cfg P h [] s' ut' /\ tracked s' /\ (t_sel s' = [] \/ needed (t_sel s'))).
  Proof.
    induction fuel as [|fuel IH]; intros s ut H T Hn; cbn [main_until_balanced];
      apply wp_bind, current_balance_wp; intros f Hf; destruct (in_debt (zbal_sub_value (t_bal s) f)) eqn:D; cbn [wp]; auto.
    apply wp_bind. rewrite Hmain.
    assert (X := select_input_for_cases est enum sc cfg P h [] Hfair Hwf s ut MAIN H (or_introl eq_refl)).
    assert (Y := select_input_tracked s ut H T).
    destruct (select_input_for est enum s ut MAIN) as [s1 [ut1| | |]]; cbn [wp]; auto.
    destruct X as [I1 L1 _ _]. destruct Y as (T1 & u & Hs & _). apply IH; [exact I1|exact T1|]. right. rewrite Hs.
    exists (t_sel s), u. split; [reflexivity|]. destruct T as (Tf & Tb & _). rewrite Hf in Tf. injection Tf as <-.
    rewrite <- Tb. destruct H as [_ Gs]. destruct (Gs Hfine) as [G1 _ _].
    assert (0 <= f) by (destruct Hfine as (Fe & _); apply (proj1 (Fe (t_est s))); exact Hf).
    assert (Q := zbal_sub_value_normal (t_bal s) f G1 ltac:(assumption)).
    assert (R := zbal_sub_value_signed (t_bal s) f). destruct (zbal_sub_value (t_bal s) f); cbn in *; [lia|discriminate|discriminate].
  Qed.

  Definition spare (s : st) : Prop := (c_num cfg <= N.of_nat (length (unspent (spend h (t_sel s)))))%N.
  (** with d of room left *)
  Definition room (mx d : N) (s : st) : Prop := exists n, e_size est (t_est s) = Some n /\ (n + d <= mx)%N.

  Lemma remaining_room s mx k k2 : sized est k k2 mx -> (mx < two64)%N -> t_abal s = ∅ ->
    wp True (remaining est sc chk outputs s) (fun s' n => s' = s /\ t_sel s <> [] /\ ((n =? 0)%N = false ->
       exists cur, e_size est (t_est s) = Some cur /\ (cur + Z.to_N (a / sc) <= mx)%N)).
  Proof.
    intros Hs Hmx Em. unfold remaining. destruct outputs as [|o os]; [exact I|]. destruct (t_sel s) as [|u us] eqn:Es; [exact I|].
    apply wp_bind, wp_lift. intros fo _. apply wp_bind, wp_lift. intros so _. apply wp_bind, wp_lift. intros fi Hfi.
    apply wp_bind, wp_lift. intros si Hsi. rewrite Em, map_size_empty. cbn [N.of_nat].
    assert (R0 : usize_mul chk so 0 = Some 0%N) by (unfold usize_mul; rewrite N.mul_0_r; reflexivity).
    rewrite R0. assert (R1 : usize_mul chk 0 2 = Some 0%N) by reflexivity. rewrite R1.
    destruct (Hs (t_est s)) as (n & Hn & Hm & _). apply wp_bind, wp_lift. intros mx' Hm'. apply wp_bind, wp_lift. intros n' Hn'.
    rewrite Hm in Hm'. injection Hm' as <-. rewrite Hn in Hn'. injection Hn' as <-.
    destruct (N.eqb_spec si 0) as [_|Hne]; [exact I|]. cbn [wp]. split; [reflexivity|]. split; [discriminate|].
    intro Hz. apply N.eqb_neq in Hz. exists n. split; [exact Hn|].
    assert (Ha : Z.to_N (a / sc) = si).
    { destruct (Hlin (t_est s)) as (f' & _ & Li & _). destruct (Li u) as [Lu _]. rewrite Lu in Hfi. injection Hfi as <-.
      unfold to_usize in Hsi. destruct (a <? 0); [discriminate|]. destruct (_ <? _); [|discriminate]. injection Hsi as <-. reflexivity. }
    rewrite Ha. unfold usize_sat_add in Hz. rewrite N.add_0_r in Hz.
    assert (si <= mx - N.min n (two64 - 1))%N.
    { destruct (N.le_gt_cases si (mx - N.min n (two64 - 1))) as [?|Hl]; [assumption|]. exfalso. apply Hz. apply N.div_small. exact Hl. }
    lia.
  Qed.

  Lemma extra_spare mx k k2 d : sized est k k2 mx -> (mx < two64)%N -> (k + d <= Z.to_N (a / sc))%N -> forall fuel empty i s ut,
    inv est sc cfg P h [] s ut -> tracked s -> (t_sel s = [] \/ needed (t_sel s) \/ spare s /\ room mx d s) ->
    wp True (extra_inputs est enum sc chk cfg outputs fuel [MAIN] empty i s ut) (fun s' ut' =>
      inv est sc cfg P h [] s' ut' /\ tracked s' /\ t_sel s' <> [] /\ (needed (t_sel s') \/ spare s' /\ room mx d s')).
  Proof.
    intros Hs Hmx Hk. induction fuel as [|fuel IH]; intros empty i s ut H T Hn; cbn [extra_inputs]; apply wp_bind;
      (eapply wp_mono; [apply (remaining_room s mx k k2 Hs Hmx)|]);
      try (apply map_eq; intro t; rewrite lookup_empty; destruct (t_abal s !! t) eqn:L; [|reflexivity]; exfalso;
           destruct (k_keys _ _ _ _ (proj1 H) t) as [Q _]; rewrite L in Q; specialize (Q ltac:(eauto)); inversion Q);
      cbn beta; intros s' n (-> & Ne & Rm); (assert (Hn' : needed (t_sel s) \/ spare s /\ room mx d s) by (destruct Hn as [?|?]; [contradiction|assumption]));
      destruct (n =? 0)%N eqn:Z0; cbn [wp]; auto.
    destruct ([MAIN] !! i) as [t|] eqn:Et; [|exact I]. destruct (empty !! i) as [[|]|]; [| |exact I].
    - destruct (forallb id empty); [exact (conj H (conj T (conj Ne Hn')))|apply IH; auto].
    - assert (Em : t = MAIN) by (destruct i; [injection Et; auto|discriminate]). subst t.
      destruct (N.leb_spec (N.of_nat (number_utxos_for_token ut MAIN)) (c_num cfg)) as [_|Hlt]; [apply IH; auto|].
      assert (X := select_input_for_cases est enum sc cfg P h [] Hfair Hwf s ut MAIN H (or_introl eq_refl)).
      assert (Y := select_input_tracked s ut H T).
      destruct (select_input_for est enum s ut MAIN) as [s1 [ut1| | |]]; cbn [wp]; auto.
      + destruct X as [I1 _ _ _]. destruct Y as (T1 & u & Hs1 & He1 & Hl1). apply IH; [exact I1|exact T1|]. right. right. split.
        * unfold spare. assert (Hw2 : Forall wf_op (spend h (t_sel s))) by (apply spend_wf, Hwf).
          destruct (C10_listings (spend h (t_sel s)) MAIN (enum 0) Hw2 (Hfair _)) as (_ & _ & _ & _ & _ & Nu & _).
          rewrite (k_store _ _ _ _ (proj1 H)) in Hlt. unfold final in Hlt. rewrite Nu in Hlt.
          rewrite filter_main in Hlt.
          lia.
        * destruct (Rm eq_refl) as (cur & Hc & Hle). destruct (Hs (t_est s)) as (n0 & Hn0 & _ & Hin & _).
          rewrite Hc in Hn0. injection Hn0 as <-. exists (cur + k)%N. rewrite He1, (Hin u). split; [reflexivity|]. lia.
      + rewrite Y. apply IH; auto.
  Qed.

  Definition bigger (k : N) (s s' : st) : Prop := t_sel s' = t_sel s /\
    exists n n', e_size est (t_est s) = Some n /\ e_size est (t_est s') = Some n' /\ (n' <= n + k)%N.
  Lemma add_out_size L k k2 mx s o (Q : st -> unit -> Prop) : sized est k k2 mx ->
    (forall e n, e_size est (t_est s) = Some n -> e_size est e = Some (n + k2)%N -> Q (with_est s e) tt) -> wp L (add_out est s o) Q.
  Proof.
    intros Hs H. destruct (Hs (t_est s)) as (n & Hn & _ & _ & Ho & _). specialize (Ho o). unfold add_out.
    destruct (e_add_out est (t_est s) o) as [e [|]]; cbn [wp fst] in *; eauto.
  Qed.
  Lemma min_value_size L k k2 mx s o (Q : st -> Z -> Prop) : sized est k k2 mx ->
    (forall e m n, e_size est (t_est s) = Some n -> e_size est e = Some n -> Q (with_est s e) m) -> wp L (min_value est s o) Q.
  Proof.
    intros Hs H. destruct (Hs (t_est s)) as (n & Hn & _ & _ & _ & Ho). specialize (Ho o). unfold min_value.
    destruct (e_min_value est (t_est s) o) as [e [m|]]; cbn [wp fst] in *; eauto.
  Qed.
  Lemma balance_excess_size L k k2 mx s : sized est k k2 mx -> t_changes s = ∅ ->
    wp L (balance_excess est cfg addr s) (fun s' _ => bigger k2 s s' /\ (t_changes s' = ∅ \/ exists o, t_changes s' = {[c_main cfg := o]})).
  Proof.
    intros Hs C0. destruct (Hs (t_est s)) as (n & Hn & _).
    assert (Same : forall e, e_size est e = Some n -> bigger k2 s (with_est s e)).
    { intros e He. split; [reflexivity|]. exists n, n. split; [exact Hn|]. split; [exact He|lia]. }
    unfold balance_excess. apply wp_bind, current_balance_wp. intros f _.
    assert (S0 : bigger k2 s s). { split; [reflexivity|]. exists n, n. split; [exact Hn|]. split; [exact Hn|lia]. }
    destruct (zbal_sub_value _ _); [split; auto|split; auto|]. apply wp_bind, wp_lift. intros ad _. rewrite C0, lookup_empty.
    apply wp_bind. apply (min_value_size _ k k2 mx); [exact Hs|]. intros e m n1 Hn1 He1. rewrite Hn in Hn1. injection Hn1 as <-.
    destruct (_ <? m); [split; [apply Same, He1|left; exact C0]|]. apply wp_bind, wp_lift. intros g _.
    destruct (_ <? m + g); [split; [apply Same, He1|left; exact C0]|]. apply wp_bind.
    apply (add_out_size _ k k2 mx); [exact Hs|]. intros e2 n2 Hn2 He2. cbn [pay with_bal with_est t_est] in Hn2. rewrite He1 in Hn2. injection Hn2 as <-.
    cbn [wp]. split.
    - split; [reflexivity|]. exists n, (n + k2)%N. split; [exact Hn|]. split; [exact He2|lia].
    - right. eexists. cbn [put pay with_bal with_est t_changes]. rewrite C0. apply insert_empty.
  Qed.
  Lemma split_one_size L k k2 mx ut s t o : sized est k k2 mx -> wp L (split_one est sc above cfg ut s t o) (fun s' _ => bigger k2 s s').
  Proof.
    intro Hs. destruct (Hs (t_est s)) as (n & Hn & _).
    assert (S0 : forall s', t_sel s' = t_sel s -> t_est s' = t_est s -> bigger k2 s s').
    { intros s' A B. split; [exact A|]. exists n, n. rewrite B. split; [exact Hn|]. split; [exact Hn|lia]. }
    assert (S1 : forall s' e, t_sel s' = t_sel s -> e_size est e = Some (n + k2)%N -> t_est s' = e -> bigger k2 s s').
    { intros s' e A B C. split; [exact A|]. exists n, (n + k2)%N. rewrite C. split; [exact Hn|]. split; [exact B|lia]. }
    unfold split_one. destruct (get_balance_of ut t); [|apply S0; reflexivity]. destruct (o_assets o).
    - destruct (bool_decide _); [|apply S0; reflexivity]. destruct (c_num cfg =? 0)%N; [exact I|]. apply wp_bind, wp_lift. intros f _. cbn zeta.
      destruct (_ || _); [apply S0; reflexivity|]. destruct (above _ _ _); [|apply S0; reflexivity].
      apply (add_out_size _ k k2 mx); [exact Hs|]. intros e n1 Hn1 He. cbn [push_extra gain with_bal put t_est] in Hn1. rewrite Hn in Hn1. injection Hn1 as <-.
      eapply S1; [reflexivity|exact He|reflexivity].
    - destruct (c_num_assets cfg =? 0)%N; [exact I|]. destruct (above _ _ _); [|apply S0; reflexivity]. cbn zeta. apply wp_bind, wp_lift. intros f _.
      destruct (_ || _); [apply S0; reflexivity|]. apply wp_bind, (add_out_size _ k k2 mx); [exact Hs|]. intros e n1 Hn1 He.
      cbn [push_extra gain with_bal put t_est] in Hn1. rewrite Hn in Hn1. injection Hn1 as <-.
      eapply S1; [reflexivity|exact He|reflexivity].
  Qed.

  Lemma select_extra mx k k2 s : sized est k k2 mx -> (mx < two64)%N -> (k + 2 * k2 <= Z.to_N (a / sc))%N ->
    fair_t ordc -> inv est sc cfg P h [] s (final h) -> t_changes s = ∅ -> t_sel s = [] -> tracked s ->
    wp True (select est enum sc above chk cfg addr outputs ordc [] (final h) s) (fun s' _ =>
      greedy s' /\ (needed (t_sel s') \/ spare s' /\ room mx 0 s')).
  Proof.
    intros Hs Hmx Hk Ho I0 C0 S0 T0. unfold select. cbn [fund_assets bind].
    assert (Keep : forall fuel s ut, t_changes s = ∅ ->
      wp True (main_until_balanced est enum cfg fuel s ut) (fun s' _ => t_changes s' = ∅)) by (intros; apply main_until_keeps; assumption).
    assert (Keep2 : forall l fuel empty i s ut, t_changes s = ∅ ->
      wp True (extra_inputs est enum sc chk cfg outputs fuel l empty i s ut) (fun s' _ => t_changes s' = ∅)) by (intros; apply extra_inputs_keeps; assumption).
    assert (And : forall {A} (p : st * res A) (Q R : st -> A -> Prop), wp True p Q -> wp True p R -> wp True p (fun s a => Q s a /\ R s a)).
    { intros A p Q R W1 W2. destruct p as [s0 [x| | |]]; cbn in *; auto. }
    apply wp_bind. eapply wp_mono; [apply And; [apply (main_until_needed _ s (final h) I0 T0 (or_introl S0))|apply Keep, C0]|].
    cbn beta zeta. intros s2 ut2 ((I2 & T2 & N2) & C2). rewrite orb_true_r. cbn [app]. rewrite Hmain.
    apply wp_bind. eapply wp_mono; [apply And; [apply (extra_spare mx k k2 (2 * k2) Hs Hmx Hk _ _ _ s2 ut2 I2 T2); tauto|apply Keep2, C2]|].
    cbn beta. intros s3 ut3 ((I3 & T3 & Ne3 & N3) & C3).
    cbn [length Nat.eqb andb head]. rewrite (bool_decide_eq_true_2 (Some MAIN = Some MAIN)) by reflexivity. rewrite orb_true_r.
    cbn [removelast return_excess bind]. apply wp_bind.
    eapply wp_mono; [apply (balance_excess_size True k k2 mx s3 Hs C3)|]. cbn beta. intros s4 [] ([E4 (n3 & n4 & A3 & A4 & Le4)] & C4).
    assert (Fin : forall s5, bigger k2 s4 s5 -> greedy s5 /\ (needed (t_sel s5) \/ spare s5 /\ room mx 0 s5)).
    { intros s5 [E5 (n4' & n5 & A4' & A5 & Le5)]. rewrite A4 in A4'. injection A4' as <-.
      destruct T3 as (_ & _ & G3). unfold greedy, spare in *. rewrite E5, E4. split; [exact G3|]. destruct N3 as [?|[Sp (n & An & Le)]]; [left; assumption|].
      right. split; [exact Sp|]. exists n5. split; [exact A5|]. rewrite A3 in An. injection An as <-. lia. }
    apply wp_bind. destruct C4 as [C4|[o C4]].
    - rewrite C4. assert (O0 : ordc ∅ = []).
      { assert (Q := Ho ∅). rewrite map_to_list_empty in Q. apply Permutation_nil_r in Q. exact Q. }
      rewrite O0. cbn [split_all wp]. apply Fin. split; [reflexivity|]. exists n4, n4. split; [exact A4|]. split; [exact A4|lia].
    - rewrite C4. assert (O1 : ordc {[c_main cfg := o]} = [(c_main cfg, o)]).
      { assert (Q := Ho {[c_main cfg := o]}). rewrite map_to_list_singleton in Q. apply Permutation_singleton_r in Q. exact Q. }
      rewrite O1. cbn [split_all]. apply wp_bind. eapply wp_mono; [apply (split_one_size True k k2 mx _ s4 _ _ Hs)|].
      cbn beta. intros s5 [] H5. apply Fin, H5.
  Qed.

  Lemma balance_excess_least L m s : (forall e o m', snd (e_min_value est e o) = Some m' -> m <= m') -> t_changes s = ∅ -> t_extra s = [] ->
    wp L (balance_excess est cfg addr s) (fun s' _ => t_extra s' = [] /\
      (t_changes s' = ∅ \/ exists o, t_changes s' = {[c_main cfg := o]} /\ o_assets o = [] /\ m <= o_value o)).
  Proof.
    intros Hm C0 X0. unfold balance_excess. apply wp_bind, current_balance_wp. intros f _.
    destruct (zbal_sub_value _ _); [split; auto|split; auto|]. apply wp_bind, wp_lift. intros ad _. rewrite C0, lookup_empty.
    apply wp_bind, min_value_wp. intros e m' He. assert (Hle' : m <= m').
    { apply (Hm (t_est s) (Uout ad v [] None)). rewrite He. reflexivity. }
    destruct (_ <? m'); [split; auto|]. apply wp_bind, wp_lift. intros g _.
    destruct (Z.ltb_spec v (m' + g)) as [?|Hle]; [split; auto|]. apply wp_bind, add_out_wp. intro e'. cbn [wp]. split; [exact X0|].
    right. eexists. split; [cbn [put pay with_bal with_est t_changes]; rewrite C0; apply insert_empty|]. cbn. split; [reflexivity|lia].
  Qed.
  Lemma split_one_least L ut s t o : o_assets o = [] -> t_extra s = [] ->
    wp L (split_one est sc above cfg ut s t o) (fun s' _ => t_changes s' = t_changes s /\ t_extra s' = [] \/
      (exists o', t_changes s' = <[t := o']> (t_changes s)) /\ exists o', t_extra s' = [o']).
  Proof.
    intros Oa X0. unfold split_one. destruct (get_balance_of ut t); [|left; auto]. rewrite Oa.
    destruct (bool_decide _); [|left; auto]. destruct (c_num cfg =? 0)%N; [exact I|]. apply wp_bind, wp_lift. intros f _. cbn zeta.
    destruct (_ || _); [left; auto|]. destruct (above _ _ _); [|left; auto]. apply add_out_wp. intro e. right. split.
    - eexists. reflexivity.
    - eexists. cbn [with_est push_extra gain with_bal put t_extra]. rewrite X0. reflexivity.
  Qed.

  Lemma select_least m s : (forall e o m', snd (e_min_value est e o) = Some m' -> m <= m') -> fair_t ordc -> inv est sc cfg P h [] s (final h) -> t_changes s = ∅ ->
    wp True (select est enum sc above chk cfg addr outputs ordc [] (final h) s) (fun s' _ =>
      t_changes s' = ∅ /\ t_extra s' = [] \/ (exists o, t_changes s' = {[c_main cfg := o]} /\ (t_extra s' = [] /\ m <= o_value o \/ exists o', t_extra s' = [o']))).
  Proof.
    intros Hm Ho I0 C0. unfold select. cbn [fund_assets bind].
    assert (Keep := main_until_keeps est enum cfg). assert (Keep2 := extra_inputs_keeps est enum sc chk cfg outputs).
    assert (And : forall {A} (p : st * res A) (Q R : st -> A -> Prop), wp True p Q -> wp True p R -> wp True p (fun s a => Q s a /\ R s a)).
    { intros A p Q R W1 W2. destruct p as [s0 [x| | |]]; cbn in *; auto. }
    assert (Xs : forall s ut t, t_extra s = [] -> match select_input_for est enum s ut t with (s', ROk _) | (s', RErr) => t_extra s' = [] | _ => True end).
    { intros s0 ut t X0. unfold select_input_for. destruct (List.find _ _); [|exact X0]. unfold add_in. destruct (e_add_in est _ _) as [e [|]]; cbn [bind]; [|exact X0].
      destruct (store_remove _ _) as [? [| |]]; [exact X0|exact X0|exact I]. }
    assert (Keep3 : forall fuel s ut, t_extra s = [] -> wp True (main_until_balanced est enum cfg fuel s ut) (fun s' _ => t_extra s' = [])).
    { induction fuel as [|fuel IH]; intros s0 ut H; cbn [main_until_balanced]; apply wp_bind, current_balance_wp; intros f _;
        destruct (in_debt _); cbn [wp]; auto. apply wp_bind. assert (X := Xs s0 ut (c_main cfg) H).
      destruct (select_input_for est enum s0 ut (c_main cfg)) as [s1 [u1| | |]]; cbn [wp]; auto. }
    assert (Keep4 : forall l fuel empty i s ut, t_extra s = [] -> wp True (extra_inputs est enum sc chk cfg outputs fuel l empty i s ut) (fun s' _ => t_extra s' = [])).
    { induction fuel as [|fuel IH]; intros empty i s0 ut H; cbn [extra_inputs]; apply wp_bind, remaining_wp; intro n;
        destruct (n =? 0)%N; cbn [wp]; auto. destruct (l !! i); [|exact I]. destruct (empty !! i) as [[|]|]; [| |exact I].
      - destruct (forallb id empty); [exact H|apply IH, H].
      - destruct (N.of_nat _ <=? c_num cfg)%N; [apply IH, H|]. assert (X := Xs s0 ut t H).
        destruct (select_input_for est enum s0 ut t) as [s1 [u1| | |]]; cbn [wp]; auto. }
    assert (X0 := k_extra _ _ _ _ (proj1 I0)).
    apply wp_bind. eapply wp_mono; [apply And; [apply Keep3, X0|apply Keep, C0]|].
    cbn beta zeta. intros s2 ut2 (X2 & C2). rewrite orb_true_r. cbn [app]. rewrite Hmain.
    apply wp_bind. eapply wp_mono; [apply And; [apply Keep4, X2|apply Keep2, C2]|].
    cbn beta. intros s3 ut3 (X3 & C3).
    cbn [length Nat.eqb andb head]. rewrite (bool_decide_eq_true_2 (Some MAIN = Some MAIN)) by reflexivity. rewrite orb_true_r.
    cbn [removelast return_excess bind]. apply wp_bind.
    eapply wp_mono; [apply (balance_excess_least True m s3 Hm C3 X3)|]. cbn beta. rewrite Hmain. intros s4 [] (X4 & C4).
    apply wp_bind. destruct C4 as [C4|[o (C4 & Oa & Hle)]].
    - rewrite C4. assert (O0 : ordc ∅ = []).
      { assert (Q := Ho ∅). rewrite map_to_list_empty in Q. apply Permutation_nil_r in Q. exact Q. }
      rewrite O0. cbn [split_all wp]. left. auto.
    - rewrite C4. assert (O1 : ordc {[MAIN := o]} = [(MAIN, o)]).
      { assert (Q := Ho {[MAIN := o]}). rewrite map_to_list_singleton in Q. apply Permutation_singleton_r in Q. exact Q. }
      rewrite O1. cbn [split_all]. apply wp_bind. eapply wp_mono; [apply (split_one_least True _ s4 _ _ Oa X4)|].
      cbn beta. intros s5 [] [[C5 X5]|[[o5 C5] X5]]; cbn [wp]; right.
      + exists o. rewrite C5, C4. auto.
      + exists o5. rewrite C5, C4. split; [apply insert_singleton|]. right. exact X5.
  Qed.
End Extra.
