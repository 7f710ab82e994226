(** Proofs about the shape of the thermostat's change outputs, and about the inputs it adds beyond need. *)
From Coq Require Import ZArith Lia.
From stdpp Require Import gmap strings list.
From Verif Require Import ValueModel BalanceModel BalanceProofs StoreModel StoreSpec StoreProofs StoreProps SelModel SelSpec SelProofs SelLargestProofs ThermoModel ThermoProofs ThermoRunProofs.
Open Scope Z_scope.

Lemma remove_dict ut p : st_dict (fst (store_remove ut p)) = st_dict ut.
Proof.
  unfold store_remove. destruct (remove_from_main (st_utxos ut) p) as [[u m]|]; [|reflexivity].
  destruct (foldl _ _ _); reflexivity.
Qed.

Lemma some_plus (m : balances) x q : exists t, is_Some (bal_plus m x q !! t).
Proof. exists x. unfold bal_plus. rewrite lookup_insert. eauto. Qed.
Lemma some_minus (m : balances) x q : exists t, is_Some (bal_minus m x q !! t).
Proof. exists x. unfold bal_minus. rewrite lookup_insert. eauto. Qed.
Lemma some_foldl l : forall (m : balances), (exists t, is_Some (m !! t)) ->
  exists t, is_Some (foldl (fun m a => bal_plus m (a_fp a) (a_qty a)) m l !! t).
Proof. induction l as [|a l IH]; intros m H; [exact H|]. cbn [foldl]. apply IH, some_plus. Qed.

Section Shape.
  Context {E : Type} (est : estimator E) (enum : nat -> enumeration) (sc : Z) (above : Z -> Z -> N -> bool) (chk : bool)
          (cfg : tconfig) (addr : option string) (outputs : list uout) (d : gmap token (string * string)) (keys : list token).
  Notation st := (thermo E).
  Context (Hsc : 0 < sc) (Hfees : fees_nonneg est).

  Definition one_token (t : token) (o : uout) : Prop :=
    exists p n q, d !! t = Some (p, n) /\ o_assets o = [Asset p n t q] /\ o_value o <= c_max cfg.
  Definition mine (o : uout) : Prop := addr = Some (o_addr o) /\ o_extra o = None.
  Definition neat (s : st) : Prop :=
    (forall t o, t_changes s !! t = Some o -> mine o /\ (t = c_main cfg /\ o_assets o = [] \/ t <> c_main cfg /\ one_token t o)) /\
    Forall (fun o => mine o /\ (o_assets o = [] \/ exists t, t <> c_main cfg /\ one_token t o)) (t_extra s).
  Definition tidy (s : st) (ut : store) : Prop := neat s /\ st_dict ut = d /\ (keys = [] \/ exists t, is_Some (t_abal s !! t)).

  Lemma neat_same s s' : t_changes s' = t_changes s -> t_extra s' = t_extra s -> neat s -> neat s'.
  Proof. intros A B. unfold neat. rewrite A, B. exact id. Qed.
  Lemma neat_put s s' t o : t_changes s' = <[t := o]> (t_changes s) -> t_extra s' = t_extra s -> neat s ->
    mine o -> (t = c_main cfg /\ o_assets o = [] \/ t <> c_main cfg /\ one_token t o) -> neat s'.
  Proof.
    intros A B [N1 N2] Hm Ho. split; [|rewrite B; exact N2]. intros t' o'. rewrite A. destruct (decide (t = t')) as [<-|Hne].
    - rewrite lookup_insert. intro Q; injection Q as <-. auto.
    - rewrite lookup_insert_ne by exact Hne. apply N1.
  Qed.

  Lemma select_input_for_neat s ut t : tidy s ut ->
    match select_input_for est enum s ut t with
    | (s', ROk ut') => tidy s' ut'
    | (s', RErr) => tidy s' ut
    | _ => True
    end.
  Proof.
    intros (N & D & K). unfold select_input_for. destruct (List.find _ _) as [u|]; [|split; auto].
    unfold add_in. destruct (e_add_in est _ _) as [e [|]]; cbn [bind]; [|split; auto].
    assert (K' : keys = [] \/ exists t, is_Some (t_abal (add_input (with_est s e) u) !! t)).
    { destruct K as [?|K]; [left; assumption|right]. cbn [add_input t_abal]. apply some_foldl, K. }
    assert (R := remove_dict ut (u_ptr u)). destruct (store_remove ut (u_ptr u)) as [ut' [| |]]; [|split; auto|exact I].
    split; [exact N|]. split; [cbn [fst] in R; congruence|exact K'].
  Qed.
  Lemma until_balanced_neat t : forall fuel s ut, tidy s ut ->
    wp True (until_balanced est enum chk fuel s ut t) (fun s' ut' => tidy s' ut').
  Proof.
    induction fuel as [|fuel IH]; intros s ut H; cbn [until_balanced]; apply wp_bind, current_balance_of_wp;
      intros b Hb; destruct (in_debt b); cbn [wp]; auto.
    apply wp_bind. assert (X := select_input_for_neat s ut t H).
    destruct (select_input_for est enum s ut t) as [s' [ut'| | |]]; cbn [wp]; auto.
  Qed.
  Lemma main_until_balanced_neat : forall fuel s ut, tidy s ut ->
    wp True (main_until_balanced est enum cfg fuel s ut) (fun s' ut' => tidy s' ut').
  Proof.
    induction fuel as [|fuel IH]; intros s ut H; cbn [main_until_balanced]; apply wp_bind, current_balance_wp;
      intros b Hb; destruct (in_debt _); cbn [wp]; auto.
    apply wp_bind. assert (X := select_input_for_neat s ut (c_main cfg) H).
    destruct (select_input_for est enum s ut (c_main cfg)) as [s' [ut'| | |]]; cbn [wp]; auto.
  Qed.
  Lemma extra_inputs_neat l : forall fuel empty i s ut, tidy s ut ->
    wp True (extra_inputs est enum sc chk cfg outputs fuel l empty i s ut) (fun s' ut' => tidy s' ut').
  Proof.
    induction fuel as [|fuel IH]; intros empty i s ut H; cbn [extra_inputs]; apply wp_bind, remaining_wp; intro n;
      destruct (n =? 0)%N; cbn [wp]; auto.
    destruct (l !! i) as [t|]; [|exact I]. destruct (empty !! i) as [[|]|]; [| |exact I].
    - destruct (forallb id empty); [exact H|apply IH, H].
    - destruct (N.of_nat _ <=? c_num cfg)%N; [apply IH, H|]. assert (X := select_input_for_neat s ut t H).
      destruct (select_input_for est enum s ut t) as [s1 [ut1| | |]] eqn:S1; cbn [wp]; auto.
  Qed.

  Lemma change_entry_neat L s a t w : neat s -> addr = Some a ->
    wp L (change_entry est s a t w) (fun s' o => t_changes s' = t_changes s /\ t_extra s' = t_extra s /\ mine o /\
      o_assets o = match t_changes s !! t with Some x => o_assets x | None => [] end).
  Proof.
    intros [N1 N2] Ha. unfold change_entry. destruct (t_changes s !! t) as [x|] eqn:C.
    - cbn. split; [reflexivity|]. split; [reflexivity|]. split; [|reflexivity]. exact (proj1 (N1 _ _ C)).
    - apply wp_bind, min_value_wp. intros e m _.
      destruct (w <? m); apply wp_bind, wp_lift; intros f _; destruct (_ <? m + f); apply wp_bind, add_out_wp; intro e';
        cbn [wp]; (split; [reflexivity|]); (split; [reflexivity|]); (split; [split; [exact Ha|reflexivity]|reflexivity]).
  Qed.

  Lemma balance_excess_of_neat L s ut t : tidy s ut -> t <> c_main cfg ->
    wp L (balance_excess_of est chk cfg addr s ut t) (fun s' _ => tidy s' ut).
  Proof.
    intros (N & D & K) Hne. unfold balance_excess_of. apply wp_bind, current_balance_of_wp. intros b _. destruct b as [| |excess]; [exact (conj N (conj D K))|exact (conj N (conj D K))|].
    apply wp_bind, wp_lift. intros a Ha. apply wp_bind, current_balance_wp. intros f _. cbn zeta. apply wp_bind.
    eapply wp_mono; [apply change_entry_neat; [exact N|exact Ha]|]. cbn beta. intros s' o (A & B & M & O).
    destruct (credit _ _ _ _) as [o'|] eqn:Cr; [|exact I]. cbn [wp]. split; [|split; [exact D|right]]; cycle 1.
    { unfold clamp. destruct (_ <? _); [apply some_minus|]. destruct (_ <? _); apply some_minus. }
    assert (Co : mine o' /\ exists p n q, d !! t = Some (p, n) /\ o_assets o' = [Asset p n t q]).
    { unfold credit in Cr. destruct (o_assets o) as [|x l] eqn:Oa.
      - destruct (get_asset_ids ut t) as [[p n]|] eqn:G; [|discriminate]. injection Cr as <-. split; [exact M|].
        exists p, n, excess. unfold get_asset_ids in G. rewrite D in G. auto.
      - injection Cr as <-. split; [exact M|]. destruct (t_changes s !! t) as [x0|] eqn:C; [|discriminate].
        destruct (proj1 N _ _ C) as [_ [[? _]|[_ (p & n & q & Q1 & Q2 & _)]]]; [congruence|].
        rewrite Q2 in O. injection O as -> ->. exists p, n, (q + excess). cbn. auto. }
    destruct Co as [Mo (p & n & q & Q1 & Q2)].
    unfold clamp. destruct (Z.ltb_spec (o_value o') (c_min cfg)) as [_|_]; [|destruct (Z.ltb_spec (c_max cfg) (o_value o')) as [_|Hle]];
      (eapply neat_put; [cbn; rewrite A; reflexivity|exact B|exact N|exact Mo|right; split; [exact Hne|exists p, n, q; cbn; split; [exact Q1|split; [exact Q2|]]]]); lia.
  Qed.
  Lemma fund_assets_neat : forall l s ut, c_main cfg ∉ l -> tidy s ut ->
    wp True (fund_assets est enum chk cfg addr l s ut) (fun s' ut' => tidy s' ut').
  Proof.
    induction l as [|t l IH]; intros s ut Hn H; [exact H|]. apply not_elem_of_cons in Hn as [Hn1 Hn2]. cbn [fund_assets].
    apply wp_bind. eapply wp_mono; [apply until_balanced_neat, H|]. cbn beta. intros s1 ut1 H1.
    apply wp_bind. eapply wp_mono; [apply balance_excess_of_neat; [exact H1|congruence]|]. cbn beta. intros s2 [] H2. apply IH; auto.
  Qed.
  Lemma return_excess_neat L : forall l s ut, c_main cfg ∉ l -> tidy s ut ->
    wp L (return_excess est chk cfg addr l s ut) (fun s' _ => tidy s' ut).
  Proof.
    induction l as [|t l IH]; intros s ut Hn H; [exact H|]. apply not_elem_of_cons in Hn as [Hn1 Hn2]. cbn [return_excess].
    apply wp_bind. eapply wp_mono; [apply balance_excess_of_neat; [exact H|congruence]|]. cbn beta. intros s2 [] H2. apply IH; auto.
  Qed.
  Lemma balance_excess_neat L s : neat s -> wp L (balance_excess est cfg addr s) (fun s' _ => neat s').
  Proof.
    intro N. unfold balance_excess. apply wp_bind, current_balance_wp. intros f _.
    destruct (zbal_sub_value _ _); [exact N|exact N|]. apply wp_bind, wp_lift. intros ad Ha.
    destruct (t_changes s !! c_main cfg) as [o|] eqn:C.
    - destruct (proj1 N _ _ C) as [M [[_ Q]|[? _]]]; [|congruence]. cbn [wp].
      eapply neat_put; [reflexivity|reflexivity|exact N|exact M|left; split; [reflexivity|exact Q]].
    - apply wp_bind, min_value_wp. intros e m _. destruct (_ <? m); [exact N|]. apply wp_bind, wp_lift. intros g _.
      destruct (_ <? m + g); [exact N|]. apply wp_bind, add_out_wp. intro e'. cbn [wp].
      eapply neat_put; [reflexivity|reflexivity|exact N|split; [exact Ha|reflexivity]|left; split; reflexivity].
  Qed.

  Lemma half_low v : 0 <= half sc v.
  Proof. unfold half. destruct (Z.ltb_spec v (2 * sc)) as [?|H]; [lia|]. apply Z.mul_nonneg_nonneg; [apply Z.div_pos; lia|lia]. Qed.
  Lemma half_high v : 0 < half sc v -> half sc v <= v.
  Proof.
    unfold half. destruct (Z.ltb_spec v (2 * sc)) as [?|H]; [lia|]. intros _.
    assert (Q := Z.mul_div_le v (2 * sc) ltac:(lia)). assert (0 <= v / (2 * sc)) by (apply Z.div_pos; lia). nia.
  Qed.

  Lemma split_one_neat L ut s t o : neat s -> t_changes s !! t = Some o ->
    wp L (split_one est sc above cfg ut s t o) (fun s' _ => neat s').
  Proof.
    intros N Ho. destruct (proj1 N _ _ Ho) as [Mo Co]. unfold split_one. destruct (get_balance_of ut t) as [total|]; [|exact N].
    destruct (o_assets o) as [|x l] eqn:Oa.
    - destruct (bool_decide _) eqn:Bt; [|exact N]. apply bool_decide_eq_true in Bt. destruct (c_num cfg =? 0)%N; [exact I|].
      apply wp_bind, wp_lift. intros f Hf. cbn zeta. destruct (_ || _); [exact N|]. destruct (above _ _ _); [|exact N].
      apply add_out_wp. intro e.
      match goal with |- neat (with_est (push_extra ?S0 ?o2) ?e) => set (o1 := o2); set (s0 := S0) end.
      assert (N1 : neat s0).
      { eapply neat_put; [reflexivity|reflexivity|exact N|exact Mo|left; split; [exact Bt|reflexivity]]. }
      split; [exact (proj1 N1)|]. cbn [with_est push_extra t_extra]. apply Forall_app. split; [exact (proj2 N1)|].
      constructor; [|constructor]. split; [exact Mo|left; reflexivity].
    - destruct Co as [[_ ?]|[Ht (p & n & q & D & Oq & Hv)]]; [congruence|]. rewrite Oa in Oq. injection Oq as -> ->.
      destruct (c_num_assets cfg =? 0)%N; [exact I|]. destruct (above _ _ _); [|exact N]. cbn zeta. cbn [a_policy a_name a_fp a_qty].
      assert (Put : forall (s1 s2 : st) v q', t_changes s2 = <[t := Uout (o_addr o) v [Asset p n t q'] (o_extra o)]> (t_changes s1) ->
        t_extra s2 = t_extra s1 -> neat s1 -> v <= c_max cfg -> neat s2).
      { intros s1 s2 v q' A B N1 Hle. eapply neat_put; [exact A|exact B|exact N1|exact Mo|]. right. split; [exact Ht|].
        exists p, n, q'. cbn. auto. }
      assert (N0 : forall q', neat (put s t (Uout (o_addr o) (o_value o) [Asset p n t q'] (o_extra o)))).
      { intro q'. eapply Put; [reflexivity|reflexivity|exact N|exact Hv]. }
      apply wp_bind, wp_lift. intros f Hf. destruct (_ || _) eqn:G; [apply N0|]. apply orb_false_elim in G as [G1 G2].
      apply Z.leb_gt in G1, G2. assert (H1 := half_low f). assert (H2 := half_high (o_value o) ltac:(lia)).
      assert (0 <= f) by (apply (proj2 (proj2 (Hfees _))) in Hf; exact Hf).
      apply wp_bind, add_out_wp. intro e. cbn [wp].
      match goal with |- neat (push_extra (with_est ?S0 ?e) ?o2) => set (o1 := o2); set (s0 := S0) end.
      assert (N1 : neat s0).
      { eapply Put; [reflexivity|reflexivity|apply N0|]. lia. }
      split; [exact (proj1 N1)|]. cbn [with_est push_extra t_extra]. apply Forall_app. split; [exact (proj2 N1)|].
      constructor; [|constructor]. split; [exact Mo|right]. exists t. split; [exact Ht|]. exists p, n. eexists. cbn. split; [exact D|]. split; [reflexivity|]. lia.
  Qed.
  Lemma split_all_neat ut : forall l s, NoDup (map fst l) -> (forall t o, (t, o) ∈ l -> t_changes s !! t = Some o) -> neat s ->
    wp True (split_all est sc above cfg ut l s) (fun s' _ => neat s').
  Proof.
    induction l as [|[t o] l IH]; intros s HN Hl M; [exact M|].
    cbn [split_all map fst] in *. apply NoDup_cons in HN as [Hnot HN].
    assert (Ho := Hl t o ltac:(left)). apply wp_bind.
    assert (W1 := split_one_neat True ut s t o M Ho).
    assert (W2 := split_one_changes est sc above cfg True ut s t o Ho).
    destruct (split_one est sc above cfg ut s t o) as [s1 [[]| | |]]; cbn [wp] in *; auto.
    destruct W2 as [o1 C1]. apply (IH s1 HN); [|exact W1].
    intros t' o' Hin. assert (P1 := Hl t' o' ltac:(right; exact Hin)).
    rewrite C1, lookup_insert_ne; [exact P1|]. intros ->. apply Hnot, elem_of_list_fmap. exists (t', o'). auto.
  Qed.

  Lemma select_neat ordc avail s : fair_t ordc -> c_main cfg ∉ keys -> tidy s avail ->
    wp True (select est enum sc above chk cfg addr outputs ordc keys avail s) (fun s' _ => neat s').
  Proof.
    intros Ho Hk H. unfold select. apply wp_bind. eapply wp_mono; [apply fund_assets_neat; [exact Hk|exact H]|]. cbn beta. intros s1 ut1 H1.
    apply wp_bind. eapply wp_mono; [apply main_until_balanced_neat, H1|]. cbn beta. intros s2 ut2 H2. cbn zeta.
    match goal with |- context [extra_fuel ?X _] => set (l := X) end.
    assert (Hl : keys = [] /\ l = [c_main cfg] \/ l = keys).
    { unfold l. destruct H2 as (_ & _ & [->|[t Ht]]); [left; split; [reflexivity|rewrite orb_true_r; reflexivity]|].
      destruct keys as [|k ks]; [left; split; [reflexivity|rewrite orb_true_r; reflexivity]|right].
      destruct (Nat.eqb_spec (size (t_abal s2)) 0) as [Em|Em]; [|reflexivity].
      apply map_size_empty_iff in Em. rewrite Em, lookup_empty in Ht. destruct Ht; discriminate. }
    apply wp_bind. eapply wp_mono; [apply extra_inputs_neat, H2|]. cbn beta. intros s3 ut3 H3.
    match goal with |- context [return_excess _ _ _ _ ?X] => set (l' := X) end.
    assert (Hl' : c_main cfg ∉ l').
    { unfold l'. destruct Hl as [[_ ->]| -> ].
      - cbn [length Nat.eqb andb head]. rewrite (bool_decide_eq_true_2 (Some _ = Some _)) by reflexivity. rewrite orb_true_r. apply not_elem_of_nil.
      - destruct (_ || _); [|exact Hk]. intro Q. apply Hk. clear -Q. induction keys as [|k ks IH]; [exact Q|].
        destruct ks as [|k2 ks]; [inversion Q|]. change (removelast (k :: k2 :: ks)) with (k :: removelast (k2 :: ks)) in Q.
        apply elem_of_cons in Q as [->|Q]; [left|right; apply IH, Q]. }
    apply wp_bind. eapply wp_mono; [apply return_excess_neat; [exact Hl'|exact H3]|]. cbn beta. intros s4 [] H4.
    apply wp_bind. eapply wp_mono; [apply balance_excess_neat, H4|]. cbn beta. intros s5 [] H5.
    apply wp_bind. eapply wp_mono; [apply (split_all_neat _ (ordc (t_changes s5)) s5); [| |exact H5]|].
    - rewrite (Permutation_map fst (Ho _)). apply NoDup_fst_map_to_list.
    - intros t o Hin. rewrite (Ho _), elem_of_map_to_list in Hin. exact Hin.
    - cbn beta. intros s6 [] H6. exact H6.
  Qed.
End Shape.
