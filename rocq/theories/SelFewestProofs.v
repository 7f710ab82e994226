(** Largest-first: the whole selection, its failures, and the number of inputs it uses. *)
From Coq Require Import ZArith Lia.
From stdpp Require Import gmap strings list sorting.
From Verif Require Import ValueModel BalanceModel BalanceProofs StoreModel StoreSpec StoreProofs
  SelModel SelSpec SelProofs SelLargestProofs.
Open Scope Z_scope.

Lemma debt_iff i o f : 0 <= o -> 0 <= f -> in_debt (main_balance_of i o f) = true <-> i < o + f.
Proof.
  intros Ho Hf. assert (M := main_balance_spec i o f Ho Hf).
  destruct (main_balance_of i o f); cbn [in_debt]; split; intros; try lia; try discriminate; reflexivity.
Qed.

Section Select.
  Context {E : Type} (est : estimator E) (enum : nat -> enumeration) (ord : torder asset).
  Hypothesis enum_fair : forall n, fair (enum n).
  Hypothesis ord_fair : fair_t ord.

  Lemma lf_select_spec h e su : Forall wf_op h -> Forall nonneg_in (unspent h) -> fees_nonneg est -> 0 <= su_out su ->
    match lf_select est enum ord (final h) e su with
    | (st', SDone (e', sel)) =>
        exists fee0, e_min_fee est e = Some fee0 /\
          st' = final (spend h (se_chosen sel)) /\
          se_chosen sel ++ unspent (spend h (se_chosen sel)) ≡ₚ unspent h /\
          charge est e (se_chosen sel) = Some (e', se_fee sel - fee0) /\
          se_in sel = su_in su + value_in (se_chosen sel) /\
          (forall t, amount t (se_in_assets sel) = amount t (su_in_assets su) + token_in t (se_chosen sel)) /\
          se_out sel = su_out su /\ se_out_assets sel = su_out_assets su /\
          se_fixed_in sel = su_fixed_in su /\ se_fixed_out sel = su_fixed_out su /\ se_changes sel = [] /\
          (forall t a, su_out_assets su !! t = Some a -> a_qty a <= amount t (se_in_assets sel)) /\
          su_out su + se_fee sel <= se_in sel
    | (st', SFail e') =>
        st' = final h /\
        (e_min_fee est e = None \/ refuses est e e' \/
         (exists t a, su_out_assets su !! t = Some a /\
            amount t (su_in_assets su) + token_in t (unspent h) < a_qty a) \/
         (exists order fee0 g, order ≡ₚ unspent h /\ e_min_fee est e = Some fee0 /\ charge est e order = Some (e', g) /\
            su_in su + value_in order < su_out su + fee0 + g))
    | (_, _) => False
    end.
  Proof.
    intros Hw Hnn Hest Hout. unfold lf_select.
    destruct (e_min_fee est e) as [fee0|] eqn:F; [|auto].
    assert (Hfee0 := proj1 (Hest e) fee0 F).
    assert (G0 := good_init est h e fee0 (su_in su) (su_in_assets su)).
    assert (T := tokens_spec est enum enum_fair h Hw e fee0 (su_in su) (su_in_assets su) Hnn (ord (su_out_assets su)) _ G0).
    assert (Hin : forall t a, (t, a) ∈ ord (su_out_assets su) <-> su_out_assets su !! t = Some a).
    { intros t a. rewrite (ord_fair (su_out_assets su)). apply elem_of_map_to_list. }
    destruct (lf_tokens est enum (ord (su_out_assets su)) _) as [s1|e1| |]; try contradiction.
    - destruct T as (G1 & _ & Hcov).
      assert (M := main_loop_spec est enum enum_fair h Hw e fee0 (su_in su) (su_in_assets su) (su_out su)
                     (S (store_len (l_utxos s1))) s1 G1 ltac:(lia)).
      destruct (lf_main_loop est enum _ (su_out su) s1) as [s2|e2| |]; try contradiction.
      + destruct M as [P D]. destruct (picks_good _ _ _ _ _ _ _ _ _ P) as (_ & G2 & k & Hk).
        assert (C := charge_nonneg est _ Hest _ _ _ (g_fee _ _ _ _ _ _ _ G2)).
        cbn [se_chosen se_fee se_in se_in_assets se_out se_out_assets se_fixed_in se_fixed_out se_changes].
        exists fee0. split; [reflexivity|].
        split; [apply (g_st _ _ _ _ _ _ _ G2)|]. split; [apply (g_perm _ _ _ _ _ _ _ G2)|].
        split; [apply (g_fee _ _ _ _ _ _ _ G2)|]. split; [apply (g_total _ _ _ _ _ _ _ G2)|].
        split; [apply (g_assets _ _ _ _ _ _ _ G2)|]. do 5 (split; [reflexivity|]). split.
        * intros t a L. assert (X := Hcov t a (proj2 (Hin t a) L)).
          rewrite (g_assets _ _ _ _ _ _ _ G1) in X. rewrite (g_assets _ _ _ _ _ _ _ G2), Hk, token_in_app.
          assert (0 <= token_in t k); [|lia]. apply token_in_nonneg, Forall_forall. intros u Hu.
          rewrite Forall_forall in Hnn. apply Hnn. rewrite <- (g_perm _ _ _ _ _ _ _ G2), Hk, !elem_of_app. auto.
        * apply not_true_iff_false in D. rewrite debt_iff in D by lia. lia.
      + split; [reflexivity|]. right. destruct M as [R|(s' & P & He & Hnil & D)]; [auto|]. right. right.
        destruct (picks_good _ _ _ _ _ _ _ _ _ P) as (_ & G2 & k & Hk).
        assert (C := charge_nonneg est _ Hest _ _ _ (g_fee _ _ _ _ _ _ _ G2)).
        exists (l_chosen s'), fee0, (l_fee s' - fee0). assert (Q := g_perm _ _ _ _ _ _ _ G2).
        rewrite Hnil, app_nil_r in Q. split; [exact Q|]. split; [reflexivity|].
        split; [rewrite <- He; apply (g_fee _ _ _ _ _ _ _ G2)|].
        rewrite debt_iff in D by lia. rewrite (g_total _ _ _ _ _ _ _ G2) in D. lia.
    - split; [reflexivity|]. right. destruct T as [R|(t & a & Hl & Hlt)]; [auto|]. right. left. exists t, a.
      split; [apply Hin, Hl|exact Hlt].
  Qed.
End Select.

(** ** the largest values dominate every choice of as many *)
Lemma pointwise_le (A B : list utxo) : length A = length B ->
  (forall x y, x ∈ A -> y ∈ B -> u_value x <= u_value y) -> value_in A <= value_in B.
Proof.
  revert B. induction A as [|a A IH]; intros [|b B] Hl H; [reflexivity|discriminate Hl|discriminate Hl|].
  unfold value_in, sumZ in *. cbn [map foldr]. injection Hl as Hl.
  assert (X := IH B Hl ltac:(intros; apply H; right; assumption)).
  assert (Y := H a b (elem_of_list_here _ _) (elem_of_list_here _ _)). lia.
Qed.

Lemma top_sum (c r S : list utxo) :
  (forall x y, x ∈ c -> y ∈ r -> u_value y <= u_value x) -> S ⊆+ c ++ r -> length S = length c ->
  value_in S <= value_in c.
Proof.
  intros Hd Hs Hl. apply submseteq_app_r in Hs as (S1 & S2 & HP & H1 & H2).
  apply submseteq_Permutation in H1 as [k Hk].
  rewrite (value_in_perm _ _ HP), (value_in_perm _ _ Hk), !value_in_app.
  assert (value_in S2 <= value_in k); [|lia]. apply pointwise_le.
  - rewrite HP, Hk, !app_length in Hl. lia.
  - intros x y Hx Hy. apply Hd; [rewrite Hk, elem_of_app; auto|].
    eapply elem_of_submseteq; eassumption.
Qed.

Section Fewest.
  Context {E : Type} (est : estimator E) (enum : nat -> enumeration) (ord : torder asset).
  Hypothesis enum_fair : forall n, fair (enum n).
  Hypothesis ord_fair : fair_t ord.
  Context (h : list store_op) (h_wf : Forall wf_op h) (e0 : E) (fee0 T0 out f : Z) (A0 : assets).
  Hypothesis (Hout : 0 <= out) (Hfee0 : 0 <= fee0) (Hf : 0 <= f).
  Hypothesis fixed_in : forall e u, e_fee_in est e u = Some f.
  Hypothesis add_ok : forall e u, snd (e_add_in est e u) = true.

  Lemma charge_fixed us : forall e, exists e', charge est e us = Some (e', f * Z.of_nat (length us)).
  Proof.
    induction us as [|u us IH]; intro e; cbn [charge].
    - exists e. f_equal. f_equal. cbn. lia.
    - rewrite fixed_in. assert (A := add_ok e u). destruct (e_add_in est e u) as [e' ok]. cbn in A. subst ok.
      destruct (IH e') as [e'' ->]. exists e''. f_equal. f_equal. cbn [length]. lia.
  Qed.

  Definition enough (c : list utxo) : Prop := out + fee0 + f * Z.of_nat (length c) <= T0 + value_in c.
  Definition dominates (c : list utxo) : Prop := exists r, c ++ r ≡ₚ unspent h /\
    forall x y, x ∈ c -> y ∈ r -> u_value y <= u_value x.

  Lemma dominates_best c S : dominates c -> S ⊆+ unspent h -> length S = length c -> ~ enough c -> ~ enough S.
  Proof.
    intros (r & HP & Hd) Hs Hl Hn He. apply Hn. unfold enough in *. rewrite <- HP in Hs.
    assert (X := top_sum c r S Hd Hs Hl). rewrite Hl in He. lia.
  Qed.

  Notation good := (good est h e0 fee0 T0 A0).
  Notation picks := (picks est h e0 fee0 T0 A0 out).

  Lemma good_debt s : good s -> in_debt (main_balance_of (l_total s) out (l_fee s)) = true <-> ~ enough (l_chosen s).
  Proof.
    intro G. destruct (charge_fixed (l_chosen s) e0) as [e' C]. rewrite (g_fee _ _ _ _ _ _ _ G) in C.
    injection C as _ C. rewrite debt_iff, (g_total _ _ _ _ _ _ _ G); [|exact Hout|].
    - unfold enough. replace (l_fee s) with (fee0 + f * Z.of_nat (length (l_chosen s))) by lia. lia.
    - replace (l_fee s) with (fee0 + f * Z.of_nat (length (l_chosen s))) by lia. nia.
  Qed.

  Lemma picks_prefixes s s' : picks s s' -> 
    (forall x y, x ∈ l_chosen s -> y ∈ unspent (spend h (l_chosen s)) -> u_value y <= u_value x) ->
    forall n, (length (l_chosen s) <= n)%nat -> (n <= length (l_chosen s'))%nat ->
      dominates (take n (l_chosen s')) /\ ((n < length (l_chosen s'))%nat -> ~ enough (take n (l_chosen s'))).
  Proof.
    induction 1 as [s G|s u s1 s2 G D Hu Hc Hmax P IH]; intros Hd n Hn1 Hn2.
    - replace n with (length (l_chosen s)) by lia. rewrite firstn_all. split; [|lia].
      exists (unspent (spend h (l_chosen s))). split; [apply (g_perm _ _ _ _ _ _ _ G)|exact Hd].
    - destruct (picks_good _ _ _ _ _ _ _ _ _ P) as (G1 & G2 & k & Hk).
      destruct (decide (n = length (l_chosen s))) as [->|Hne].
      + rewrite Hk, Hc, <- app_assoc, take_app. split.
        * exists (unspent (spend h (l_chosen s))). split; [apply (g_perm _ _ _ _ _ _ _ G)|exact Hd].
        * intros _. apply good_debt; assumption.
      + apply IH; [|rewrite Hc, app_length; cbn [length]; lia|exact Hn2].
        intros x y Hx Hy. rewrite Hc in Hx, Hy. rewrite spend_app in Hy.
        assert (Hy' : y ∈ unspent (spend h (l_chosen s))) by (rewrite <- (unspent_spend_one _ _ Hu); right; exact Hy).
        apply elem_of_app in Hx as [Hx|Hx]; [apply Hd; assumption|]. apply elem_of_list_singleton in Hx as ->.
        apply Hmax, Hy'.
  Qed.

  Lemma fewest_done s s' S : picks s s' -> l_chosen s = [] -> S ⊆+ unspent h -> enough S ->
    (length (l_chosen s') <= length S)%nat.
  Proof.
    intros P H0 Hs He. destruct (decide (length (l_chosen s') <= length S)%nat) as [|Hlt]; [assumption|exfalso].
    destruct (picks_prefixes s s' P) with (n := length S) as [Hd Hn].
    - rewrite H0. intros x y Hx. inversion Hx.
    - rewrite H0. cbn. lia.
    - lia.
    - eapply dominates_best; [exact Hd|exact Hs| |apply Hn; lia|exact He]. rewrite take_length. lia.
  Qed.
  Lemma fewest_fail s s' S : picks s s' -> l_chosen s = [] -> unspent (spend h (l_chosen s')) = [] ->
    in_debt (main_balance_of (l_total s') out (l_fee s')) = true -> S ⊆+ unspent h -> ~ enough S.
  Proof.
    intros P H0 Hnil D Hs. destruct (picks_good _ _ _ _ _ _ _ _ _ P) as (_ & G2 & _).
    assert (Q := g_perm _ _ _ _ _ _ _ G2). rewrite Hnil, app_nil_r in Q.
    assert (Hlen : (length S <= length (l_chosen s'))%nat) by (rewrite Q; apply submseteq_length, Hs).
    destruct (picks_prefixes s s' P) with (n := length S) as [Hd Hn].
    - rewrite H0. intros x y Hx. inversion Hx.
    - rewrite H0. cbn. lia.
    - exact Hlen.
    - eapply dominates_best; [exact Hd|exact Hs|rewrite take_length; lia|].
      destruct (decide (length S < length (l_chosen s'))%nat) as [Hlt|Hge]; [apply Hn, Hlt|].
      rewrite firstn_all2 by lia. apply good_debt; assumption.
  Qed.
End Fewest.

Lemma lf_fewest {E} (est : estimator E) enum ord h e su fee0 f :
  (forall n, fair (enum n)) -> fair_t ord -> Forall wf_op h -> 0 <= su_out su -> su_out_assets su = ∅ ->
  0 <= fee0 -> 0 <= f -> e_min_fee est e = Some fee0 ->
  (forall e u, e_fee_in est e u = Some f) -> (forall e u, snd (e_add_in est e u) = true) ->
  match snd (lf_select est enum ord (final h) e su) with
  | SDone (_, sel) => forall S, S ⊆+ unspent h ->
      su_out su + fee0 + f * Z.of_nat (length S) <= su_in su + value_in S -> (length (se_chosen sel) <= length S)%nat
  | SFail _ => forall S, S ⊆+ unspent h -> su_in su + value_in S < su_out su + fee0 + f * Z.of_nat (length S)
  | _ => False
  end.
Proof.
  intros He Ho Hw Hout Hnone Hfee0 Hf F Hin Hadd. unfold lf_select. rewrite F.
  assert (N : ord (su_out_assets su) = []).
  { assert (X := Ho (su_out_assets su)). rewrite Hnone, map_to_list_empty in X. rewrite Hnone. apply Permutation_nil_r, X. }
  rewrite N. cbn [lf_tokens].
  assert (G0 := good_init est h e fee0 (su_in su) (su_in_assets su)).
  assert (M := main_loop_spec est enum He h Hw e fee0 (su_in su) (su_in_assets su) (su_out su)
     (S (store_len (final h))) _ G0 ltac:(cbn [l_utxos]; lia)).
  cbn [l_utxos]. destruct (lf_main_loop est enum _ (su_out su) _) as [s2|e2| |]; try contradiction; cbn [snd].
  - destruct M as [P D]. intros S HS Hen. cbn [se_chosen].
    eapply (fewest_done est h e fee0 (su_in su) (su_out su) f (su_in_assets su)); eauto.
  - intros S HS. destruct M as [R|(s' & P & _ & Hnil & D)].
    + exfalso. destruct R as (c & e1 & g & u & _ & [[A _]|A]); [rewrite Hin in A; discriminate|].
      specialize (Hadd e1 u). rewrite A in Hadd. discriminate.
    + assert (X := fewest_fail est h e fee0 (su_in su) (su_out su) f (su_in_assets su) Hout Hfee0 Hf Hin Hadd _ s' S P
        eq_refl Hnil D HS). unfold enough in X. lia.
Qed.

(** ** the table of input totals stays filed under the tokens it describes *)
Section Filed.
  Context {E : Type} (est : estimator E) (enum : nat -> enumeration).

  Lemma charge_assets s u st' m' s' : lf_charge est s u st' m' = SDone s' -> l_assets s' = m'.
  Proof.
    unfold lf_charge. destruct (e_fee_in est (l_est s) u); [|discriminate].
    destruct (e_add_in est (l_est s) u) as [e' []]; [|discriminate]. intro H. injection H as <-. reflexivity.
  Qed.
  Lemma take_filed t s tb s' tb' : lf_take est enum t s tb = SDone (s', tb') -> filed (l_assets s) -> filed (l_assets s').
  Proof.
    unfold lf_take. destruct (largest_for enum (l_utxos s) t) as [[[u st']|]|]; try discriminate.
    rewrite lf_asset_fold. destruct (lf_charge est s u st' (add_assets (l_assets s) (u_assets u))) as [s1|e| |] eqn:C; try discriminate.
    intros H Hf. injection H as <- _. rewrite (charge_assets _ _ _ _ _ C). apply filed_add_assets, Hf.
  Qed.
  Lemma take_main_filed s s' : lf_take_main est enum s = SDone s' -> filed (l_assets s) -> filed (l_assets s').
  Proof.
    unfold lf_take_main. destruct (largest_for enum (l_utxos s) MAIN) as [[[u st']|]|]; try discriminate.
    intros C Hf. rewrite (charge_assets _ _ _ _ _ C). apply filed_add_assets, Hf.
  Qed.
  Lemma token_loop_filed fuel : forall t q s tb s', lf_token_loop est enum fuel t q s tb = SDone s' ->
    filed (l_assets s) -> filed (l_assets s').
  Proof.
    induction fuel as [|fuel IH]; intros t q s tb s'; cbn [lf_token_loop]; destruct (tb <? q); try discriminate.
    - intro H. injection H as <-. auto.
    - destruct (lf_take est enum t s tb) as [[s1 tb1]|e| |] eqn:T; try discriminate.
      intros H Hf. eapply IH; [exact H|]. eapply take_filed; eassumption.
    - intro H. injection H as <-. auto.
  Qed.
  Lemma main_loop_filed fuel out : forall s s', lf_main_loop est enum fuel out s = SDone s' ->
    filed (l_assets s) -> filed (l_assets s').
  Proof.
    induction fuel as [|fuel IH]; intros s s'; cbn [lf_main_loop]; destruct (in_debt _); try discriminate.
    - intro H. injection H as <-. auto.
    - destruct (lf_take_main est enum s) as [s1|e| |] eqn:T; try discriminate.
      intros H Hf. eapply IH; [exact H|]. eapply take_main_filed; eassumption.
    - intro H. injection H as <-. auto.
  Qed.
  Lemma tokens_filed l : forall s s', (forall t a, (t, a) ∈ l -> a_fp a = t) -> lf_tokens est enum l s = SDone s' ->
    filed (l_assets s) -> filed (l_assets s').
  Proof.
    induction l as [|[t a] l IH]; intros s s' Hl; cbn [lf_tokens].
    - intro H. injection H as <-. auto.
    - destruct (lf_token_loop _ _ _ _ _ _ _) as [s1|e| |] eqn:T; try discriminate. intros H Hf.
      eapply IH; [intros; apply Hl; right; assumption|exact H|]. eapply token_loop_filed; [exact T|]. cbn [l_assets].
      intros t' b. destruct (decide (t = t')) as [<-|n].
      + rewrite lookup_insert. intro X. injection X as <-. destruct (l_assets s !! t) as [d|] eqn:L; cbn.
        * exact (Hf _ _ L).
        * apply Hl. left.
      + rewrite lookup_insert_ne by exact n. apply Hf.
  Qed.
  Lemma lf_select_filed ord avail e su st' e' sel : fair_t ord -> filed (su_in_assets su) -> filed (su_out_assets su) ->
    lf_select est enum ord avail e su = (st', SDone (e', sel)) -> filed (se_in_assets sel).
  Proof.
    intros Ho Hi Hou. unfold lf_select. destruct (e_min_fee est e); [|discriminate].
    destruct (lf_tokens _ _ _ _) as [s1|e1| |] eqn:T; try discriminate.
    destruct (lf_main_loop _ _ _ _ _) as [s2|e2| |] eqn:M; try discriminate.
    intro H. injection H as _ _ <-. cbn [se_in_assets]. eapply main_loop_filed; [exact M|].
    eapply tokens_filed; [|exact T|exact Hi]. intros t a Hin. rewrite (Ho _) in Hin.
    apply elem_of_map_to_list in Hin. exact (Hou _ _ Hin).
  Qed.
End Filed.
