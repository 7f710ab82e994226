(** Proofs about the single change output. *)
From Coq Require Import ZArith Lia.
From stdpp Require Import gmap strings list.
From Verif Require Import ValueModel BalanceModel BalanceProofs StoreModel StoreSpec StoreProofs SelModel SelSpec SelProofs.
Open Scope Z_scope.

Lemma excess_assets_some ins (l : list (token * balance Z)) :
  (forall tb, tb ∈ l -> znormal tb.2) -> (forall tb, tb ∈ l -> 0 <= zsigned tb.2) ->
  (forall t x, (t, Excess x) ∈ l -> is_Some (ins !! t)) -> is_Some (excess_assets ins l).
Proof.
  induction l as [|[t b] l IH]; intros Hn Hp Hi; cbn [excess_assets]; [eauto|].
  assert (IH' : is_Some (excess_assets ins l)).
  { apply IH; [intros; apply Hn; right; assumption|intros; apply Hp; right; assumption|].
    intros t' x Hx. eapply Hi. right. exact Hx. }
  destruct b as [d| |x].
  - assert (A := Hn (t, Debt d) (elem_of_list_here _ _)). assert (B := Hp (t, Debt d) (elem_of_list_here _ _)).
    cbn in A, B. lia.
  - exact IH'.
  - destruct (Hi t x (elem_of_list_here _ _)) as [a ->]. destruct IH' as [k ->]. cbn. eauto.
Qed.

Lemma order_keys {A} (ord : torder A) m : fair_t ord -> NoDup (ord m).*1.
Proof. intro H. rewrite (H m). apply NoDup_fst_map_to_list. Qed.
Lemma order_in {A} (ord : torder A) m t b : fair_t ord -> (t, b) ∈ ord m <-> m !! t = Some b.
Proof. intro H. rewrite (H m). apply elem_of_map_to_list. Qed.

Definition change_ok (su : setup) (c : uout) : Prop :=
  (forall t, held t (o_assets c) = amount t (su_in_assets su) - amount t (su_out_assets su)) /\
  NoDup (map a_fp (o_assets c)) /\ Forall (fun a => 0 < a_qty a) (o_assets c) /\
  (forall a, a ∈ o_assets c ->
     exists b, su_in_assets su !! a_fp a = Some b /\ a_policy a = a_policy b /\ a_name a = a_name b).

Section Single.
  Context {E : Type} (est : estimator E).

  Lemma change_assets_spec ord (ordb : torder (balance Z)) su : fair_t ord -> fair_t ordb -> filed (su_in_assets su) ->
    nonneg_table (su_in_assets su) -> nonneg_table (su_out_assets su) ->
    match excess_assets (su_in_assets su) (ordb (asset_balances ord (su_in_assets su) (su_out_assets su))) with
    | Some k => (forall t, amount t (su_out_assets su) <= amount t (su_in_assets su)) /\
                forall addr v x, change_ok su (Uout addr v k x)
    | None => exists t, amount t (su_in_assets su) < amount t (su_out_assets su)
    end.
  Proof.
    intros Hf Hfb Hfi Hi Ho. set (m := asset_balances ord (su_in_assets su) (su_out_assets su)).
    assert (HN : all_normal m) by (apply asset_balances_normal; assumption).
    assert (HS : forall t, zsigned (bal_of m t) = amount t (su_in_assets su) - amount t (su_out_assets su))
      by (intro; apply asset_balances_signed; exact Hf).
    assert (Hnorm : forall tb : token * balance Z, tb ∈ ordb m -> znormal tb.2).
    { intros [t b] Hin. apply order_in in Hin; [|exact Hfb]. specialize (HN t). unfold bal_of in HN. rewrite Hin in HN. exact HN. }
    assert (Hval : forall t (b : balance Z), (t, b) ∈ ordb m -> zsigned b = amount t (su_in_assets su) - amount t (su_out_assets su)).
    { intros t b Hin. apply order_in in Hin; [|exact Hfb]. specialize (HS t). unfold bal_of in HS. rewrite Hin in HS. exact HS. }
    destruct (excess_assets (su_in_assets su) (ordb m)) as [k|] eqn:Ek.
    - destruct (excess_assets_spec (su_in_assets su) (ordb m) k Hfi (order_keys _ _ Hfb) Hnorm Ek) as (A & B & _ & D & F & G).
      split.
      + intro t. specialize (HS t). destruct (m !! t) as [b|] eqn:L.
        * assert (Hin : (t, b) ∈ ordb m) by (apply order_in; assumption). specialize (F _ Hin). cbn in F.
          rewrite (Hval t b Hin) in F. lia.
        * unfold bal_of in HS. rewrite L in HS. cbn in HS. lia.
      + intros addr v x. unfold change_ok. cbn [o_assets]. split; [|auto].
        intro t. rewrite (A t), (blisted_perm t _ _ (Hfb m)), blisted_table. apply HS.
    - destruct (decide (Exists (fun tb => zsigned tb.2 < 0) (ordb m))) as [Hex|Hno].
      + apply Exists_exists in Hex as ([t b] & Hin & Hlt). exists t. cbn in Hlt. rewrite (Hval t b Hin) in Hlt. lia.
      + exfalso. destruct (excess_assets_some (su_in_assets su) (ordb m)) as [k Hk].
        * exact Hnorm.
        * intros tb Hin. apply Znot_gt_le. intro H. apply Hno, Exists_exists. exists tb. split; [exact Hin|lia].
        * intros t x Hin. assert (V := Hval t _ Hin). assert (N := Hnorm _ Hin). cbn in V, N.
          destruct (su_in_assets su !! t) as [a|] eqn:L; [eauto|].
          unfold amount at 1 in V. rewrite L in V.
          assert (0 <= amount t (su_out_assets su))
            by (unfold amount; destruct (su_out_assets su !! t) eqn:L2; [exact (Ho _ _ L2)|lia]). lia.
        * rewrite Hk in Ek. discriminate.
  Qed.

  Lemma single_change_spec ord (ordb : torder (balance Z)) extra e su e' s : fair_t ord -> fair_t ordb -> filed (su_in_assets su) ->
    nonneg_table (su_in_assets su) -> nonneg_table (su_out_assets su) -> 0 <= su_out su -> fees_nonneg est ->
    single_change est ord ordb extra e su = SDone (e', s) ->
    exists addr f g c,
      su_change su = Some addr /\ e_min_fee est e = Some f /\
      e_fee_out est e (Uout addr (su_in su - su_out su - f) (o_assets c) extra) = Some g /\
      e_add_out est e c = (e', true) /\
      o_addr c = addr /\ o_extra c = extra /\ o_value c = su_in su - su_out su - f - g /\ change_ok su c /\
      su_out su + f <= su_in su /\ (forall t, amount t (su_out_assets su) <= amount t (su_in_assets su)) /\
      s = Selection (su_in su) (su_in_assets su) (su_out su + o_value c) (add_assets (su_out_assets su) (o_assets c))
                    (su_fixed_in su) (su_fixed_out su) [] [c] (f + g).
  Proof.
    intros Hf Hfb Hfi Hi Ho Hout Hest. unfold single_change.
    destruct (su_change su) as [addr|]; [|discriminate].
    assert (C := change_assets_spec ord ordb su Hf Hfb Hfi Hi Ho).
    destruct (excess_assets _ _) as [k|]; [|discriminate]. destruct C as [Hcov Hch].
    destruct (e_min_fee est e) as [f|] eqn:Fe; [|discriminate].
    assert (Hfee := proj1 (Hest e) f Fe). assert (M := main_balance_spec (su_in su) (su_out su) f Hout Hfee).
    assert (K : forall value, value = su_in su - su_out su - f -> 0 <= value ->
      match e_fee_out est e (Uout addr value k extra) with
      | Some g =>
          match e_add_out est e (Uout addr (value - g) k extra) with
          | (e', true) => SDone (e', Selection (su_in su) (su_in_assets su) (su_out su + (value - g))
                                               (add_assets (su_out_assets su) k) (su_fixed_in su) (su_fixed_out su) []
                                               [Uout addr (value - g) k extra] (f + g))
          | (e', false) => SFail e'
          end
      | None => SFail e
      end = SDone (e', s) ->
      exists addr0 f0 g c, Some addr = Some addr0 /\ Some f = Some f0 /\
      e_fee_out est e (Uout addr0 (su_in su - su_out su - f0) (o_assets c) extra) = Some g /\
      e_add_out est e c = (e', true) /\
      o_addr c = addr0 /\ o_extra c = extra /\ o_value c = su_in su - su_out su - f0 - g /\ change_ok su c /\
      su_out su + f0 <= su_in su /\ (forall t, amount t (su_out_assets su) <= amount t (su_in_assets su)) /\
      s = Selection (su_in su) (su_in_assets su) (su_out su + o_value c) (add_assets (su_out_assets su) (o_assets c))
                    (su_fixed_in su) (su_fixed_out su) [] [c] (f0 + g)).
    { intros v Hv Hv0. destruct (e_fee_out est e (Uout addr v k extra)) as [g|] eqn:G; [|discriminate].
      destruct (e_add_out est e (Uout addr (v - g) k extra)) as [e1 ok] eqn:A. destruct ok; [|discriminate].
      intro H. injection H as <- <-. exists addr, f, g, (Uout addr (v - g) k extra). cbn [o_assets o_addr o_extra o_value].
      rewrite <- Hv. do 7 (split; [first [reflexivity|assumption|lia]|]). split; [apply Hch|]. split; [lia|].
      split; [exact Hcov|reflexivity]. }
    destruct (main_balance_of (su_in su) (su_out su) f) as [d| |x]; cbn [o_value o_assets].
    - discriminate.
    - apply K; lia.
    - apply K; lia.
  Qed.

  (** it fails exactly when something needed is missing *)
  Lemma single_change_fails ord (ordb : torder (balance Z)) extra e su e' : fair_t ord -> fair_t ordb -> filed (su_in_assets su) ->
    nonneg_table (su_in_assets su) -> nonneg_table (su_out_assets su) -> 0 <= su_out su -> fees_nonneg est ->
    single_change est ord ordb extra e su = SFail e' ->
    su_change su = None \/ e_min_fee est e = None \/
    (exists t, amount t (su_in_assets su) < amount t (su_out_assets su)) \/
    (exists f, e_min_fee est e = Some f /\ su_in su < su_out su + f) \/
    (exists o, e_fee_out est e o = None) \/ (exists o, e_add_out est e o = (e', false)).
  Proof.
    intros Hf Hfb Hfi Hi Ho Hout Hest. unfold single_change.
    destruct (su_change su) as [addr|]; [|auto].
    assert (C := change_assets_spec ord ordb su Hf Hfb Hfi Hi Ho).
    destruct (excess_assets _ _) as [k|]; [|auto]. clear C.
    destruct (e_min_fee est e) as [f|] eqn:Fe; [|auto].
    assert (Hfee := proj1 (Hest e) f Fe). assert (M := main_balance_spec (su_in su) (su_out su) f Hout Hfee).
    assert (K : forall value,
      match e_fee_out est e (Uout addr value k extra) with
      | Some g =>
          match e_add_out est e (Uout addr (value - g) k extra) with
          | (e', true) => SDone (e', Selection (su_in su) (su_in_assets su) (su_out su + (value - g))
                                               (add_assets (su_out_assets su) k) (su_fixed_in su) (su_fixed_out su) []
                                               [Uout addr (value - g) k extra] (f + g))
          | (e', false) => SFail e'
          end
      | None => SFail e
      end = SFail e' ->
      (exists o, e_fee_out est e o = None) \/ (exists o, e_add_out est e o = (e', false))).
    { intros v. destruct (e_fee_out est e (Uout addr v k extra)) as [g|] eqn:G; [|eauto].
      destruct (e_add_out est e (Uout addr (v - g) k extra)) as [e1 ok] eqn:A. destruct ok; [discriminate|].
      intro H. injection H as <-. eauto. }
    destruct (main_balance_of (su_in su) (su_out su) f) as [d| |x]; cbn [o_value o_assets].
    - intros _. right. right. right. left. exists f. split; [reflexivity|lia].
    - intro H. apply K in H. auto.
    - intro H. apply K in H. auto.
  Qed.

  Lemma single_change_no_panic ord (ordb : torder (balance Z)) extra e su :
    single_change est ord ordb extra e su <> SPanic /\ single_change est ord ordb extra e su <> SLoop.
  Proof.
    unfold single_change. destruct (su_change su); [|split; discriminate].
    destruct (excess_assets _ _); [|split; discriminate]. destruct (e_min_fee est e); [|split; discriminate].
    destruct (main_balance_of _ _ _); [split; discriminate| |];
      (destruct (e_fee_out est e _); [|split; discriminate]); destruct (e_add_out est e _) as [? []]; split; discriminate.
  Qed.
End Single.
