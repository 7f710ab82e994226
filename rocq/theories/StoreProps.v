(** C08-C11: the UTxO store. *)
From stdpp Require Import gmap strings sorting list.
From Coq Require Import ZArith Lia.
From Verif Require Import StoreModel StoreSpec StoreProofs.
Open Scope Z_scope.

(** ** C08: contents *)
(** every history runs to its end without panicking, each operation succeeding or failing as the list
    of unspent outputs says, and a failing operation changes nothing *)
Theorem C08_results : forall h, snd (store_run store_new h) = spec_results [] h.
Proof. intro h. rewrite (proj1 (final_spec h)). reflexivity. Qed.

Theorem C08_failing_changes_nothing : forall h o, spec_ok (unspent h) o = OpErr ->
  store_step (fst (store_run store_new h)) o = (fst (store_run store_new h), OpErr).
Proof.
  intros h o H. destruct (weak_step _ _ o (proj2 (final_spec h))) as (st & r & E & _ & _ & Hr & Hs).
  unfold final in E. rewrite E. rewrite (spec_ok_map _ _ (NoDup_unspent h)) in H. rewrite <- Hr in H.
  rewrite H. unfold final in Hs. rewrite (Hs H). reflexivity.
Qed.

Theorem C08_contents : forall h (st := fst (store_run store_new h)),
  (forall p u, store_get st p = Some u <-> u ∈ unspent h /\ u_ptr u = p) /\
  (forall p, store_contains st p = true <-> exists u, u ∈ unspent h /\ u_ptr u = p) /\
  store_len st = length (unspent h) /\
  (store_is_empty st = true <-> unspent h = []) /\
  (forall enum, fair enum -> store_iter enum st ≡ₚ unspent h).
Proof.
  intros h st. destruct (w_main _ _ (proj2 (final_spec h))) as [Hs _ _]. fold st in Hs.
  change (final h) with st in Hs. assert (HN := NoDup_unspent h).
  unfold store_get, store_contains, store_len, store_is_empty, store_iter. rewrite Hs.
  assert (G : forall p u, as_map (unspent h) !! p = Some u <-> u ∈ unspent h /\ u_ptr u = p)
    by (intros; apply as_map_Some; exact HN).
  split; [exact G|]. split; [|split; [|split]].
  - intro p. rewrite bool_decide_eq_true. unfold is_Some. setoid_rewrite G. reflexivity.
  - apply size_as_map. exact HN.
  - rewrite size_as_map by exact HN. rewrite Nat.eqb_eq. destruct (unspent h); simpl; split; congruence.
  - intros enum Hf. rewrite (Hf _). apply as_map_list. exact HN.
Qed.

(** the unspent outputs, read back from the history: inserted by a successful insert and not removed since *)
Theorem C08_unspent_meaning : forall h u, u ∈ unspent h <->
  exists h1 h2, h = h1 ++ Insert u :: h2 /\ Remove (u_ptr u) ∉ h2 /\ ~ present (u_ptr u) (unspent h1).
Proof.
  assert (Hsnoc : forall h o, unspent (h ++ [o]) = spec_step (unspent h) o).
  { intros h o. unfold unspent. rewrite foldl_app. reflexivity. }
  intro h. induction h as [|o h IH] using rev_ind; intro u.
  - split; [intro H; inversion H|]. intros (h1 & h2 & E & _). destruct h1; discriminate.
  - rewrite Hsnoc. destruct o as [v|p]; simpl.
    + destruct (decide (present (u_ptr v) (unspent h))) as [Hp|Hp].
      * rewrite IH. split.
        -- intros (h1 & h2 & -> & Hr & Hn). exists h1, (h2 ++ [Insert v]). rewrite <- app_assoc. simpl.
           split; [reflexivity|]. split; [|exact Hn]. rewrite elem_of_app, elem_of_list_singleton.
           intros [?|?]; [contradiction|discriminate].
        -- intros (h1 & h2 & E & Hr & Hn). destruct h2 as [|o2 h2 _] using rev_ind.
           { apply app_inj_tail in E as [<- E]. injection E as ->. contradiction. }
           rewrite app_comm_cons, app_assoc in E. apply app_inj_tail in E as [-> <-].
           exists h1, h2. split; [reflexivity|]. split; [|exact Hn]. intro G. apply Hr, elem_of_app. auto.
      * rewrite elem_of_app, elem_of_list_singleton. split.
        -- intros [H|H].
           ++ apply IH in H as (h1 & h2 & -> & Hr & Hn). exists h1, (h2 ++ [Insert v]). rewrite <- app_assoc. simpl.
              split; [reflexivity|]. split; [|exact Hn]. rewrite elem_of_app, elem_of_list_singleton.
              intros [?|?]; [contradiction|discriminate].
           ++ subst u. exists h, []. split; [reflexivity|]. split; [intro G; inversion G|exact Hp].
        -- intros (h1 & h2 & E & Hr & Hn). destruct h2 as [|o2 h2 _] using rev_ind.
           { apply app_inj_tail in E as [<- E]. injection E as ->. auto. }
           rewrite app_comm_cons, app_assoc in E. apply app_inj_tail in E as [-> <-].
           left. apply IH. exists h1, h2. split; [reflexivity|]. split; [|exact Hn].
           intro G. apply Hr, elem_of_app. auto.
    + rewrite elem_of_list_filter, IH. split.
      * intros [Hne (h1 & h2 & -> & Hr & Hn)]. exists h1, (h2 ++ [Remove p]). rewrite <- app_assoc. simpl.
        split; [reflexivity|]. split; [|exact Hn]. rewrite elem_of_app, elem_of_list_singleton.
        intros [?|G]; [contradiction|]. injection G as G. congruence.
      * intros (h1 & h2 & E & Hr & Hn). destruct h2 as [|o2 h2 _] using rev_ind.
        { apply app_inj_tail in E as [_ E]. discriminate. }
        rewrite app_comm_cons, app_assoc in E. apply app_inj_tail in E as [-> <-].
        rewrite elem_of_app, elem_of_list_singleton in Hr. split; [intro G; rewrite G in Hr; tauto|].
        exists h1, h2. split; [reflexivity|]. split; [tauto|exact Hn].
Qed.

(** ** C09: balances *)
Theorem C09_main_balance : forall h,
  main_balance (fst (store_run store_new h)) = sumZ (map u_value (unspent h)).
Proof.
  intro h. destruct (w_main _ _ (proj2 (final_spec h))) as [_ Hb _]. unfold main_balance.
  change (fst (store_run store_new h)) with (final h). rewrite Hb. apply sumq_as_map, NoDup_unspent.
Qed.

Theorem C09_token_balance : forall h t, Forall wf_op h ->
  let st := fst (store_run store_new h) in
  get_balance_of st t = token_balance st t /\
  (get_balance_of st t = None <-> ~ exists u, u ∈ unspent h /\ holds t u) /\
  (forall b, get_balance_of st t = Some b -> b = sumZ (map (quantity t) (unspent h))).
Proof.
  intros h t Hwf st. destruct (final_strong h Hwf) as (HW & _ & Hby). change (final h) with st in *.
  assert (HN := NoDup_unspent h). destruct (Hby t) as [Hn Hs]. rewrite (holders_as_map t _ HN) in Hn, Hs.
  split; [reflexivity|]. unfold get_balance_of. split.
  - rewrite fmap_None, Hn, as_map_empty by (apply NoDup_filter_ptr; exact HN). split.
    + intros E (u & Hu & Hh). assert (u ∈ filter (holds t) (unspent h)) as G by (apply elem_of_list_filter; auto).
      rewrite E in G. inversion G.
    + intro H. destruct (filter (holds t) (unspent h)) as [|u l] eqn:E; [reflexivity|]. exfalso. apply H.
      exists u. assert (u ∈ filter (holds t) (unspent h)) as G by (rewrite E; left).
      apply elem_of_list_filter in G as [? ?]. auto.
  - intros b E. apply fmap_Some in E as (s & E & ->). destruct (Hs s E) as [_ [_ Hb _]]. rewrite Hb.
    rewrite sumq_as_map by (apply NoDup_filter_ptr; exact HN).
    clear. induction (unspent h) as [|u l IH]; [reflexivity|]. rewrite filter_cons.
    destruct (decide (holds t u)) as [Hh|Hh]; unfold sumZ in *; simpl; rewrite IH; [reflexivity|].
    assert (quantity t u = 0) as ->; [|reflexivity]. unfold quantity. unfold holds in Hh.
    destruct (decide (t = MAIN)); [tauto|]. rewrite filter_fp_nil by tauto. reflexivity.
Qed.

(** an output listing a token twice: its removal subtracts the first quantity twice *)
Definition dup_utxo : utxo :=
  Utxo ("tx", 0%N) "addr" 10 [Asset "p" "n" "tok" 3; Asset "p" "n" "tok" 5] "".
Definition other_utxo : utxo := Utxo ("tx", 1%N) "addr" 10 [Asset "p" "n" "tok" 7] "".
Theorem C09_repeated_token_refuted : exists h t b,
  get_balance_of (fst (store_run store_new h)) t = Some b /\ b <> sumZ (map (quantity t) (unspent h)).
Proof.
  exists [Insert other_utxo; Insert dup_utxo; Remove ("tx", 0%N)], "tok", 12.
  vm_compute. split; [reflexivity|discriminate].
Qed.

Definition ex_h : list store_op :=
  [Insert other_utxo; Insert (Utxo ("tx", 2%N) "a" 4 [Asset "p" "n" "tok" 2; Asset "q" "m" "tik" 9] "");
   Insert other_utxo; Remove ("tx", 9%N); Insert (Utxo ("tx", 3%N) "a" 5 [] ""); Remove ("tx", 3%N)].
Example C09_example : Forall wf_op ex_h /\
  get_balance_of (fst (store_run store_new ex_h)) "tok" = Some 9 /\
  get_balance_of (fst (store_run store_new ex_h)) "tik" = Some 9 /\
  main_balance (fst (store_run store_new ex_h)) = 14 /\
  snd (store_run store_new ex_h) = [OpOk; OpOk; OpErr; OpErr; OpOk; OpOk] /\
  length (unspent ex_h) = 2%nat.
Proof.
  split; [|vm_compute; auto].
  repeat constructor; simpl; unfold wf_utxo; apply (bool_decide_unpack _); vm_compute; exact I.
Qed.

(** ** C10: listings *)
Theorem C10_listings : forall h t enum, Forall wf_op h -> fair enum ->
  let st := fst (store_run store_new h) in
  let held := filter (holds t) (unspent h) in
  iter_token enum st t ≡ₚ held /\
  iter_token_ordered_by_value enum st t ≡ₚ held /\
  iter_token_ordered_by_value_rev enum st t ≡ₚ held /\
  StronglySorted (fun a b => quantity t a <= quantity t b) (iter_token_ordered_by_value enum st t) /\
  StronglySorted (fun a b => quantity t a >= quantity t b) (iter_token_ordered_by_value_rev enum st t) /\
  number_utxos_for_token st t = length held /\
  (contains_token st t = true <-> t = MAIN \/ held <> []).
Proof.
  intros h t enum Hwf Hf st held. destruct (final_strong h Hwf) as (HW & _ & Hby). change (final h) with st in *.
  assert (HN := NoDup_unspent h). destruct (Hby t) as [Hn Hs]. rewrite (holders_as_map t _ HN) in Hn, Hs.
  fold held in Hn, Hs. assert (HN' := NoDup_filter_ptr t _ HN). fold held in HN'.
  unfold iter_token, iter_token_ordered_by_value, iter_token_ordered_by_value_rev, number_utxos_for_token, contains_token.
  rewrite (w_tok _ _ HW). rewrite (as_map_empty _ HN') in Hn.
  destruct (st_by st !! t) as [s|] eqn:E.
  - destruct (Hs s eq_refl) as [_ Hok].
    split; [|split; [|split; [|split; [|split; [|split]]]]].
    + rewrite (so_set _ _ _ Hok), (Hf _). apply as_map_list. exact HN'.
    + rewrite (ordered_perm enum _ _ _ Hf Hok). apply as_map_list. exact HN'.
    + rewrite (ordered_rev_perm enum _ _ _ Hf Hok). apply as_map_list. exact HN'.
    + eapply ordered_sorted; eauto.
    + eapply ordered_rev_sorted; eauto.
    + rewrite (so_set _ _ _ Hok). apply size_as_map. exact HN'.
    + rewrite orb_true_iff, !bool_decide_eq_true. split.
      * intros _. right. intro G. apply Hn in G. discriminate.
      * intros _. right. eauto.
  - rewrite (proj1 Hn eq_refl). do 6 (split; [constructor|]). rewrite orb_true_iff, !bool_decide_eq_true.
    split; [intros [?|[? ?]]; [auto|discriminate]|intros [?|?]; [auto|congruence]].
Qed.

Theorem C10_main_listing : forall h enum, fair enum ->
  let st := fst (store_run store_new h) in
  iter_ordered_by_wmain enum st ≡ₚ unspent h /\
  StronglySorted (fun a b => u_value a <= u_value b) (iter_ordered_by_wmain enum st).
Proof.
  intros h enum Hf st. assert (Hok := w_main _ _ (proj2 (final_spec h))). change (final h) with st in Hok.
  unfold iter_ordered_by_wmain. split.
  - rewrite (ordered_perm enum _ _ _ Hf Hok). apply as_map_list, NoDup_unspent.
  - eapply ordered_sorted; eauto.
Qed.

(** with a token listed twice, the reverse listing is not sorted by the quantity of the token *)
Theorem C10_repeated_token_refuted : exists h t enum, fair enum /\
  ~ Permutation (iter_token_ordered_by_value enum (fst (store_run store_new h)) t)
                (filter (holds t) (unspent h)).
Proof.
  exists [Insert dup_utxo], "tok", map_to_list. split; [intro m; reflexivity|].
  intro H. apply Permutation_length in H. vm_compute in H. discriminate.
Qed.

Example C10_example : fair map_to_list /\
  map u_ptr (iter_token_ordered_by_value map_to_list (fst (store_run store_new ex_h)) "tok") = [("tx", 2%N); ("tx", 1%N)] /\
  map u_ptr (iter_token_ordered_by_value_rev map_to_list (fst (store_run store_new ex_h)) "tok") = [("tx", 1%N); ("tx", 2%N)].
Proof. split; [intro m; reflexivity|]. vm_compute. auto. Qed.

(** ** C11: history independence *)
Theorem C11_same_unspent_same_store : forall h1 h2, Forall wf_op h1 -> Forall wf_op h2 ->
  unspent h1 ≡ₚ unspent h2 ->
  let st1 := fst (store_run store_new h1) in
  let st2 := fst (store_run store_new h2) in
  (forall p, store_get st1 p = store_get st2 p) /\
  (forall p, store_contains st1 p = store_contains st2 p) /\
  store_len st1 = store_len st2 /\ store_is_empty st1 = store_is_empty st2 /\
  main_balance st1 = main_balance st2 /\
  (forall t, get_balance_of st1 t = get_balance_of st2 t) /\
  (forall t, token_balance st1 t = token_balance st2 t) /\
  (forall t, number_utxos_for_token st1 t = number_utxos_for_token st2 t) /\
  (forall t, contains_token st1 t = contains_token st2 t) /\
  (forall enum, store_iter enum st1 = store_iter enum st2) /\
  (forall enum, iter_ordered_by_wmain enum st1 = iter_ordered_by_wmain enum st2) /\
  (forall enum t, iter_token enum st1 t = iter_token enum st2 t) /\
  (forall enum t, iter_token_ordered_by_value enum st1 t = iter_token_ordered_by_value enum st2 t) /\
  (forall enum t, iter_token_ordered_by_value_rev enum st1 t = iter_token_ordered_by_value_rev enum st2 t).
Proof.
  intros h1 h2 W1 W2 HP st1 st2.
  assert (E : as_map (unspent h1) = as_map (unspent h2)) by (apply as_map_perm; [apply NoDup_unspent|exact HP]).
  destruct (final_strong h1 W1) as (HW1 & _ & B1), (final_strong h2 W2) as (HW2 & _ & B2).
  rewrite <- E in HW2, B2. change (final h1) with st1 in *. change (final h2) with st2 in *.
  assert (E1 : st_utxos st1 = st_utxos st2).
  { eapply set_ok_unique; [apply (w_main _ _ HW1)|apply (w_main _ _ HW2)|].
    rewrite (w_tok _ _ HW1), (w_tok _ _ HW2). reflexivity. }
  assert (E2 : forall t, st_by st1 !! t = st_by st2 !! t).
  { intro t. destruct (B1 t) as [N1 S1], (B2 t) as [N2 S2].
    destruct (st_by st1 !! t) as [s1|] eqn:L1, (st_by st2 !! t) as [s2|] eqn:L2; [|exfalso..|reflexivity].
    - destruct (S1 s1 eq_refl) as [T1 K1], (S2 s2 eq_refl) as [T2 K2]. f_equal. eapply set_ok_unique; eauto. congruence.
    - assert (Some s1 = None) by (apply N1, N2; reflexivity). discriminate.
    - assert (Some s2 = None) by (apply N2, N1; reflexivity). discriminate. }
  unfold store_get, store_contains, store_len, store_is_empty, main_balance, get_balance_of, token_balance,
    number_utxos_for_token, contains_token, store_iter, iter_ordered_by_wmain, iter_token, iter_token_ordered_by_value,
    iter_token_ordered_by_value_rev.
  rewrite E1. repeat split; intros; try reflexivity; rewrite E2; reflexivity.
Qed.

(** an insert undone by a remove leaves the same unspent outputs, so by the theorem above the same answers *)
Theorem C11_insert_remove : forall h u, ~ present (u_ptr u) (unspent h) ->
  unspent (h ++ [Insert u; Remove (u_ptr u)]) = unspent h.
Proof.
  intros h u H. unfold unspent in *. rewrite foldl_app. simpl.
  destruct (decide _) as [?|_]; [contradiction|]. rewrite filter_app, filter_cons.
  destruct (decide (u_ptr u <> u_ptr u)); [congruence|]. rewrite app_nil_r.
  revert H. generalize (foldl spec_step [] h). intro l. induction l as [|a l IH]; intro H; [reflexivity|].
  rewrite filter_cons. destruct (decide (u_ptr a <> u_ptr u)) as [_|Hq].
  - f_equal. apply IH. intro G. apply H. right. exact G.
  - exfalso. apply H. left. destruct (decide (u_ptr a = u_ptr u)); [assumption|contradiction].
Qed.

(** the asset dictionary, however, remembers: it keeps the first registration of a fingerprint, also after
    the last output with it is removed *)
Theorem C11_dictionary_first_registration : forall h t,
  get_asset_ids (fst (store_run store_new h)) t =
  (fun a => (a_policy a, a_name a)) <$>
    List.find (fun a => bool_decide (a_fp a = t))
      (flat_map (fun x => match x with (Insert u, OpOk) => u_assets u | _ => [] end)
                (combine h (snd (store_run store_new h)))).
Proof.
  assert (Hf : forall t l d, foldl dict_add d l !! t =
     match d !! t with Some x => Some x
     | None => (fun a => (a_policy a, a_name a)) <$> List.find (fun a => bool_decide (a_fp a = t)) l end).
  { intros t l. induction l as [|a l IH]; intro d; simpl; [destruct (d !! t); reflexivity|].
    rewrite IH. unfold dict_add. destruct (d !! a_fp a) as [x|] eqn:E.
    - case_bool_decide as C; [|reflexivity]. subst t. rewrite E. reflexivity.
    - case_bool_decide as C.
      + subst t. rewrite lookup_insert, E. reflexivity.
      + rewrite lookup_insert_ne by exact C. reflexivity. }
  intros h t. unfold get_asset_ids. rewrite C08_results. unfold final.
  assert (G : forall h l st, NoDup (map u_ptr l) -> weak (as_map l) st ->
    st_dict (fst (store_run st h)) !! t =
     match st_dict st !! t with Some x => Some x | None =>
      (fun a => (a_policy a, a_name a)) <$>
        List.find (fun a => bool_decide (a_fp a = t))
          (flat_map (fun x => match x with (Insert u, OpOk) => u_assets u | _ => [] end)
                (combine h (spec_results l h))) end).
  { clear h. induction h as [|o h IH]; intros l st HN HW.
    { simpl. destruct (st_dict st !! t); reflexivity. }
    cbn [store_run spec_results combine flat_map].
    destruct (weak_step (as_map l) st o HW) as (st1 & r & E & Hp & HW1 & Hr & Herr).
    destruct (spec_step_map l o HN) as [HN1 E1]. rewrite <- E1 in HW1.
    specialize (IH _ _ HN1 HW1). destruct (store_run_spec h _ _ HN1 HW1) as (st2 & E2 & _). rewrite E.
    assert (Hd : r = OpOk \/ r = OpErr) by (destruct r; auto; congruence).
    rewrite E2 in IH |- *. cbn [fst] in IH.
    replace (fst (match r with OpPanic => (st1, [OpPanic]) | _ => (st2, r :: spec_results (spec_step l o) h) end)) with st2
      by (destruct r; [reflexivity|reflexivity|congruence]).
    rewrite IH. clear IH E2 Hp. destruct o as [u|p]; cbn [store_step] in E.
    - unfold store_insert in E. rewrite (so_set _ _ _ (w_main _ _ HW)) in E. cbn [spec_ok].
      destruct (decide (present (u_ptr u) l)) as [P|P].
      + destruct (as_map l !! u_ptr u) eqn:L.
        * injection E as <- <-. reflexivity.
        * apply as_map_None in L. contradiction.
      + rewrite (proj2 (as_map_None _ _) P) in E. injection E as <- <-. cbn [st_dict]. rewrite Hf.
        destruct (st_dict st !! t); [reflexivity|]. 
        clear. induction (u_assets u) as [|a l0 IH]; simpl; [reflexivity|].
        case_bool_decide; [reflexivity|exact IH].
    - unfold store_remove in E. destruct (remove_from_main (st_utxos st) p) as [[u m]|].
      + destruct (foldl _ _ _); injection E as <- <-; reflexivity.
      + injection E as <- <-. reflexivity. }
  rewrite (G h [] store_new); [reflexivity|constructor|apply weak_new].
Qed.

Example C11_example :
  let h1 := [Insert other_utxo; Insert (Utxo ("tx", 3%N) "a" 5 [] "")] in
  let h2 := [Insert (Utxo ("tx", 3%N) "a" 5 [] ""); Insert (Utxo ("tx", 4%N) "a" 6 [] ""); Insert other_utxo; Remove ("tx", 4%N)] in
  unspent h1 ≡ₚ unspent h2 /\ h1 <> h2 /\ Forall wf_op h1 /\ Forall wf_op h2.
Proof.
  simpl. split; [vm_compute; apply Permutation_swap|]. split; [discriminate|].
  split; repeat constructor; simpl; unfold wf_utxo; apply (bool_decide_unpack _); vm_compute; exact I.
Qed.

(** one traversal for all theorems of this file: what the tuple assumes is what any of them assumes *)
Definition all_StoreProps := (@C08_results, @C08_failing_changes_nothing, @C08_contents, @C08_unspent_meaning, @C09_main_balance, @C09_token_balance, @C09_repeated_token_refuted, @C10_listings, @C10_main_listing, @C10_repeated_token_refuted, @C11_same_unspent_same_store, @C11_insert_remove, @C11_dictionary_first_registration).
Print Assumptions all_StoreProps.
