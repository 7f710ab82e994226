(** Proofs that the thermostat does not panic when the store knows the tokens and the sizes are in range. *)
From Coq Require Import ZArith Lia.
From stdpp Require Import gmap strings list.
From Verif Require Import ValueModel BalanceModel BalanceProofs StoreModel StoreSpec StoreProofs StoreProps SelModel SelSpec SelProofs SelLargestProofs ThermoModel ThermoProofs ThermoRunProofs.
Open Scope Z_scope.

(** running a method that does not panic: what holds of the value, if it returns one *)
Definition np {S A} (p : S * res A) (Q : S -> A -> Prop) : Prop :=
  match p with (s, ROk a) => Q s a | (_, RPanic) => False | _ => True end.
Lemma np_bind {S A B} (p : S * res A) (f : S -> A -> S * res B) Q : np p (fun s a => np (f s a) Q) -> np (bind p f) Q.
Proof. destruct p as [s [a| | |]]; exact id. Qed.
Lemma np_mono {S A} (p : S * res A) (Q R : S -> A -> Prop) : np p Q -> (forall s a, Q s a -> R s a) -> np p R.
Proof. intros H HQ. destruct p as [s [a| | |]]; cbn in *; auto. Qed.
Lemma np_wp {S A} L (p : S * res A) (Q R : S -> A -> Prop) : np p Q -> wp L p R -> np p (fun s a => Q s a /\ R s a).
Proof. intros H W. destruct p as [s [a| | |]]; cbn in *; auto. Qed.
Lemma np_lift {E A} (s : thermo E) (o : option A) (Q : thermo E -> A -> Prop) : (forall a, o = Some a -> Q s a) -> np (lift s o) Q.
Proof. intro H. destruct o; cbn; auto. Qed.

(** ** the dictionary *)
Lemma dict_fold_keep t l : forall d, is_Some (d !! t) -> is_Some (foldl dict_add d l !! t).
Proof.
  induction l as [|a l IH]; intros d H; [exact H|]. cbn [foldl]. apply IH. unfold dict_add.
  destruct (d !! a_fp a) eqn:L; [exact H|]. destruct (decide (a_fp a = t)) as [->|n]; [rewrite lookup_insert; eauto|].
  rewrite lookup_insert_ne by exact n. exact H.
Qed.
Lemma dict_fold_new a l : forall d, a ∈ l -> is_Some (foldl dict_add d l !! a_fp a).
Proof.
  induction l as [|x l IH]; intros d H; [inversion H|]. cbn [foldl]. apply elem_of_cons in H as [->|H]; [|apply IH, H].
  apply dict_fold_keep. unfold dict_add. destruct (d !! a_fp x) eqn:L; [eauto|]. rewrite lookup_insert. eauto.
Qed.
Lemma dict_step t st o : is_Some (get_asset_ids st t) -> is_Some (get_asset_ids (fst (store_step st o)) t).
Proof.
  unfold get_asset_ids. intro H. destruct o as [u|p]; cbn [store_step].
  - unfold store_insert. destruct (s_set (st_utxos st) !! u_ptr u); [exact H|]. cbn [fst st_dict]. apply dict_fold_keep, H.
  - unfold store_remove. destruct (remove_from_main _ _) as [[u m]|]; [|exact H]. destruct (foldl _ _ _); exact H.
Qed.
Lemma dict_spend t h us : is_Some (get_asset_ids (final h) t) -> is_Some (get_asset_ids (final (spend h us)) t).
Proof.
  intro H. unfold spend. induction (map (fun u => Remove (u_ptr u)) us) as [|o l IH] using rev_ind; [rewrite app_nil_r; exact H|].
  rewrite app_assoc, final_snoc. apply dict_step, IH.
Qed.
Lemma dict_unspent h : forall u a, u ∈ unspent h -> a ∈ u_assets u -> is_Some (get_asset_ids (final h) (a_fp a)).
Proof.
  induction h as [|o h IH] using rev_ind; intros u a Hu Ha; [inversion Hu|]. rewrite final_snoc.
  unfold unspent in Hu. rewrite foldl_app in Hu. cbn [foldl] in Hu. fold (unspent h) in Hu.
  destruct o as [w|p]; cbn [spec_step] in Hu.
  - destruct (decide (present (u_ptr w) (unspent h))) as [Pr|Pr]; [apply dict_step; eapply IH; eassumption|].
    apply elem_of_app in Hu as [Hu|Hu]; [apply dict_step; eapply IH; eassumption|]. apply elem_of_list_singleton in Hu as ->.
    cbn [store_step]. unfold store_insert. destruct (final_spec h) as [_ W]. rewrite (so_set _ _ _ (w_main _ _ W)).
    rewrite (proj2 (as_map_None _ _) Pr). cbn [fst]. unfold get_asset_ids. cbn [st_dict]. apply dict_fold_new, Ha.
  - apply elem_of_list_filter in Hu as [_ Hu]. apply dict_step. eapply IH; eassumption.
Qed.

Section NoPanic.
  Context {E : Type} (est : estimator E) (enum : nat -> enumeration) (sc : Z) (above : Z -> Z -> N -> bool) (chk : bool)
          (cfg : tconfig) (addr : option string) (outputs : list uout) (ordc : torder uout).
  Notation st := (thermo E).
  Context (P : Prop) (h : list store_op) (K : list token).
  Context (Hfair : forall n, fair (enum n)) (Hwf : Forall wf_op h) (Hmain : c_main cfg = MAIN).
  Context (HN : NoDup K) (HK : MAIN ∉ K).
  Notation inv := (inv est sc cfg P h K).
  Context (Hsc : 0 < sc).
  (** an input costs a whole unit; the room kept for changes can be computed *)
  Context (Hin : forall e u f, e_fee_in est e u = Some f -> sc <= f).
  Context (Hroom : chk = true -> forall e o f, e_fee_out est e o = Some f -> f / sc * Z.of_nat (length K) * 2 < Z.of_N two64).
  Context (Hnum : c_num cfg <> 0%N) (Hnuma : c_num_assets cfg <> 0%N).

  (** the store can name every token there is an excess of *)
  Definition known (s : st) (ut : store) : Prop := forall t x, t_abal s !! t = Some (Excess x) -> is_Some (get_asset_ids ut t).

  Lemma size_keys s ut : inv s ut -> size (t_abal s) = length K.
  Proof.
    intros [[_ _ C _ _] _]. rewrite <- size_dom. rewrite <- (size_list_to_set (C := gset token) K HN). f_equal.
    apply set_eq. intro t. rewrite elem_of_dom, C, elem_of_list_to_set. reflexivity.
  Qed.

  Lemma usize_mul_np x y : chk = false \/ (x * y < two64)%N -> exists z, usize_mul chk x y = Some z /\ (chk = true -> z = x * y)%N.
  Proof.
    intro H. unfold usize_mul. destruct (N.ltb_spec (x * y) two64) as [L|L]; [eauto|].
    destruct H as [->|H]; [|lia]. eexists. split; [reflexivity|discriminate].
  Qed.

  Lemma remaining_np s ut : inv s ut -> np (remaining est sc chk outputs s) (fun s' _ => s' = s).
  Proof.
    intro H. unfold remaining. destruct outputs as [|o os]; [exact I|]. destruct (t_sel s) as [|u us]; [exact I|].
    apply np_bind, np_lift. intros fo Hfo. apply np_bind, np_lift. intros so Hso. apply np_bind, np_lift. intros fi Hfi.
    apply np_bind, np_lift. intros si Hsi. rewrite (size_keys s ut H).
    assert (Hs : chk = true -> (so * N.of_nat (length K) * 2 < two64)%N).
    { intro Hc. specialize (Hroom Hc _ _ _ Hfo). unfold to_usize in Hso. destruct (Z.ltb_spec fo 0) as [?|Hp]; [discriminate|].
      destruct (_ <? _); [|discriminate]. injection Hso as <-. assert (0 <= fo / sc) by (apply Z.div_pos; lia). lia. }
    destruct (usize_mul_np so (N.of_nat (length K))) as (r1 & -> & E1).
    { destruct chk; [right; specialize (Hs eq_refl); lia|left; reflexivity]. }
    destruct (usize_mul_np r1 2) as (r2 & -> & _).
    { destruct chk; [right; rewrite E1 by reflexivity; apply Hs; reflexivity|left; reflexivity]. }
    do 2 (apply np_bind, np_lift; intros ? _). destruct (N.eqb_spec si 0) as [->|_]; [|reflexivity].
    exfalso. specialize (Hin _ _ _ Hfi). unfold to_usize in Hsi. destruct (fi <? 0); [discriminate|]. destruct (_ <? _); [|discriminate].
    injection Hsi as Hsi. assert (1 <= fi / sc) by (apply Z.div_le_lower_bound; lia). lia.
  Qed.

  Lemma select_input_np s ut t : inv s ut -> known s ut -> t = MAIN \/ t ∈ K ->
    match select_input_for est enum s ut t with
    | (s', ROk ut') => inv s' ut' /\ known s' ut'
    | (s', RErr) => inv s' ut /\ known s' ut
    | _ => False
    end.
  Proof.
    intros H Kn Ht. assert (X := select_input_for_cases est enum sc cfg P h K Hfair Hwf s ut t H Ht).
    destruct (select_input_for est enum s ut t) as [s1 [ut1| | |]] eqn:Se; try contradiction.
    - destruct X as [I1 _ _ _]. split; [exact I1|]. revert Se. unfold select_input_for.
      destruct H as [[A B C D X0] G]. subst ut.
      assert (Hw2 : Forall wf_op (spend h (t_sel s))) by (apply spend_wf, Hwf).
      destruct (List.find _ _) as [u|] eqn:Fu; [|discriminate]. apply find_some in Fu as [Hi Ho]. apply elem_of_list_In in Hi.
      destruct (C10_listings (spend h (t_sel s)) t (enum (store_len (final (spend h (t_sel s))))) Hw2 (Hfair _)) as (_ & _ & Pm & _).
      change (fst (store_run store_new (spend h (t_sel s)))) with (final (spend h (t_sel s))) in Pm.
      rewrite Pm in Hi. apply elem_of_list_filter in Hi as [_ Hu]. assert (Wu := unspent_wf _ Hw2 _ Hu).
      unfold add_in. destruct (e_add_in est (t_est s) u) as [e [|]]; cbn [bind]; [|discriminate].
      rewrite (remove_present _ _ Hu). intro Q; injection Q as <- <-.
      intros t' x Ht'. apply (dict_spend t' (spend h (t_sel s)) [u]). cbn [add_input with_est t_abal] in Ht'.
      destruct (only_spec t u Ho Wu) as [Ea|(a & Ea & Et & _)]; rewrite Ea in Ht'; cbn [foldl] in Ht'; [exact (Kn _ _ Ht')|].
      unfold bal_plus in Ht'. destruct (decide (a_fp a = t')) as [<-|n].
      + apply (dict_unspent _ u a Hu). rewrite Ea. left.
      + rewrite lookup_insert_ne in Ht' by exact n. exact (Kn _ _ Ht').
    - destruct X as [e ->]. split; [apply inv_est, H|exact Kn].
  Qed.

  Lemma current_balance_of_np s ut t : inv s ut -> t ∈ K -> np (current_balance_of chk s t) (fun s' b => s' = s /\ t_abal s !! t = Some b).
  Proof.
    intros H Ht. unfold current_balance_of. rewrite bool_decide_eq_false_2 by (intros ->; exact (HK Ht)). rewrite andb_false_r.
    destruct (proj2 (k_keys _ _ _ _ (proj1 H) t) Ht) as [b Hb]. rewrite Hb. cbn. auto.
  Qed.

  Lemma until_balanced_np t : t ∈ K -> forall fuel s ut, inv s ut -> known s ut ->
    np (until_balanced est enum chk fuel s ut t) (fun s' ut' => inv s' ut' /\ known s' ut').
  Proof.
    intro Ht. induction fuel as [|fuel IH]; intros s ut H Kn; cbn [until_balanced]; apply np_bind;
      (eapply np_mono; [apply (current_balance_of_np s ut t H Ht)|]); cbn beta; intros s' b [-> _]; destruct (in_debt b); cbn [np]; auto.
    assert (X := select_input_np s ut t H Kn (or_intror Ht)). apply np_bind.
    destruct (select_input_for est enum s ut t) as [s1 [ut1| | |]]; cbn [np]; try contradiction; auto. destruct X. apply IH; assumption.
  Qed.
  Lemma main_until_np : forall fuel s ut, inv s ut -> known s ut ->
    np (main_until_balanced est enum cfg fuel s ut) (fun s' ut' => inv s' ut' /\ known s' ut').
  Proof.
    induction fuel as [|fuel IH]; intros s ut H Kn; cbn [main_until_balanced]; unfold current_balance; apply np_bind, np_bind, np_lift;
      intros f _; cbn [np]; destruct (in_debt _); cbn [np]; auto.
    rewrite Hmain. assert (X := select_input_np s ut MAIN H Kn (or_introl eq_refl)). apply np_bind.
    destruct (select_input_for est enum s ut MAIN) as [s1 [ut1| | |]]; cbn [np]; try contradiction; auto. destruct X. apply IH; assumption.
  Qed.

  Lemma add_out_np s o (Q : st -> unit -> Prop) : (forall e, Q (with_est s e) tt) -> np (add_out est s o) Q.
  Proof. intro H. unfold add_out. destruct (e_add_out est (t_est s) o) as [e [|]]; cbn; auto. Qed.
  Lemma min_value_np s o (Q : st -> Z -> Prop) : (forall e m, Q (with_est s e) m) -> np (min_value est s o) Q.
  Proof. intro H. unfold min_value. destruct (e_min_value est (t_est s) o) as [e [m|]]; cbn; auto. Qed.
  Lemma change_entry_np s ad t w : np (change_entry est s ad t w) (fun s' _ => t_abal s' = t_abal s).
  Proof.
    unfold change_entry. destruct (t_changes s !! t); [reflexivity|]. apply np_bind, min_value_np. intros e m. cbn zeta.
    destruct (w <? m); apply np_bind, np_lift; intros f _; destruct (_ <? _); apply np_bind, add_out_np; intro e'; reflexivity.
  Qed.

  Lemma balance_excess_of_np s ut t : inv s ut -> known s ut -> t ∈ K ->
    np (balance_excess_of est chk cfg addr s ut t) (fun s' _ => inv s' ut /\ known s' ut).
  Proof.
    intros H Kn Ht.
    assert (W := balance_excess_of_run est sc chk cfg addr P h K True s ut t H).
    enough (N : np (balance_excess_of est chk cfg addr s ut t) (fun s' _ => known s' ut)).
    { eapply np_mono; [apply (np_wp _ _ _ _ N W)|]. cbn beta. intros s' [] (A & B & _). auto. }
    unfold balance_excess_of. apply np_bind. eapply np_mono; [apply (current_balance_of_np s ut t H Ht)|]. cbn beta. intros s' b [-> Hb].
    destruct b as [d| |x]; [exact Kn|exact Kn|]. apply np_bind, np_lift. intros ad _.
    unfold current_balance. apply np_bind, np_bind, np_lift. intros f _. cbn [np]. cbn zeta. apply np_bind.
    eapply np_mono; [apply change_entry_np|]. cbn beta. intros s1 o Ab.
    assert (Cr : is_Some (credit ut t x o)).
    { unfold credit. destruct (o_assets o); [|eauto]. destruct (Kn t x Hb) as [[p n] ->]. eauto. }
    destruct Cr as [o' ->]. cbn [np].
    assert (Q : forall s2 : st, t_abal s2 = bal_minus (t_abal s1) t x -> known s2 ut).
    { intros s2 E2 t' y Hy. rewrite E2, Ab in Hy. unfold bal_minus in Hy. destruct (decide (t = t')) as [<-|n]; [exact (Kn _ _ Hb)|].
      rewrite lookup_insert_ne in Hy by exact n. exact (Kn _ _ Hy). }
    apply Q. unfold clamp. destruct (_ <? _); [reflexivity|]. destruct (_ <? _); reflexivity.
  Qed.
  Lemma return_excess_np : forall l s ut, (forall t, t ∈ l -> t ∈ K) -> inv s ut -> known s ut ->
    np (return_excess est chk cfg addr l s ut) (fun s' _ => inv s' ut /\ known s' ut).
  Proof.
    induction l as [|t l IH]; intros s ut Hl H Kn; [cbn; auto|]. cbn [return_excess]. apply np_bind.
    eapply np_mono; [apply (balance_excess_of_np s ut t H Kn); apply Hl; left|]. cbn beta. intros s1 [] [A B].
    apply IH; auto. intros t' Ht'. apply Hl. right. exact Ht'.
  Qed.
  Lemma fund_assets_np : forall l s ut, (forall t, t ∈ l -> t ∈ K) -> inv s ut -> known s ut ->
    np (fund_assets est enum chk cfg addr l s ut) (fun s' ut' => inv s' ut' /\ known s' ut').
  Proof.
    induction l as [|t l IH]; intros s ut Hl H Kn; [cbn; auto|]. cbn [fund_assets].
    assert (Ht : t ∈ K) by (apply Hl; left). apply np_bind. eapply np_mono; [apply (until_balanced_np t Ht _ s ut H Kn)|].
    cbn beta. intros s1 ut1 [A B]. apply np_bind. eapply np_mono; [apply (balance_excess_of_np s1 ut1 t A B Ht)|].
    cbn beta. intros s2 [] [A2 B2]. apply IH; auto. intros t' Ht'. apply Hl. right. exact Ht'.
  Qed.

  Lemma extra_inputs_np l : (forall t, t ∈ l -> t = MAIN \/ t ∈ K) -> forall fuel empty i s ut,
    inv s ut -> known s ut -> length empty = length l -> (i < length l)%nat ->
    np (extra_inputs est enum sc chk cfg outputs fuel l empty i s ut) (fun s' ut' => inv s' ut' /\ known s' ut').
  Proof.
    intro Hl. induction fuel as [|fuel IH]; intros empty i s ut H Kn Le Hi; cbn [extra_inputs]; apply np_bind;
      (eapply np_mono; [apply (remaining_np s ut H)|]); cbn beta; intros s' n ->; destruct (n =? 0)%N; cbn [np]; auto.
    destruct (lookup_lt_is_Some_2 l i Hi) as [t Et]. rewrite Et.
    destruct (lookup_lt_is_Some_2 empty i ltac:(lia)) as [fl Eb]. rewrite Eb.
    assert (Nx : (S i mod length l < length l)%nat) by (apply Nat.mod_upper_bound; lia).
    destruct fl; [destruct (forallb id empty); [cbn; auto|apply IH; auto]|].
    destruct (_ <=? _)%N; [apply IH; auto; rewrite insert_length; exact Le|].
    assert (X := select_input_np s ut t H Kn (Hl t ltac:(apply elem_of_list_lookup; eauto))).
    destruct (select_input_for est enum s ut t) as [s1 [ut1| | |]]; try contradiction; destruct X; apply IH; auto. rewrite insert_length; exact Le.
  Qed.

  Lemma balance_excess_np s : np (balance_excess est cfg addr s) (fun _ _ => True).
  Proof.
    unfold balance_excess, current_balance. apply np_bind, np_bind, np_lift. intros f _. cbn [np].
    destruct (zbal_sub_value _ _); [exact I|exact I|]. apply np_bind, np_lift. intros ad _. destruct (t_changes s !! c_main cfg); [exact I|].
    apply np_bind, min_value_np. intros e m. destruct (_ <? m); [exact I|]. apply np_bind, np_lift. intros g _.
    destruct (_ <? m + g); [exact I|]. apply np_bind, add_out_np. intro e'. exact I.
  Qed.
  Lemma split_all_np ut : forall l s, np (split_all est sc above cfg ut l s) (fun _ _ => True).
  Proof.
    induction l as [|[t o] l IH]; intro s; [exact I|]. cbn [split_all]. apply np_bind.
    apply (np_mono _ (fun _ _ => True)); [|intros s1 [] _; apply IH].
    unfold split_one. destruct (get_balance_of ut t); [|exact I]. destruct (o_assets o).
    - destruct (bool_decide _); [|exact I]. destruct (N.eqb_spec (c_num cfg) 0) as [?|_]; [contradiction|]. apply np_bind, np_lift. intros f _. cbn zeta.
      destruct (_ || _); [exact I|]. destruct (above _ _ _); [|exact I]. apply add_out_np. intro; exact I.
    - destruct (N.eqb_spec (c_num_assets cfg) 0) as [?|_]; [contradiction|]. destruct (above _ _ _); [|exact I]. cbn zeta. apply np_bind, np_lift. intros f _.
      destruct (_ || _); [exact I|]. apply np_bind, add_out_np. intro; exact I.
  Qed.

  Lemma select_np s : inv s (final h) -> known s (final h) ->
    np (select est enum sc above chk cfg addr outputs ordc K (final h) s) (fun _ _ => True).
  Proof.
    intros I0 Kn0. unfold select.
    apply np_bind. eapply np_mono; [apply (fund_assets_np K s (final h) (fun t Ht => Ht) I0 Kn0)|]. cbn beta. intros s1 ut1 [I1 Kn1].
    apply np_bind. eapply np_mono; [apply (main_until_np _ s1 ut1 I1 Kn1)|]. cbn beta zeta. intros s2 ut2 [I2 Kn2].
    set (l := if (size (t_abal s2) =? 0)%nat || (length K =? 0)%nat then K ++ [c_main cfg] else K).
    assert (Hl2 : (K = [] /\ l = [MAIN]) \/ (K <> [] /\ l = K)).
    { unfold l. rewrite Hmain, (size_keys s2 ut2 I2). destruct K as [|k ks]; [left; split; reflexivity|]. right. split; [discriminate|reflexivity]. }
    apply np_bind. eapply np_mono; [apply (extra_inputs_np l); [|exact I2|exact Kn2|apply repeat_length|]|].
    { destruct Hl2 as [[_ ->]|[_ ->]]; intros t Ht; [apply elem_of_list_singleton in Ht; auto|auto]. }
    { destruct Hl2 as [[_ ->]|[Hn ->]]; [cbn; lia|]. destruct K; [congruence|cbn; lia]. }
    cbn beta. intros s3 ut3 [I3 Kn3].
    set (l' := if (size (t_abal s3) =? 0)%nat || _ then removelast l else l).
    assert (Hl' : l' = K).
    { unfold l'. rewrite (size_keys s3 ut3 I3). destruct Hl2 as [[-> ->]|[Hne ->]]; [reflexivity|].
      destruct K as [|k [|k2 ks]]; [congruence| |reflexivity]. cbn. rewrite bool_decide_eq_false_2; [reflexivity|].
      rewrite Hmain. intro Q; injection Q as ->. apply HK. left. }
    clearbody l'. subst l'.
    apply np_bind. eapply np_mono; [apply (return_excess_np K s3 ut3 (fun t Ht => Ht) I3 Kn3)|]. cbn beta. intros s4 [] _.
    apply np_bind. eapply np_mono; [apply balance_excess_np|]. cbn beta. intros s5 [] _.
    apply np_bind. eapply np_mono; [apply split_all_np|]. cbn beta. intros s6 [] _. exact I.
  Qed.
End NoPanic.
