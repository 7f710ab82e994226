(** Proofs about the thermostat: which inputs it takes, that its loops end, and the signs of what it leaves. *)
From Coq Require Import ZArith Lia.
From stdpp Require Import gmap strings list.
From Verif Require Import ValueModel BalanceModel BalanceProofs StoreModel StoreSpec StoreProofs StoreProps SelModel SelSpec SelProofs SelLargestProofs ThermoModel ThermoProofs.
Open Scope Z_scope.

Lemma only_spec t u : only t u = true -> wf_utxo u ->
  (u_assets u = [] \/ exists a, u_assets u = [a] /\ a_fp a = t /\ t <> MAIN).
Proof.
  unfold only, wf_utxo. rewrite andb_true_iff, forallb_forall. intros [L F] W.
  destruct (u_assets u) as [|a [|b l]]; [left; reflexivity| |cbn in L; discriminate].
  right. exists a. split; [reflexivity|]. assert (X := F a (or_introl eq_refl)). apply bool_decide_eq_true in X.
  split; [exact X|]. intros ->. cbn [map] in W. apply NoDup_cons in W as [W _]. apply W. rewrite X. left.
Qed.

Definition settled (m : balances) (t : token) : Prop := m !! t = Some Balanced.
Definition nodebt (m : balances) (t : token) : Prop := exists b, m !! t = Some b /\ in_debt b = false.

Lemma nodebt_plus m t q t' : 0 <= q -> nodebt m t' -> nodebt (bal_plus m t q) t'.
Proof.
  intros Hq (b & Hb & D). unfold bal_plus. destruct (decide (t = t')) as [->|n].
  - rewrite Hb. cbn [default from_option id]. exists (zbal_add_value b q). rewrite lookup_insert. split; [reflexivity|].
    destruct b as [d| |x]; [discriminate| |reflexivity]. unfold zbal_add_value, bal_add_value, veqb.
    destruct (Z.compare_spec q 0); try reflexivity; cbn; lia.
  - exists b. rewrite lookup_insert_ne by exact n. auto.
Qed.

(** how many of the flags are down *)
Definition down (l : list bool) : nat := length (filter (fun b => b = false) l).
Lemma down_insert l : forall i, l !! i = Some false -> S (down (<[i := true]> l)) = down l.
Proof.
  induction l as [|b l IH]; intros [|i] H; try discriminate.
  - injection H as ->. reflexivity.
  - cbn in H. specialize (IH i H). change (<[S i := true]> (b :: l)) with (b :: <[i := true]> l).
    unfold down in *. rewrite !filter_cons. destruct (decide (b = false)); cbn [length]; lia.
Qed.
Lemma all_up l : (forall j, l !! j <> Some false) -> forallb id l = true.
Proof.
  intro H. apply forallb_forall. intros b Hb. apply elem_of_list_In, elem_of_list_lookup in Hb as [j Hj].
  destruct b; [reflexivity|]. exfalso. exact (H _ Hj).
Qed.
Lemma down_repeat n : down (repeat false n) = n.
Proof. unfold down. induction n as [|n IH]; [reflexivity|]. cbn [repeat]. rewrite filter_cons_True by reflexivity. cbn [length]. f_equal. exact IH. Qed.

Section Run.
  Context {E : Type} (est : estimator E) (enum : nat -> enumeration) (sc : Z) (above : Z -> Z -> N -> bool) (chk : bool)
          (cfg : tconfig) (addr : option string) (outputs : list uout).
  Notation st := (thermo E).
  Context (P : Prop) (h : list store_op) (K : list token).
  Context (Hfair : forall n, fair (enum n)) (Hwf : Forall wf_op h) (Hmain : c_main cfg = MAIN).

  (** the numbers make sense; P is what is asked of the setup *)
  Definition fine : Prop :=
    fees_nonneg est /\ (forall e o e' m, e_min_value est e o = (e', Some m) -> 0 <= m) /\
    0 <= c_min cfg <= c_max cfg /\ 0 < sc /\ Forall nonneg_in (unspent h) /\ P.

  Record struct (s : st) (ut : store) : Prop := {
    k_store : ut = final (spend h (t_sel s));
    k_part : t_sel s ++ unspent (spend h (t_sel s)) ≡ₚ unspent h;
    k_keys : forall t, is_Some (t_abal s !! t) <-> t ∈ K;
    k_pure : forall u, u ∈ t_sel s -> exists t, (t = MAIN \/ t ∈ K) /\ only t u = true;
    k_extra : t_extra s = []
  }.
  Definition good_change (o : uout) : Prop := nonneg_out o /\ (o_assets o <> [] -> c_min cfg <= o_value o).
  Record signs (s : st) : Prop := {
    g_bal : znormal (t_bal s);
    g_abal : all_normal (t_abal s);
    g_changes : forall t o, t_changes s !! t = Some o -> good_change o
  }.
  Definition inv (s : st) (ut : store) : Prop := struct s ut /\ (fine -> signs s).

  Lemma inv_est s ut e : inv s ut -> inv (with_est s e) ut.
  Proof. intros [[A B C D X] S]. split; [split; assumption|]. intro F. destruct (S F). split; assumption. Qed.

  Lemma fold_one (m : balances) t u : only t u = true -> wf_utxo u ->
    let m' := foldl (fun m a => bal_plus m (a_fp a) (a_qty a)) m (u_assets u) in
    m' = m \/ exists q, m' = bal_plus m t q /\ t <> MAIN /\ (nonneg_in u -> 0 <= q).
  Proof.
    intros O W m'. unfold m'. destruct (only_spec t u O W) as [->|(a & Ha & <- & Hm)]; [left; reflexivity|].
    rewrite Ha. right. exists (a_qty a). split; [reflexivity|]. split; [exact Hm|]. intros [_ N]. rewrite Ha in N.
    inversion N; assumption.
  Qed.

  (** what taking an input for token t does *)
  Record took (t : token) (s : st) (ut : store) (s' : st) (ut' : store) : Prop := {
    o_inv : inv s' ut';
    o_len : store_len ut = S (store_len ut');
    o_frame : forall t', t' <> t -> t_abal s' !! t' = t_abal s !! t';
    o_nodebt : Forall nonneg_in (unspent h) -> forall t', nodebt (t_abal s) t' -> nodebt (t_abal s') t'
  }.

  Lemma select_input_for_cases s ut t : inv s ut -> t = MAIN \/ t ∈ K ->
    match select_input_for est enum s ut t with
    | (s', ROk ut') => took t s ut s' ut'
    | (s', RErr) => exists e, s' = with_est s e
    | _ => False
    end.
  Proof.
    intros [[A B C D X] G] Ht. subst ut. unfold select_input_for.
    assert (Hw2 : Forall wf_op (spend h (t_sel s))) by (apply spend_wf, Hwf).
    destruct (List.find _ _) as [u|] eqn:Fu; [|exists (t_est s); destruct s; reflexivity].
    apply find_some in Fu as [Hin Ho]. apply elem_of_list_In in Hin.
    destruct (C10_listings (spend h (t_sel s)) t (enum (store_len (final (spend h (t_sel s))))) Hw2 (Hfair _)) as (_ & _ & Pm & _).
    change (fst (store_run store_new (spend h (t_sel s)))) with (final (spend h (t_sel s))) in Pm.
    rewrite Pm in Hin. apply elem_of_list_filter in Hin as [_ Hu].
    assert (Wu := unspent_wf _ Hw2 _ Hu).
    unfold add_in. destruct (e_add_in est (t_est s) u) as [e [|]]; cbn [bind]; [|eauto].
    rewrite (remove_present _ _ Hu).
    assert (F1 := fold_one (t_abal s) t u Ho Wu). cbn zeta in F1.
    assert (Nu : Forall nonneg_in (unspent h) -> nonneg_in u).
    { intro N. rewrite Forall_forall in N. apply N. rewrite <- B. apply elem_of_app. right. exact Hu. }
    split.
    - split.
      + split.
        * cbn [add_input with_est t_sel]. rewrite spend_app. reflexivity.
        * cbn [add_input with_est t_sel]. rewrite spend_app, <- app_assoc. cbn [app].
          rewrite (unspent_spend_one _ _ Hu). exact B.
        * cbn [add_input with_est t_abal]. intro t'. destruct F1 as [->|(q & -> & Hm & _)]; [apply C|].
          unfold bal_plus. destruct (decide (t = t')) as [->|n].
          -- rewrite lookup_insert. split; [|eauto]. intros _. destruct Ht; [congruence|assumption].
          -- rewrite lookup_insert_ne by exact n. apply C.
        * cbn [add_input with_est t_sel]. intros w Hw. apply elem_of_app in Hw as [Hw|Hw]; [apply D, Hw|].
          apply elem_of_list_singleton in Hw as ->. eauto.
        * exact X.
      + intro Fi. destruct (G Fi) as [G1 G2 G3]. destruct Fi as (_ & _ & _ & _ & N & _). specialize (Nu N). split.
        * cbn [add_input with_est t_bal]. apply zbal_add_value_normal; [exact G1|]. apply Nu.
        * cbn [add_input with_est t_abal]. destruct F1 as [->|(q & -> & Hm & Hq)]; [exact G2|]. apply normal_plus; auto.
        * exact G3.
    - rewrite !store_len_final. rewrite <- (Permutation_length (unspent_spend_one _ _ Hu)). reflexivity.
    - intros t' n. cbn [add_input with_est t_abal]. destruct F1 as [->|(q & -> & _)]; [reflexivity|].
      unfold bal_plus. rewrite lookup_insert_ne; auto.
    - intros N t' Hd. cbn [add_input with_est t_abal]. destruct F1 as [->|(q & -> & _ & Hq)]; [exact Hd|].
      apply nodebt_plus; auto.
  Qed.

  Lemma until_balanced_run t : t ∈ K -> forall fuel s ut, inv s ut -> (store_len ut < fuel)%nat ->
    wp False (until_balanced est enum chk fuel s ut t) (fun s' ut' => inv s' ut' /\ nodebt (t_abal s') t /\
      (forall t', t' <> t -> t_abal s' !! t' = t_abal s !! t')).
  Proof.
    intro Ht. induction fuel as [|fuel IH]; intros s ut H Hl; [lia|]. cbn [until_balanced].
    apply wp_bind, current_balance_of_wp. intros b Hb. destruct (in_debt b) eqn:D; cbn [wp].
    - apply wp_bind. assert (X := select_input_for_cases s ut t H (or_intror Ht)).
      destruct (select_input_for est enum s ut t) as [s1 [ut1| | |]]; cbn [wp]; auto.
      destruct X as [I1 L1 F1 _]. eapply wp_mono; [apply (IH s1 ut1 I1); lia|]. cbn beta.
      intros s' ut' (I' & N' & F'). split; [exact I'|]. split; [exact N'|]. intros t' n. rewrite F', F1 by exact n. reflexivity.
    - split; [exact H|]. split; [exists b; auto|reflexivity].
  Qed.
  Lemma main_until_balanced_run : forall fuel s ut, inv s ut -> (store_len ut < fuel)%nat ->
    wp False (main_until_balanced est enum cfg fuel s ut) (fun s' ut' => inv s' ut' /\
      (forall t', t' <> MAIN -> t_abal s' !! t' = t_abal s !! t')).
  Proof.
    induction fuel as [|fuel IH]; intros s ut H Hl; [lia|]. cbn [main_until_balanced].
    apply wp_bind, current_balance_wp. intros f _. destruct (in_debt _); cbn [wp]; [|auto].
    apply wp_bind. rewrite Hmain. assert (X := select_input_for_cases s ut MAIN H (or_introl eq_refl)).
    destruct (select_input_for est enum s ut MAIN) as [s1 [ut1| | |]]; cbn [wp]; auto.
    destruct X as [I1 L1 F1 _]. eapply wp_mono; [apply (IH s1 ut1 I1); lia|]. cbn beta.
    intros s' ut' (I' & F'). split; [exact I'|]. intros t' n. rewrite F', F1 by exact n. reflexivity.
  Qed.

  Lemma change_entry_run L s a t w :
    wp L (change_entry est s a t w) (fun s' o =>
      t_changes s' = t_changes s /\ t_sel s' = t_sel s /\ t_abal s' = t_abal s /\ t_extra s' = t_extra s /\
      o_assets o = match t_changes s !! t with Some x => o_assets x | None => [] end /\
      (fine -> signs s -> 0 <= w -> znormal (t_bal s') /\ 0 <= o_value o)).
  Proof.
    unfold change_entry. destruct (t_changes s !! t) as [x|] eqn:C.
    - cbn. do 5 (split; [reflexivity|]). intros _ [G1 _ G3] Hw. split; [apply zbal_sub_value_normal; assumption|].
      destruct (G3 _ _ C) as [[N _] _]. lia.
    - apply wp_bind, min_value_wp. intros e m Hm. cbn zeta.
      assert (X : forall (s1 : st) v,
        t_changes s1 = t_changes s -> t_sel s1 = t_sel s -> t_abal s1 = t_abal s -> t_extra s1 = t_extra s ->
        (fine -> signs s -> 0 <= w -> znormal (t_bal s1) /\ (v = m /\ w < m \/ v = w /\ m <= w)) ->
        wp L (LET s2, f := lift s1 (e_fee_out est (t_est s1) (Uout a v [] None)) IN
              let '(s3, v3) := if v <? m + f then (pay s2 w, v) else (pay s2 (w - f), v - f) in
              LET s4, _ := add_out est s3 (Uout a v3 [] None) IN (s4, ROk (Uout a v3 [] None)))
           (fun s' o => t_changes s' = t_changes s /\ t_sel s' = t_sel s /\ t_abal s' = t_abal s /\ t_extra s' = t_extra s /\ o_assets o = [] /\
              (fine -> signs s -> 0 <= w -> znormal (t_bal s') /\ 0 <= o_value o))).
      { intros s1 v A B D D' Hv. apply wp_bind, wp_lift. intros f Hf.
        destruct (Z.ltb_spec v (m + f)) as [Lv|Lv]; apply wp_bind, add_out_wp; intro e'; cbn;
          (do 4 (split; [assumption|])); (split; [reflexivity|]); intros Fi G Hw; destruct (Hv Fi G Hw) as [Z1 Z2];
          assert (0 <= m) by (eapply Fi; exact Hm); assert (0 <= f) by (destruct Fi as (Fe & _); eapply (Fe (t_est s1)); exact Hf);
          (split; [apply zbal_sub_value_normal; [exact Z1|lia]|lia]). }
      destruct (Z.ltb_spec w m) as [Lw|Lw]; apply X; try reflexivity; intros Fi [G1 _ _] Hw; cbn;
        (split; [|lia]); [apply zbal_sub_value_normal; [exact G1|lia]|exact G1].
  Qed.

  Lemma credit_shape ut t x o o' : credit ut t x o = Some o' ->
    o_value o' = o_value o /\ (0 <= x -> nonneg_list (o_assets o) -> nonneg_list (o_assets o')).
  Proof.
    unfold credit. destruct (o_assets o) as [|a l].
    - destruct (get_asset_ids ut t) as [[p n]|]; [|discriminate]. intro X; injection X as <-. cbn. split; [reflexivity|].
      intros Hx _. constructor; [exact Hx|constructor].
    - intro X; injection X as <-. cbn. split; [reflexivity|]. intros Hx N. inversion N; subst. constructor; [cbn; lia|assumption].
  Qed.

  Lemma sub_self x : zbal_sub_value (Excess x) x = Balanced.
  Proof. unfold zbal_sub_value, bal_sub_value. rewrite Z.compare_refl. reflexivity. Qed.

  Lemma balance_excess_of_run L s ut t : inv s ut ->
    wp L (balance_excess_of est chk cfg addr s ut t) (fun s' _ => inv s' ut /\
      (forall t', t' <> t -> t_abal s' !! t' = t_abal s !! t') /\ (nodebt (t_abal s) t -> settled (t_abal s') t)).
  Proof.
    intro H. unfold balance_excess_of. apply wp_bind, current_balance_of_wp. intros b Hb.
    destruct b as [d| |x].
    - split; [exact H|]. split; [reflexivity|]. intros (b & Hb' & D). rewrite Hb in Hb'. injection Hb' as <-. discriminate.
    - split; [exact H|]. split; [reflexivity|]. intros _. exact Hb.
    - apply wp_bind, wp_lift. intros a _. apply wp_bind, current_balance_wp. intros f Hf. cbn zeta. apply wp_bind.
      eapply wp_mono; [apply change_entry_run|]. cbn beta. intros s' o (A & B & C & Xt & D & G).
      destruct (credit ut t x o) as [o'|] eqn:Cr; [|exact I]. cbn [wp].
      destruct (credit_shape _ _ _ _ _ Cr) as [V N].
      destruct H as [[K1 K2 K3 K4 K5] Gs].
      assert (Ab : forall t', t' <> t -> bal_minus (t_abal s') t x !! t' = t_abal s !! t').
      { intros t' n. unfold bal_minus. rewrite lookup_insert_ne by auto. rewrite C. reflexivity. }
      assert (Ab1 : bal_minus (t_abal s') t x !! t = Some Balanced).
      { unfold bal_minus. rewrite lookup_insert, C, Hb. cbn [default from_option id]. rewrite sub_self. reflexivity. }
      assert (X : forall v b', (fine -> znormal b' /\ c_min cfg <= v <= c_max cfg) ->
        inv (with_bal (put (with_abal s' (bal_minus (t_abal s') t x)) t (Uout (o_addr o') v (o_assets o') (o_extra o'))) b') ut).
      { intros v b' Hv. split.
        - split; cbn [with_bal put with_abal t_sel t_abal t_extra]; rewrite ?B, ?Xt; auto.
          intro t'. destruct (decide (t' = t)) as [->|n]; [|rewrite Ab by exact n; apply K3].
          rewrite Ab1. rewrite <- K3, Hb. split; eauto.
        - intro Fi. destruct (Hv Fi) as [Nb Nv]. specialize (Gs Fi). destruct Gs as [G1 G2 G3].
          assert (Px : 0 < x) by (specialize (G2 t); unfold bal_of in G2; rewrite Hb in G2; exact G2).
          split; cbn [with_bal put with_abal t_bal t_abal t_changes].
          + exact Nb.
          + apply normal_minus; [rewrite C; exact G2|lia].
          + intros t' o2. destruct (decide (t = t')) as [<-|n].
            * rewrite lookup_insert. intro E1; injection E1 as <-. split; [|cbn; lia]. split; [cbn; destruct Fi as (_ & _ & ? & _); lia|].
              cbn [o_assets]. apply N; [lia|]. rewrite D. destruct (t_changes s !! t) as [y|] eqn:Cy; [|constructor].
              apply (G3 _ _ Cy).
            * rewrite lookup_insert_ne by exact n. rewrite A. apply G3. }
      assert (Gs' : fine -> znormal (t_bal s') /\ 0 <= o_value o').
      { intro Fi. rewrite V. apply (G Fi (Gs Fi)). destruct (Gs Fi) as [G1 _ _].
        assert (Q := zbal_sub_value_normal (t_bal s) f G1 (proj1 (proj1 Fi (t_est s)) _ Hf)).
        destruct (zbal_sub_value (t_bal s) f); cbn in Q; lia. }
      assert (R : inv (clamp cfg (with_abal s' (bal_minus (t_abal s') t x)) t o') ut /\
                  t_abal (clamp cfg (with_abal s' (bal_minus (t_abal s') t x)) t o') = bal_minus (t_abal s') t x).
      { unfold clamp. destruct (Z.ltb_spec (o_value o') (c_min cfg)) as [L1|L1]; [|destruct (Z.ltb_spec (c_max cfg) (o_value o')) as [L2|L2]].
        - split; [|reflexivity]. apply X. intro Fi. destruct (Gs' Fi). destruct Fi as (_ & _ & ? & _).
          split; [apply zbal_sub_value_normal; [assumption|lia]|lia].
        - split; [|reflexivity]. apply X. intro Fi. destruct (Gs' Fi). destruct Fi as (_ & _ & ? & _).
          split; [apply zbal_add_value_normal; [assumption|lia]|lia].
        - split; [|reflexivity]. assert (Y := X (o_value o') (t_bal s')). destruct o' as [oa ov os oe]. cbn in *. destruct s'. apply Y.
          intro Fi. destruct (Gs' Fi). split; [assumption|lia]. }
      destruct R as [R1 R2]. split; [exact R1|]. rewrite R2. split; [exact Ab|]. intros _. exact Ab1.
  Qed.

  Lemma balance_excess_run L s ut : inv s ut ->
    wp L (balance_excess est cfg addr s) (fun s' _ => inv s' ut /\ t_abal s' = t_abal s).
  Proof.
    intro H. unfold balance_excess. apply wp_bind, current_balance_wp. intros f0 Hf0.
    destruct (zbal_sub_value (t_bal s) f0) as [d| |x] eqn:Cur; [split; [exact H|reflexivity]|split; [exact H|reflexivity]|].
    apply wp_bind, wp_lift. intros a _.
    assert (Px : fine -> 0 < x).
    { intro Fi. destruct H as [_ G]. destruct (G Fi) as [G1 _ _].
      assert (Q := zbal_sub_value_normal (t_bal s) f0 G1 (proj1 (proj1 Fi (t_est s)) _ Hf0)). rewrite Cur in Q. exact Q. }
    assert (X : forall (s1 : st) o, t_changes s1 = t_changes s -> t_sel s1 = t_sel s -> t_abal s1 = t_abal s -> t_extra s1 = t_extra s ->
       (fine -> znormal (t_bal s1) /\ good_change o) -> inv (put s1 (c_main cfg) o) ut).
    { intros s1 o A B C Xt Ho. destruct H as [[K1 K2 K3 K4 K5] G]. split.
      - split; cbn [put t_sel t_abal t_extra]; rewrite ?B, ?C, ?Xt; auto.
      - intro Fi. destruct (G Fi) as [G1 G2 G3]. destruct (Ho Fi) as [O1 O2]. split; cbn [put t_bal t_abal t_changes].
        + exact O1.
        + rewrite C. exact G2.
        + intros t' o2. destruct (decide (c_main cfg = t')) as [<-|n].
          * rewrite lookup_insert. intro E1; injection E1 as <-. exact O2.
          * rewrite lookup_insert_ne by exact n. rewrite A. apply G3. }
    destruct (t_changes s !! c_main cfg) as [o|] eqn:C0.
    - cbn [wp]. split; [|reflexivity]. apply X; try reflexivity. intro Fi. specialize (Px Fi). destruct H as [_ G].
      destruct (G Fi) as [G1 G2 G3]. destruct (G3 _ _ C0) as [[N1 N2] N3].
      split; [apply zbal_sub_value_normal; [exact G1|lia]|]. split; [split; [cbn; lia|exact N2]|]. cbn. intro Hn. specialize (N3 Hn). lia.
    - apply wp_bind, min_value_wp. intros e m Hm. destruct (Z.ltb_spec x m) as [Lx|Lx]; [split; [apply inv_est, H|reflexivity]|].
      apply wp_bind, wp_lift. intros f Hf. destruct (Z.ltb_spec x (m + f)) as [Ly|Ly]; [split; [apply inv_est, H|reflexivity]|]. cbn zeta.
      apply wp_bind, add_out_wp. intro e'. cbn [wp]. split; [|reflexivity]. apply X; try reflexivity. intro Fi. specialize (Px Fi).
      assert (0 <= m) by (eapply Fi; exact Hm). destruct H as [_ G]. destruct (G Fi) as [G1 _ _].
      split; [apply zbal_sub_value_normal; [exact G1|lia]|]. split; [split; [cbn; lia|constructor]|]. cbn. congruence.
  Qed.

  Lemma fund_assets_run : forall l s ut, NoDup l -> (forall t, t ∈ l -> t ∈ K) -> inv s ut ->
    wp False (fund_assets est enum chk cfg addr l s ut) (fun s' ut' => inv s' ut' /\
      (forall t, t ∈ l -> settled (t_abal s') t) /\ (forall t, t ∉ l -> t_abal s' !! t = t_abal s !! t)).
  Proof.
    induction l as [|t l IH]; intros s ut HN Hl H.
    - split; [exact H|]. split; [intros t Ht; inversion Ht|reflexivity].
    - apply NoDup_cons in HN as [Hnot HN]. cbn [fund_assets]. apply wp_bind.
      eapply wp_mono; [apply (until_balanced_run t); [apply Hl; left|exact H|lia]|]. cbn beta. intros s1 ut1 (I1 & D1 & F1).
      apply wp_bind. eapply wp_mono; [apply balance_excess_of_run, I1|]. cbn beta. intros s2 [] (I2 & F2 & S2).
      eapply wp_mono; [apply (IH s2 ut1 HN); [intros; apply Hl; right; assumption|exact I2]|]. cbn beta.
      intros s3 ut3 (I3 & S3 & F3). split; [exact I3|]. split.
      + intros t' Ht. apply elem_of_cons in Ht as [->|Ht]; [|apply S3, Ht]. unfold settled. rewrite F3 by exact Hnot. apply S2, D1.
      + intros t' Ht. apply not_elem_of_cons in Ht as [n Ht]. rewrite F3, F2, F1 by auto. reflexivity.
  Qed.

  Lemma return_excess_run L : forall l s ut, NoDup l -> inv s ut ->
    wp L (return_excess est chk cfg addr l s ut) (fun s' _ => inv s' ut /\
      (forall t, t ∈ l -> nodebt (t_abal s) t -> settled (t_abal s') t) /\
      (forall t, t ∉ l -> t_abal s' !! t = t_abal s !! t)).
  Proof.
    induction l as [|t l IH]; intros s ut HN H.
    - split; [exact H|]. split; [intros t Ht; inversion Ht|reflexivity].
    - apply NoDup_cons in HN as [Hnot HN]. cbn [return_excess]. apply wp_bind.
      eapply wp_mono; [apply balance_excess_of_run, H|]. cbn beta. intros s1 [] (I1 & F1 & S1).
      eapply wp_mono; [apply (IH s1 ut HN I1)|]. cbn beta. intros s2 [] (I2 & S2 & F2). split; [exact I2|]. split.
      + intros t' Ht Hd. apply elem_of_cons in Ht as [->|Ht].
        * unfold settled. rewrite F2 by exact Hnot. apply S1, Hd.
        * apply S2; [exact Ht|]. destruct (decide (t' = t)) as [->|n]; [contradiction|].
          destruct Hd as (b & Hb & D). exists b. rewrite F1 by exact n. auto.
      + intros t' Ht. apply not_elem_of_cons in Ht as [n Ht]. rewrite F2, F1 by auto. reflexivity.
  Qed.

  Lemma extra_inputs_run l : l <> [] -> (forall t, t ∈ l -> t = MAIN \/ t ∈ K) -> forall fuel empty i s ut,
    inv s ut -> length empty = length l -> (i < length l)%nat ->
    ((forall j, empty !! j <> Some false) /\ (1 <= fuel)%nat \/
     exists k, (k < length l)%nat /\ empty !! ((i + k) mod length l)%nat = Some false /\
       ((down empty + store_len ut) * length l + k + 1 <= fuel)%nat) ->
    wp False (extra_inputs est enum sc chk cfg outputs fuel l empty i s ut) (fun s' ut' => inv s' ut' /\
      (Forall nonneg_in (unspent h) -> forall t', nodebt (t_abal s) t' -> nodebt (t_abal s') t')).
  Proof.
    intros Hl0 Hl. assert (Hlen : (0 < length l)%nat) by (destruct l; [congruence|cbn; lia]).
    assert (Step : forall fuel empty i ut, length empty = length l -> (i < length l)%nat ->
      ((down empty + store_len ut + 1) * length l <= fuel)%nat ->
      (forall j, empty !! j <> Some false) /\ (1 <= fuel)%nat \/
      exists k, (k < length l)%nat /\ empty !! ((i + k) mod length l)%nat = Some false /\
       ((down empty + store_len ut) * length l + k + 1 <= fuel)%nat).
    { intros fuel empty i ut Le Hi Hf. destruct (decide (Exists (fun b => b = false) empty)) as [Ex|Ex].
      - right. apply Exists_exists in Ex as (b & Hb & ->). apply elem_of_list_lookup in Hb as [j Hj].
        assert (Hjl := lookup_lt_Some _ _ _ Hj). rewrite Le in Hjl.
        exists ((j + length l - i) mod length l)%nat. split; [apply Nat.mod_upper_bound; lia|]. split.
        + rewrite Nat.add_mod_idemp_r by lia. replace (i + (j + length l - i))%nat with (j + 1 * length l)%nat by lia.
          rewrite Nat.mod_add, Nat.mod_small by lia. exact Hj.
        + assert (Hm : ((j + length l - i) mod length l < length l)%nat) by (apply Nat.mod_upper_bound; lia). nia.
      - left. split; [|nia]. intros j Hj. apply Ex, Exists_exists. exists false. split; [|reflexivity].
        apply elem_of_list_lookup. eauto. }
    assert (Nxt : forall i, (S i mod length l < length l)%nat) by (intro i; apply Nat.mod_upper_bound; lia).
    induction fuel as [|fuel IH]; intros empty i s ut H Le Hi Hf.
    - destruct Hf as [[_ Hf]|(k & _ & _ & Hf)]; lia.
    - cbn [extra_inputs]. apply wp_bind, remaining_wp. intro n. destruct (n =? 0)%N; [split; auto|].
      destruct (lookup_lt_is_Some_2 l i Hi) as [t Et]. rewrite Et.
      assert (Hi' : (i < length empty)%nat) by lia.
      destruct (lookup_lt_is_Some_2 empty i Hi') as [b Eb]. rewrite Eb.
      assert (Ht : t = MAIN \/ t ∈ K) by (apply Hl, elem_of_list_lookup; eauto).
      destruct b.
      + destruct (forallb id empty) eqn:Al; [split; auto|]. destruct Hf as [[Hn _]|(k & Hk & Ek & Hf)].
        { rewrite (all_up _ Hn) in Al. discriminate. }
        eapply wp_mono; [apply (IH empty _ s ut H Le (Nxt i))|auto].
        right. destruct k as [|k]; [rewrite Nat.add_0_r, Nat.mod_small in Ek by exact Hi; congruence|].
        exists k. split; [lia|]. split; [|lia].
        rewrite Nat.add_mod_idemp_l by lia. replace (S i + k)%nat with (i + S k)%nat by lia. exact Ek.
      + assert (Hfu : ((down empty + store_len ut) * length l <= fuel)%nat).
        { destruct Hf as [[Hn _]|(k & Hk & Ek & Hf)]; [exfalso; exact (Hn _ Eb)|lia]. }
        assert (Dn := down_insert empty i Eb).
        assert (Up : ((down (<[i := true]> empty) + store_len ut + 1) * length l <= fuel)%nat) by nia.
        destruct (N.of_nat _ <=? c_num cfg)%N.
        * apply IH; auto; [rewrite insert_length; exact Le|]. apply Step; auto. rewrite insert_length; exact Le.
        * assert (X := select_input_for_cases s ut t H Ht).
          destruct (select_input_for est enum s ut t) as [s1 [ut1| | |]]; try contradiction.
          -- destruct X as [I1 L1 F1 D1].
             eapply wp_mono; [apply (IH empty _ s1 ut1 I1 Le (Nxt i))|].
             ++ apply Step; auto. nia.
             ++ cbn beta. intros s' ut' [I' D']. split; [exact I'|]. intros N t' Hd. apply D', D1; assumption.
          -- destruct X as [e ->].
             eapply wp_mono; [apply (IH _ _ (with_est s e) ut (inv_est _ _ e H))|].
             ++ rewrite insert_length; exact Le.
             ++ apply Nxt.
             ++ apply Step; auto. rewrite insert_length; exact Le.
             ++ cbn beta. intros s' ut' [I' D']. split; [exact I'|exact D'].
  Qed.

  (** *** the splits *)
  Lemma half_le v : 0 < sc -> 0 <= v -> 0 <= half sc v /\ 2 * half sc v <= v.
  Proof.
    intros Hs Hv. unfold half. destruct (Z.ltb_spec v (2 * sc)) as [L|L]; [lia|].
    assert (Q := Z.mul_div_le v (2 * sc)). assert (0 <= v / (2 * sc)) by (apply Z.div_pos; lia). split; nia.
  Qed.
  Lemma half_mono v w : 0 < sc -> v <= w -> half sc v <= half sc w.
  Proof.
    intros Hs Hv. unfold half. destruct (Z.ltb_spec v (2 * sc)) as [L|L], (Z.ltb_spec w (2 * sc)) as [L'|L']; [lia| |lia|].
    - assert (0 <= w / (2 * sc)) by (apply Z.div_pos; lia). nia.
    - assert (v / (2 * sc) <= w / (2 * sc)) by (apply Z.div_le_mono; lia). nia.
  Qed.

  Definition all_good (s : st) : Prop :=
    znormal (t_bal s) /\ (forall t o, t_changes s !! t = Some o -> nonneg_out o) /\ Forall nonneg_out (t_extra s).

  Lemma split_one_run L ut s t o : fine -> shaped t o -> t_changes s !! t = Some o -> all_good s ->
    wp L (split_one est sc above cfg ut s t o) (fun s' _ => all_good s').
  Proof.
    intros Fi Hsh Ho (G1 & G2 & G3). unfold split_one. destruct (get_balance_of ut t) as [total|]; [|split; auto].
    destruct Fi as (Fe & _ & _ & Hs & _).
    destruct (G2 _ _ Ho) as [Nv Na].
    assert (Pn : forall o', nonneg_out o' -> forall t' o2, <[t := o']> (t_changes s) !! t' = Some o2 -> nonneg_out o2).
    { intros o' No t' o2. destruct (decide (t = t')) as [<-|n].
      - rewrite lookup_insert. intro E1; injection E1 as <-. exact No.
      - rewrite lookup_insert_ne by exact n. apply G2. }
    destruct (half_le (o_value o) Hs Nv) as [V0 V1].
    destruct (o_assets o) as [|a l] eqn:Ha.
    - destruct (bool_decide _); [|split; auto]. destruct (c_num cfg =? 0)%N; [exact I|].
      apply wp_bind, wp_lift. intros f Hf. cbn zeta. assert (0 <= f) by (eapply (Fe (t_est s)); exact Hf).
      destruct (half_le f Hs ltac:(assumption)) as [F0 F1].
      destruct (Z.leb_spec (half sc (o_value o)) (half sc f)) as [L1|L1]; [split; auto|].
      destruct (Z.leb_spec (half sc (o_value o)) f) as [L2|L2]; [split; auto|]. cbn [orb].
      destruct (above _ _ _); [|split; auto]. apply add_out_wp. intro e.
      split; [|split]; cbn [with_est push_extra gain with_bal put t_bal t_changes t_extra].
      + apply zbal_add_value_normal; assumption.
      + apply Pn. split; [cbn; lia|constructor].
      + apply Forall_app. split; [exact G3|]. constructor; [|constructor]. split; [cbn; lia|constructor].
    - destruct (c_num_assets cfg =? 0)%N; [exact I|]. destruct (above _ _ _); [|split; auto]. cbn zeta.
      assert (Na' := Na). inversion Na' as [|? ? Qa Ql]; subst.
      destruct (half_le (a_qty a) Hs Qa) as [Q0 Q1].
      apply wp_bind, wp_lift. intros f Hf. assert (0 <= f) by (eapply (Fe (t_est s)); exact Hf).
      destruct (half_le f Hs ltac:(assumption)) as [F0 F1].
      destruct (Z.leb_spec (half sc (o_value o)) (half sc f)) as [L1|L1];
        [|destruct (Z.leb_spec (half sc (o_value o)) f) as [L2|L2]]; cbn [orb].
      + split; [|split]; auto. cbn [put t_changes]. apply Pn. split; [exact Nv|]. constructor; [cbn; lia|exact Ql].
      + split; [|split]; auto. cbn [put t_changes]. apply Pn. split; [exact Nv|]. constructor; [cbn; lia|exact Ql].
      + apply wp_bind, add_out_wp. intro e.
        split; [|split]; cbn [with_est push_extra gain with_bal put t_bal t_changes t_extra].
        * apply zbal_add_value_normal; assumption.
        * rewrite insert_insert. apply Pn. split; [cbn; lia|]. constructor; [cbn; lia|exact Ql].
        * apply Forall_app. split; [exact G3|]. constructor; [|constructor]. split; [cbn; lia|]. constructor; [cbn; lia|exact Ql].
  Qed.

  Lemma split_one_changes L ut s t o : t_changes s !! t = Some o ->
    wp L (split_one est sc above cfg ut s t o) (fun s' _ => exists o', t_changes s' = <[t := o']> (t_changes s)).
  Proof.
    intro Ho. eapply wp_mono.
    - apply (split_one_main est sc above cfg (zsigned (t_bal s) - value_in (t_sel s) + msum o_value (t_changes s) + value_out (t_extra s)) L ut s t o Ho).
      unfold main_book. lia.
    - cbn beta. intros s' _ (_ & _ & _ & X). exact X.
  Qed.

  Lemma split_all_run ut : fine -> forall l s,
    NoDup (map fst l) -> (forall t o, (t, o) ∈ l -> t_changes s !! t = Some o /\ shaped t o) -> all_good s ->
    wp True (split_all est sc above cfg ut l s) (fun s' _ => all_good s').
  Proof.
    intro Fi. induction l as [|[t o] l IH]; intros s HN Hl M; [exact M|].
    cbn [split_all map fst] in *. apply NoDup_cons in HN as [Hnot HN].
    destruct (Hl t o ltac:(left)) as [Ho Hs]. apply wp_bind.
    assert (W1 := split_one_run True ut s t o Fi Hs Ho M).
    assert (W2 := split_one_changes True ut s t o Ho).
    destruct (split_one est sc above cfg ut s t o) as [s1 [[]| | |]]; cbn [wp] in *; auto.
    destruct W2 as [o1 C1]. apply (IH s1 HN); [|exact W1].
    intros t' o' Hin. destruct (Hl t' o' ltac:(right; exact Hin)) as [P1 P2]. split; [|exact P2].
    rewrite C1, lookup_insert_ne; [exact P1|]. intros ->. apply Hnot, elem_of_list_fmap. exists (t', o'). auto.
  Qed.

  Lemma split_one_no_loop ut s t o Q : wp True (split_one est sc above cfg ut s t o) Q -> wp False (split_one est sc above cfg ut s t o) Q.
  Proof.
    unfold split_one. destruct (get_balance_of ut t); [|exact id]. destruct (o_assets o).
    - destruct (bool_decide _); [|exact id]. destruct (c_num cfg =? 0)%N; [exact id|].
      destruct (e_fee_out est _ _); cbn [lift bind]; [|exact id]. destruct (_ || _); [exact id|]. destruct (above _ _ _); [|exact id].
      unfold add_out. destruct (e_add_out est _ _) as [e [|]]; exact id.
    - destruct (c_num_assets cfg =? 0)%N; [exact id|]. destruct (above _ _ _); [|exact id]. cbn zeta.
      destruct (e_fee_out est _ _); cbn [lift bind]; [|exact id]. destruct (_ || _); [exact id|].
      unfold add_out. destruct (e_add_out est _ _) as [e [|]]; exact id.
  Qed.
  Lemma split_all_no_loop ut l : forall s (Q : st -> unit -> Prop),
    wp True (split_all est sc above cfg ut l s) Q -> wp False (split_all est sc above cfg ut l s) Q.
  Proof.
    induction l as [|[t o] l IH]; intros s Q; [exact id|]. cbn [split_all].
    assert (X := split_one_no_loop ut s t o (fun _ _ => True)).
    destruct (split_one est sc above cfg ut s t o) as [s1 [a| | |]]; cbn [bind wp] in *; auto.
  Qed.
End Run.

Lemma wp_and {S A} L M (p : S * res A) (Q R : S -> A -> Prop) : wp L p Q -> wp M p R -> wp (L /\ M) p (fun s a => Q s a /\ R s a).
Proof. destruct p as [s [a| | |]]; cbn; auto. Qed.

(** ** the whole selection *)
Section Whole.
  Context {E : Type} (est : estimator E) (enum : nat -> enumeration) (sc : Z) (above : Z -> Z -> N -> bool) (chk : bool)
          (cfg : tconfig) (addr : option string) (outputs : list uout) (ordc : torder uout) (keys : list token).
  Notation st := (thermo E).
  Context (base : Z) (tbase : token -> Z).

  Lemma ordered_changes (s : st) : fair_t ordc -> shapes s -> NoDup (map fst (ordc (t_changes s))) /\
    forall t o, (t, o) ∈ ordc (t_changes s) -> t_changes s !! t = Some o /\ shaped t o.
  Proof.
    intros Hf Hs. split.
    - rewrite (Permutation_map fst (Hf (t_changes s))). apply NoDup_fst_map_to_list.
    - intros t o. rewrite (Hf (t_changes s)), elem_of_map_to_list. intro H. split; [exact H|]. exact (Hs _ _ H).
  Qed.

  Lemma select_main avail s : 0 <= sc -> fair_t ordc -> books base tbase s ->
    wp True (select est enum sc above chk cfg addr outputs ordc keys avail s) (fun s' _ => main_book base s').
  Proof.
    intros Hsc Ho B. unfold select.
    apply wp_bind. eapply wp_mono; [apply (fund_assets_books est enum chk cfg addr base tbase), B|]. intros s1 ut1 B1.
    apply wp_bind. eapply wp_mono; [apply (main_until_balanced_books est enum cfg base tbase), B1|]. intros s2 ut2 B2. cbn zeta.
    apply wp_bind. eapply wp_mono; [apply (extra_inputs_books est enum sc chk cfg outputs base tbase), B2|]. intros s3 ut3 B3.
    apply wp_bind. eapply wp_mono; [apply (return_excess_books est chk cfg addr base tbase), B3|]. intros s4 [] B4.
    apply wp_bind. eapply wp_mono; [apply (balance_excess_books est cfg addr base tbase), B4|]. intros s5 [] (M5 & T5 & S5).
    destruct (ordered_changes s5 Ho S5) as [N5 L5].
    apply wp_bind. eapply wp_mono; [apply (split_all_spec est sc above cfg base ut3 Hsc _ s5 N5 L5 M5)|].
    cbn beta. intros s6 [] (M6 & _). exact M6.
  Qed.

  Context (P : Prop) (h : list store_op).
  Context (Hfair : forall n, fair (enum n)) (Hwf : Forall wf_op h) (Hmain : c_main cfg = MAIN).
  Context (HN : NoDup keys) (HK : MAIN ∉ keys).

  (** fees too small to make a token change too small to split *)
  Definition small_fees : Prop := forall e o f, e_fee_out est e o = Some f -> f < half sc (c_min cfg).

  Lemma select_run s : 0 < sc -> fair_t ordc -> books base tbase s -> inv est sc cfg P h keys s (final h) ->
    wp False (select est enum sc above chk cfg addr outputs ordc keys (final h) s) (fun s' ut =>
      (ut = final (spend h (t_sel s')) /\ t_sel s' ++ unspent (spend h (t_sel s')) ≡ₚ unspent h /\
       (forall u, u ∈ t_sel s' -> exists t, (t = MAIN \/ t ∈ keys) /\ only t u = true)) /\
      (Forall nonneg_in (unspent h) ->
         (forall t, total_tokens s' t <= tbase t + token_in t (t_sel s')) /\
         (fine est sc cfg P h -> small_fees -> forall t, total_tokens s' t = tbase t + token_in t (t_sel s'))) /\
      (fine est sc cfg P h -> all_good s')).
  Proof.
    intros Hsc Ho B0 I0. unfold select.
    assert (Ex : forall {A} (p : st * res A) (Q R : st -> A -> Prop), wp True p Q -> wp False p R -> wp False p (fun s a => Q s a /\ R s a)).
    { intros A p Q R W1 W2. destruct p as [s0 [a| | |]]; cbn in *; auto. }
    apply wp_bind. eapply wp_mono; [apply Ex; [apply (fund_assets_books est enum chk cfg addr base tbase), B0|
      apply (fund_assets_run est enum sc chk cfg addr P h keys Hfair Hwf keys s (final h) HN); [auto|exact I0]]|].
    cbn beta. intros s1 ut1 (B1 & I1 & S1 & _).
    apply wp_bind. eapply wp_mono; [apply Ex; [apply (main_until_balanced_books est enum cfg base tbase), B1|
      apply (main_until_balanced_run est enum sc cfg P h keys Hfair Hwf Hmain _ s1 ut1 I1); lia]|].
    cbn beta zeta. intros s2 ut2 (B2 & I2 & F2).
    set (l := if (size (t_abal s2) =? 0)%nat || (length keys =? 0)%nat then keys ++ [c_main cfg] else keys).
    assert (Hl : l <> [] /\ (forall t, t ∈ l -> t = MAIN \/ t ∈ keys)).
    { unfold l. rewrite Hmain. destruct ((size (t_abal s2) =? 0)%nat), keys as [|k ks]; cbn [orb length Nat.eqb]; (split; [discriminate|]);
        intros t Ht; try (apply elem_of_app in Ht as [Ht|Ht]); auto; apply elem_of_list_singleton in Ht; auto. }
    assert (Hl2 : (keys = [] /\ l = [MAIN]) \/ (keys <> [] /\ l = keys)).
    { unfold l. rewrite Hmain. destruct keys as [|k ks]; [left; split; [reflexivity|]; destruct (size (t_abal s2) =? 0)%nat; reflexivity|].
      right. split; [discriminate|]. destruct (Nat.eqb_spec (size (t_abal s2)) 0) as [Em|Em]; [|reflexivity]. exfalso. apply map_size_empty_iff in Em.
      destruct (k_keys _ _ _ _ (proj1 I2) k) as [_ Q]. rewrite Em, lookup_empty in Q. destruct (Q ltac:(left)); discriminate. }
    destruct Hl as [Hl0 Hl1].
    apply wp_bind. eapply wp_mono; [apply Ex; [apply (extra_inputs_books est enum sc chk cfg outputs base tbase), B2|
      apply (extra_inputs_run est enum sc chk cfg outputs P h keys Hfair Hwf l Hl0 Hl1 _ _ _ s2 ut2 I2)]|].
    { apply repeat_length. }
    { destruct l; [congruence|cbn; lia]. }
    { right. exists 0%nat. assert (Hlen : (0 < length l)%nat) by (destruct l; [congruence|cbn; lia]).
      split; [exact Hlen|]. split; [|rewrite down_repeat; unfold extra_fuel; nia].
      rewrite Nat.mod_small by lia. destruct (length l); [lia|reflexivity]. }
    cbn beta. intros s3 ut3 (B3 & I3 & D3).
    set (l' := if (size (t_abal s3) =? 0)%nat || _ then removelast l else l).
    assert (Hl' : l' = keys).
    { unfold l'. destruct Hl2 as [[-> ->]|[Hne ->]].
      - cbn [length Nat.eqb andb head]. rewrite Hmain, (bool_decide_eq_true_2 (Some MAIN = Some MAIN)) by reflexivity. rewrite orb_true_r. reflexivity.
      - destruct (Nat.eqb_spec (size (t_abal s3)) 0) as [Em|Em]; cycle 1.
        + cbn [orb]. destruct keys as [|k [|k2 ks]]; [congruence| |reflexivity]. cbn. rewrite bool_decide_eq_false_2; [reflexivity|].
          rewrite Hmain. intro Q; injection Q as ->. apply HK. left.
        + exfalso. apply map_size_empty_iff in Em. destruct keys as [|k ks]; [congruence|].
          destruct (k_keys _ _ _ _ (proj1 I3) k) as [_ Q]. rewrite Em, lookup_empty in Q. destruct (Q ltac:(left)); discriminate. }
    clearbody l'. subst l'.
    apply wp_bind. eapply wp_mono; [apply Ex; [apply (return_excess_books est chk cfg addr base tbase), B3|
      apply (return_excess_run est sc chk cfg addr P h keys False keys s3 ut3 HN I3)]|].
    cbn beta. intros s4 [] (B4 & I4 & S4 & F4).
    apply wp_bind. eapply wp_mono; [apply Ex; [apply (balance_excess_books est cfg addr base tbase), B4|
      apply (balance_excess_run est sc cfg addr P h keys False s4 ut3 I4)]|].
    cbn beta. intros s5 [] ((M5 & T5 & H5) & I5 & A5).
    destruct (ordered_changes s5 Ho H5) as [N5 L5].
    assert (T5' : Forall nonneg_in (unspent h) -> forall t, total_tokens s5 t = tbase t + token_in t (t_sel s5)).
    { intros N t. specialize (T5 t). unfold total_tokens. enough (zsigned (bal_of (t_abal s5) t) = 0) by lia.
      unfold bal_of. rewrite A5. destruct (decide (t ∈ keys)) as [Hk|Hk].
      - rewrite (S4 t Hk); [reflexivity|]. apply D3; [exact N|]. exists Balanced.
        rewrite F2 by (intros ->; exact (HK Hk)). split; [apply S1, Hk|reflexivity].
      - destruct (t_abal s4 !! t) eqn:L4; [|reflexivity]. exfalso. apply Hk, (k_keys _ _ _ _ (proj1 I4)). eauto. }
    destruct I5 as [[P1 P2 P3 P4 P5] G5].
    assert (W : wp False (split_all est sc above cfg ut3 (ordc (t_changes s5)) s5) (fun s' _ =>
       (main_book base s' /\ t_sel s' = t_sel s5 /\ t_abal s' = t_abal s5 /\
        (forall t', total_tokens s' t' <= total_tokens s5 t') /\
        ((forall t o, (t, o) ∈ ordc (t_changes s5) -> o_assets o = [] \/ roomy est sc o) -> forall t', total_tokens s' t' = total_tokens s5 t')))).
    { apply split_all_no_loop. apply (split_all_spec est sc above cfg base ut3 ltac:(lia) _ s5 N5 L5 M5). }
    assert (W2 : fine est sc cfg P h -> wp True (split_all est sc above cfg ut3 (ordc (t_changes s5)) s5) (fun s' _ => all_good s')).
    { intros Fi. apply (split_all_run est sc above cfg P h ut3 Fi _ s5 N5 L5). destruct (G5 Fi) as [g1 g2 g3].
      split; [exact g1|]. split; [intros t o Q; apply (g3 _ _ Q)|rewrite P5; constructor]. }
    apply wp_bind. destruct (split_all est sc above cfg ut3 (ordc (t_changes s5)) s5) as [s6 [[]| | |]]; cbn [wp] in *; auto.
    destruct W as (M6 & S6 & A6 & T6 & R6). rewrite S6. split; [auto|]. split.
    - intro N. split.
      + intro t. specialize (T6 t). rewrite (T5' N) in T6. exact T6.
      + intros Fi Sm t. rewrite R6; [apply T5', N|]. intros t' o Hin.
        destruct (o_assets o) eqn:Ha; [left; reflexivity|right]. intros e o' f Hf.
        destruct (L5 _ _ Hin) as [Lo _]. destruct (G5 Fi) as [g1 g2 g3]. destruct (g3 _ _ Lo) as [_ Hmin].
        specialize (Hmin ltac:(congruence)). specialize (Sm _ _ _ Hf). destruct Fi as (Fe & _ & _ & Hs & _).
        assert (Pf : 0 <= f) by (eapply (Fe e); exact Hf). destruct (half_le sc f Hs Pf).
        assert (Q := half_mono sc _ _ Hs Hmin). lia.
    - exact W2.
  Qed.
End Whole.
