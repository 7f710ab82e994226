(** Proofs that the thermostat succeeds for a setup with tokens when there is plenty of each. *)
From Coq Require Import ZArith Lia Sorting.
From stdpp Require Import gmap strings list.
From Verif Require Import ValueModel BalanceModel BalanceProofs StoreModel StoreSpec StoreProofs StoreProps SelModel SelSpec SelProofs SelLargestProofs ThermoModel ThermoProofs ThermoRunProofs ThermoFeeProofs ThermoExtraProofs ThermoCountProofs ThermoTotalProofs ThermoPanicProofs.
Open Scope Z_scope.

(** an output whose only asset is of the token *)
Definition sole (t : token) (u : utxo) : Prop := match u_assets u with [x] => a_fp x = t | _ => False end.
Global Instance sole_dec t u : Decision (sole t u).
Proof. unfold sole. destruct (u_assets u) as [|x [|? ?]]; apply _. Defined.

Lemma sole_only t u : sole t u -> only t u = true.
Proof.
  unfold sole, only. destruct (u_assets u) as [|x [|? ?]]; intro H; try contradiction. subst t. cbn.
  rewrite bool_decide_eq_true_2 by reflexivity. reflexivity.
Qed.
Lemma sole_holds t u : sole t u -> holds t u.
Proof. unfold sole, holds. destruct (u_assets u) as [|x [|? ?]]; intro H; try contradiction. subst t. right. left. Qed.
Lemma only_sole t u : t <> MAIN -> only t u = true -> holds t u -> sole t u.
Proof.
  unfold sole, only, holds. intros n O [?|Hh]; [contradiction|]. destruct (u_assets u) as [|x [|? ?]]; [inversion Hh| |discriminate O].
  apply elem_of_list_singleton in Hh. auto.
Qed.
Lemma sole_one t t' u : sole t u -> sole t' u -> t = t'.
Proof. unfold sole. destruct (u_assets u) as [|x [|? ?]]; intros; try contradiction. congruence. Qed.

Lemma tp_and {S A} L (p : S * res A) (Q R : S -> A -> Prop) : tp False p Q -> wp L p R -> tp False p (fun s a => Q s a /\ R s a).
Proof. intros W1 W2. destruct p as [s0 [x| | |]]; cbn in *; tauto. Qed.
Lemma tp_np {S A} (p : S * res A) (Q R : S -> A -> Prop) : tp False p Q -> np p R -> tp False p (fun s a => Q s a /\ R s a).
Proof. intros W1 W2. destruct p as [s0 [x| | |]]; cbn in *; tauto. Qed.

Lemma msum_le (m : gmap token uout) c : (forall t o, m !! t = Some o -> o_value o <= c) -> msum o_value m <= Z.of_nat (size m) * c.
Proof.
  induction m as [|t o m L IH] using map_ind; intro H; [rewrite msum_empty, map_size_empty; lia|].
  rewrite msum_fresh by exact L. rewrite map_size_insert_None by exact L.
  assert (o_value o <= c) by (apply (H t); apply lookup_insert).
  assert (msum o_value m <= Z.of_nat (size m) * c); [|lia].
  apply IH. intros t' o' Q. apply (H t'). rewrite lookup_insert_ne; [exact Q|]. intros ->. congruence.
Qed.

Section Token.
  Context {E : Type} (est : estimator E) (enum : nat -> enumeration) (sc : Z) (above : Z -> Z -> N -> bool) (chk : bool)
          (cfg : tconfig) (addr : option string) (outputs : list uout) (ordc : torder uout).
  Notation st := (thermo E).
  Context (P : Prop) (h : list store_op) (K : list token) (a b : Z).
  Context (Hfair : forall n, fair (enum n)) (Hwf : Forall wf_op h) (Hmain : c_main cfg = MAIN).
  Context (HN : NoDup K) (HK : MAIN ∉ K).
  Notation inv := (inv est sc cfg P h K).
  Context (Hlin : linear est a b) (Hfine : fine est sc cfg P h).
  Context (base f0 : Z) (tbase : token -> Z).
  Notation books := (books base tbase).
  Notation told := (told (e_min_fee est) a b f0 0).
  Notation left s := (unspent (spend h (t_sel s))).

  Lemma linear_counted : counted est (e_min_fee est) a b.
  Proof.
    intros e f Hf. destruct (Hlin e) as (f' & Hf' & Li & Lo & Lm). rewrite Hf in Hf'. injection Hf' as <-.
    split; [|split; [|split]].
    - intros u e' Ha. destruct (Li u) as (_ & e2 & Ha2 & He2). rewrite Ha in Ha2. injection Ha2 as <-. exact He2.
    - intros u e' Ha. destruct (Li u) as (_ & e2 & Ha2 & _). rewrite Ha in Ha2. discriminate.
    - intros o e' Ha. destruct (Lo o) as (_ & e2 & Ha2 & He2). rewrite Ha in Ha2. injection Ha2 as <-. exact He2.
    - exact Lm.
  Qed.

  Lemma select_input_pick s ut t : inv s ut -> t = MAIN \/ t ∈ K ->
    (exists w, w ∈ left s /\ holds t w /\ only t w = true) ->
    tp False (select_input_for est enum s ut t) (fun s' ut' => took est sc cfg P h K t s ut s' ut' /\
      exists u e, e_add_in est (t_est s) u = (e, true) /\ s' = add_input (with_est s e) u /\ u ∈ left s /\ holds t u /\ only t u = true /\
        left s ≡ₚ u :: left s' /\ forall w, w ∈ left s -> holds t w -> only t w = true -> w = u \/ quantity t w <= quantity t u).
  Proof.
    intros H Ht (w & Hw & Hh & Hwo).
    assert (X := select_input_for_cases est enum sc cfg P h K Hfair Hwf s ut t H Ht). revert X.
    destruct H as [[A B C D X0] G]. subst ut. unfold select_input_for.
    assert (Hw2 : Forall wf_op (spend h (t_sel s))) by (apply spend_wf, Hwf).
    destruct (C10_listings (spend h (t_sel s)) t (enum (store_len (final (spend h (t_sel s))))) Hw2 (Hfair _)) as (_ & _ & Pm & _ & So & _).
    change (fst (store_run store_new (spend h (t_sel s)))) with (final (spend h (t_sel s))) in Pm, So.
    destruct (List.find _ _) as [u|] eqn:Fu.
    - intro X. assert (Fs := find_sorted _ _ _ _ So Fu). apply find_some in Fu as [Hin Ho]. apply elem_of_list_In in Hin.
      rewrite Pm in Hin. apply elem_of_list_filter in Hin as [Hhu Hu].
      destruct (Hlin (t_est s)) as (f' & _ & Li & _). destruct (Li u) as (_ & e' & Ha & _).
      unfold add_in in *. rewrite Ha in X |- *. cbn [bind] in X |- *. rewrite (remove_present _ _ Hu) in X |- *. cbn [tp].
      split; [exact X|]. exists u, e'. split; [exact Ha|]. split; [reflexivity|]. split; [exact Hu|]. split; [exact Hhu|]. split; [exact Ho|].
      split.
      + cbn [add_input with_est t_sel]. rewrite spend_app. symmetry. apply (unspent_spend_one _ _ Hu).
      + intros x Hx Hhx Hox. destruct (Fs x) as [->|R]; [rewrite Pm; apply elem_of_list_filter; auto|exact Hox|left; reflexivity|right; lia].
    - intros _. cbn [tp]. assert (N := find_none _ _ Fu w). rewrite Hwo in N. discriminate N.
      apply elem_of_list_In. rewrite Pm. apply elem_of_list_filter. auto.
  Qed.

  Definition sole_left (t : token) (s : st) : list utxo := filter (sole t) (left s).

  Lemma until_balanced_tok t : t ∈ K -> forall fuel s ut, inv s ut ->
    0 <= zsigned (bal_of (t_abal s) t) + token_in t (sole_left t s) -> (store_len ut < fuel)%nat ->
    tp False (until_balanced est enum chk fuel s ut t) (fun s' _ => exists us, t_sel s' = t_sel s ++ us /\ Forall (sole t) us /\
      t_changes s' = t_changes s /\ (zsigned (bal_of (t_abal s) t) < 0 -> us <> [])).
  Proof.
    intro Ht. assert (nM : t <> MAIN) by (intros ->; exact (HK Ht)).
    induction fuel as [|fuel IH]; intros s ut H Hs Hl; [lia|]. cbn [until_balanced].
    unfold current_balance_of. rewrite bool_decide_eq_false_2 by exact nM. rewrite andb_false_r.
    destruct (proj2 (k_keys _ _ _ _ (proj1 H) t) Ht) as [x Hx]. rewrite Hx. cbn [bind].
    assert (Nx : znormal x). { destruct H as [_ Gs]. destruct (Gs Hfine) as [_ G2 _]. specialize (G2 t). unfold bal_of in G2. rewrite Hx in G2. exact G2. }
    assert (Bx : bal_of (t_abal s) t = x) by (unfold bal_of; rewrite Hx; reflexivity). rewrite Bx in *.
    destruct (in_debt x) eqn:D.
    - apply tp_bind. assert (Px : zsigned x < 0) by (destruct x; try discriminate; cbn in *; lia).
      assert (Ne : exists w, w ∈ sole_left t s).
      { destruct (sole_left t s) as [|w l]; [change (token_in t []) with 0 in Hs; lia|]. exists w. left. }
      destruct Ne as [w Hw]. apply elem_of_list_filter in Hw as [Hw1 Hw2].
      eapply tp_mono; [apply (select_input_pick s ut t H (or_intror Ht))|].
      { exists w. split; [exact Hw2|]. split; [apply sole_holds, Hw1|apply sole_only, Hw1]. }
      cbn beta. intros s1 ut1 ([I1 L1 F1 _] & u & e & _ & Hs1 & Hu & Hhu & Hou & Pl & _).
      assert (Su : sole t u) by (apply only_sole; assumption).
      assert (Pf : sole_left t s ≡ₚ u :: sole_left t s1).
      { unfold sole_left. rewrite Pl. rewrite filter_cons_True by exact Su. reflexivity. }
      assert (Tk : token_in t (sole_left t s) = held t (u_assets u) + token_in t (sole_left t s1)).
      { rewrite (token_in_perm t _ _ Pf). change (u :: sole_left t s1) with ([u] ++ sole_left t s1). rewrite token_in_app, token_in_one. reflexivity. }
      assert (Ab : zsigned (bal_of (t_abal s1) t) = zsigned x + held t (u_assets u)).
      { rewrite Hs1. cbn [add_input with_est t_abal]. rewrite fold_bal_signed, Bx. reflexivity. }
      eapply tp_mono; [apply (IH s1 ut1 I1); [lia|lia]|]. cbn beta. intros s' _ (us & Q1 & Q2 & Q3 & _).
      exists (u :: us). split; [rewrite Q1, Hs1; cbn [add_input with_est t_sel]; rewrite <- app_assoc; reflexivity|].
      split; [constructor; assumption|]. split; [rewrite Q3, Hs1; reflexivity|discriminate].
    - cbn [tp]. exists []. rewrite app_nil_r. split; [reflexivity|]. split; [constructor|]. split; [reflexivity|].
      intro Q. destruct x; cbn in *; try discriminate; lia.
  Qed.

  Context (Ha : sc <= a) (Ha2 : a / sc < Z.of_N two64) (Hb2 : b / sc < Z.of_N two64).
  Context (Hs : forall e, is_Some (e_size est e) /\ is_Some (e_max est e)).
  Context (Hmin : forall e o, exists m, snd (e_min_value est e o) = Some m).
  Context (ad : string) (Had : addr = Some ad) (Hout : outputs <> []).
  Context (Hnum : c_num cfg <> 0%N) (Hnuma : c_num_assets cfg <> 0%N).
  Context (Hroom : chk = true -> forall e o f, e_fee_out est e o = Some f -> f / sc * Z.of_nat (length K) * 2 < Z.of_N two64).

  Lemma min_value_tok s o (Q : st -> Z -> Prop) : (forall e m, Q (with_est s e) m) -> tp False (min_value est s o) Q.
  Proof.
    intro H. unfold min_value. destruct (Hmin (t_est s) o) as [m Hm]. destruct (e_min_value est (t_est s) o) as [e m']. cbn [snd] in Hm. subst m'.
    cbn [tp]. apply H.
  Qed.
  Lemma fee_out_tok s o (Q : st -> Z -> Prop) : Q s b -> tp False (lift s (e_fee_out est (t_est s) o)) Q.
  Proof. intro H. destruct (Hlin (t_est s)) as (f & _ & _ & Lo & _). destruct (Lo o) as [-> _]. exact H. Qed.
  Lemma add_out_tok s o (Q : st -> unit -> Prop) : (forall e, Q (with_est s e) tt) -> tp False (add_out est s o) Q.
  Proof. intro H. unfold add_out. destruct (Hlin (t_est s)) as (f & _ & _ & Lo & _). destruct (Lo o) as (_ & e & -> & _). apply H. Qed.
  Lemma current_tok s (Q : st -> balance Z -> Prop) : (forall f, e_min_fee est (t_est s) = Some f -> Q s (zbal_sub_value (t_bal s) f)) ->
    tp False (current_balance est s) Q.
  Proof. intro H. unfold current_balance. destruct (Hlin (t_est s)) as (f & Hf & _). rewrite Hf. cbn. apply H, Hf. Qed.

  Lemma change_entry_tok s t w : tp False (change_entry est s ad t w) (fun s' _ => t_sel s' = t_sel s /\ t_changes s' = t_changes s).
  Proof.
    unfold change_entry. destruct (t_changes s !! t); [split; reflexivity|]. apply tp_bind, min_value_tok. intros e m. cbn zeta.
    destruct (w <? m); apply tp_bind, fee_out_tok; destruct (_ <? _); apply tp_bind, add_out_tok; intro e'; split; reflexivity.
  Qed.
  Lemma balance_excess_of_tok s ut t : inv s ut -> known s ut -> t ∈ K ->
    tp False (balance_excess_of est chk cfg addr s ut t) (fun s' _ => t_sel s' = t_sel s /\
      forall t' o, t_changes s' !! t' = Some o -> t_changes s !! t' = Some o \/ t' = t /\ o_value o <= c_max cfg).
  Proof.
    intros H Kn Ht. unfold balance_excess_of.
    assert (nM : t <> MAIN) by (intros ->; exact (HK Ht)).
    unfold current_balance_of. rewrite bool_decide_eq_false_2 by exact nM. rewrite andb_false_r.
    destruct (proj2 (k_keys _ _ _ _ (proj1 H) t) Ht) as [x Hx]. rewrite Hx. cbn [bind].
    destruct x as [d| |x]; [split; [reflexivity|auto]|split; [reflexivity|auto]|]. rewrite Had. cbn [lift bind]. apply tp_bind, current_tok. intros f _.
    cbn zeta. apply tp_bind. eapply tp_mono; [apply change_entry_tok|]. cbn beta. intros s1 o [S1 C1].
    assert (Cr : is_Some (credit ut t x o)).
    { unfold credit. destruct (o_assets o); [|eauto]. destruct (Kn t x Hx) as [[p n] ->]. eauto. }
    destruct Cr as [o' ->]. cbn [tp].
    assert (Q : forall (s2 : st) o2, t_sel s2 = t_sel s1 -> t_changes s2 = <[t := o2]> (t_changes s1) -> o_value o2 <= c_max cfg ->
      t_sel s2 = t_sel s /\ forall t' o, t_changes s2 !! t' = Some o -> t_changes s !! t' = Some o \/ t' = t /\ o_value o <= c_max cfg).
    { intros s2 o2 E1 E2 Hv. split; [congruence|]. intros t' o3. rewrite E2, C1. intro L.
      apply lookup_insert_Some in L as [[<- <-]|[_ L]]; [right; auto|left; exact L]. }
    unfold clamp. destruct (_ <? _); [|destruct (Z.ltb_spec (c_max cfg) (o_value o'))]; (eapply Q; [reflexivity|reflexivity|cbn; lia]).
  Qed.

  (** the changes made for the tokens so far *)
  Definition modest (s : st) : Prop := forall t o, t_changes s !! t = Some o -> t ∈ K /\ o_value o <= c_max cfg.
  Record ready (s : st) (ut : store) : Prop := {
    r_inv : inv s ut; r_known : known s ut; r_books : books s; r_told : told s; r_modest : modest s
  }.

  Lemma fund_assets_tok : forall l s ut, NoDup l -> (forall t, t ∈ l -> t ∈ K) -> ready s ut ->
    (forall t, t ∈ l -> 0 <= zsigned (bal_of (t_abal s) t) + token_in t (sole_left t s)) ->
    tp False (fund_assets est enum chk cfg addr l s ut) (fun s' ut' => ready s' ut' /\
      exists us, t_sel s' = t_sel s ++ us /\ Forall (fun u => exists t, t ∈ K /\ sole t u) us /\
        ((exists t, t ∈ l /\ zsigned (bal_of (t_abal s) t) < 0) -> us <> [])).
  Proof.
    induction l as [|t l IH]; intros s ut Nl Hl [I0 Kn0 B0 T0 M0] Hpool.
    - cbn. split; [split; assumption|]. exists []. rewrite app_nil_r. split; [reflexivity|]. split; [constructor|]. intros (t & Ht & _). inversion Ht.
    - apply NoDup_cons in Nl as [Hnot Nl]. assert (Ht : t ∈ K) by (apply Hl; left). cbn [fund_assets].
      assert (X := tp_np _ _ _ (tp_and _ _ _ _ (tp_and _ _ _ _ (tp_and _ _ _ _
        (until_balanced_tok t Ht (S (store_len ut)) s ut I0 (Hpool t ltac:(left)) ltac:(lia))
        (until_balanced_run est enum sc chk cfg P h K Hfair Hwf t Ht (S (store_len ut)) s ut I0 ltac:(lia)))
        (until_balanced_books est enum chk base tbase t (S (store_len ut)) s ut B0))
        (until_balanced_told est enum chk (e_min_fee est) a b f0 linear_counted t (S (store_len ut)) s ut T0))
        (until_balanced_np est enum sc chk cfg P h K Hfair Hwf HK t Ht (S (store_len ut)) s ut I0 Kn0)).
      apply tp_bind. eapply tp_mono; [exact X|]. clear X. cbn beta.
      intros s1 ut1 (((((us & S1 & U1 & C1 & N1) & (I1 & D1 & F1)) & B1) & T1) & (_ & Kn1)).
      assert (X := tp_np _ _ _ (tp_and _ _ _ _ (tp_and _ _ _ _ (tp_and _ _ _ _
        (balance_excess_of_tok s1 ut1 t I1 Kn1 Ht)
        (balance_excess_of_run est sc chk cfg addr P h K True s1 ut1 t I1))
        (balance_excess_of_books est chk cfg addr base tbase True s1 ut1 t B1))
        (balance_excess_of_told est chk cfg addr (e_min_fee est) a b f0 linear_counted True s1 ut1 t T1))
        (balance_excess_of_np est sc chk cfg addr P h K HK s1 ut1 t I1 Kn1 Ht)).
      apply tp_bind. eapply tp_mono; [exact X|]. clear X. cbn beta.
      intros s2 [] (((((S2 & C2) & (I2 & F2 & _)) & B2) & T2) & (_ & Kn2)).
      assert (M2 : modest s2).
      { intros t' o Q. destruct (C2 _ _ Q) as [Q1|[-> Q1]]; [|split; assumption]. rewrite C1 in Q1. exact (M0 _ _ Q1). }
      assert (Pool : forall t', t' ∈ l -> 0 <= zsigned (bal_of (t_abal s2) t') + token_in t' (sole_left t' s2)).
      { intros t' Ht'. assert (n : t' <> t) by (intros ->; contradiction).
        assert (E1 : bal_of (t_abal s2) t' = bal_of (t_abal s) t') by (unfold bal_of; rewrite F2, F1 by exact n; reflexivity).
        assert (E2 : sole_left t' s2 ≡ₚ sole_left t' s).
        { unfold sole_left. rewrite S2. assert (Q := k_part _ _ _ _ (proj1 I1)). rewrite S1 in Q |- *.
          rewrite <- (k_part _ _ _ _ (proj1 I0)), <- app_assoc in Q. apply Permutation_app_inv_l in Q. rewrite <- Q, filter_app.
          replace (filter (sole t') us) with (@nil utxo); [reflexivity|]. clear -U1 n. induction U1 as [|u us Hu _ IH]; [reflexivity|].
          rewrite filter_cons_False; [exact IH|]. intro Q. apply n. eapply sole_one; eassumption. }
        rewrite E1, (token_in_perm t' _ _ E2). apply Hpool. right. exact Ht'. }
      eapply tp_mono; [apply (IH s2 ut1 Nl (fun t' Ht' => Hl t' ltac:(right; exact Ht')) (Build_ready s2 ut1 I2 Kn2 B2 T2 M2) Pool)|].
      cbn beta. intros s3 ut3 (R3 & us3 & S3 & U3 & N3). split; [exact R3|]. exists (us ++ us3).
      split; [rewrite S3, S2, S1, app_assoc; reflexivity|]. split.
      + apply Forall_app. split; [|exact U3]. rewrite Forall_forall in U1 |- *. intros u Hu. exists t. split; [exact Ht|apply U1, Hu].
      + intros (t' & Ht' & Hneg). apply elem_of_cons in Ht' as [->|Ht'].
        * specialize (N1 Hneg). destruct us; [congruence|discriminate].
        * assert (n : t' <> t) by (intros ->; contradiction).
          assert (E1 : bal_of (t_abal s2) t' = bal_of (t_abal s) t') by (unfold bal_of; rewrite F2, F1 by exact n; reflexivity).
          assert (us3 <> []) by (apply N3; exists t'; rewrite E1; auto). destruct us; [assumption|discriminate].
  Qed.

  Lemma main_until_tok : forall fuel s ut f, inv s ut -> e_min_fee est (t_est s) = Some f ->
    (exists S, S ⊆+ pure (left s) /\ f + a * Z.of_nat (length S) <= zsigned (t_bal s) + value_in S) -> (store_len ut < fuel)%nat ->
    tp False (main_until_balanced est enum cfg fuel s ut) (fun s' _ => t_changes s' = t_changes s /\ t_abal s' = t_abal s /\
      0 <= zsigned (t_bal s') /\ (t_sel s <> [] \/ zsigned (t_bal s) < f -> t_sel s' <> [])).
  Proof.
    induction fuel as [|fuel IH]; intros s ut f H Hf En Hl; [lia|]. cbn [main_until_balanced]. unfold current_balance. rewrite Hf. cbn [lift bind].
    assert (G1 : znormal (t_bal s)) by (destruct H as [_ Gs]; destruct (Gs Hfine); assumption).
    assert (Hf0 : 0 <= f) by (destruct Hfine as (Fe & _); apply (proj1 (Fe (t_est s))); exact Hf).
    assert (D := debt_iff s _ G1 Hf0). destruct (in_debt _).
    - destruct En as (S & HS & Hen). assert (Hlt := proj1 D eq_refl).
      assert (HSn : S <> []). { intros ->. cbn [length] in Hen. change (value_in []) with 0 in Hen. lia. }
      assert (Hw2 : Forall wf_op (spend h (t_sel s))) by (apply spend_wf, Hwf).
      rewrite Hmain. apply tp_bind. eapply tp_mono; [apply (select_input_pick s ut MAIN H (or_introl eq_refl))|].
      { destruct S as [|w S]; [congruence|]. assert (Hw : w ∈ pure (left s)) by (eapply elem_of_submseteq; [left|exact HS]).
        apply elem_of_list_filter in Hw as [Hw1 Hw3]. exists w. split; [exact Hw3|]. split; [left; reflexivity|].
        apply (pure_main w (unspent_wf _ Hw2 _ Hw3)), Hw1. }
      cbn beta. intros s1 ut1 ([I1 L1 _ _] & u & e & Hae & Hs1 & Hu & _ & Hou & Pl & Hmax).
      assert (Pu : u_assets u = []) by (apply (pure_main u (unspent_wf _ Hw2 _ Hu)), Hou).
      assert (Pp : pure (left s) ≡ₚ u :: pure (left s1)) by (unfold pure; rewrite Pl; rewrite filter_cons_True by exact Pu; reflexivity).
      assert (Hm : forall w, w ∈ pure (left s1) -> u_value w <= u_value u).
      { intros w Hw. assert (Hw' : w ∈ pure (left s)) by (rewrite Pp; right; exact Hw). apply elem_of_list_filter in Hw' as [Hw1 Hw3].
        destruct (Hmax w Hw3) as [->|R]; [left; reflexivity|apply (pure_main w (unspent_wf _ Hw2 _ Hw3)), Hw1|lia|].
        unfold quantity in R. rewrite !decide_True, Pu, Hw1 in R by reflexivity. cbn in R. lia. }
      rewrite Pp in HS. destruct (exchange S (pure (left s1)) u Hm HS HSn) as (S' & HS' & Hlen & Hval).
      assert (Fe : e_min_fee est (t_est s1) = Some (f + a)).
      { rewrite Hs1. cbn [add_input with_est t_est]. eapply (linear_counted _ _ Hf). exact Hae. }
      assert (Bs : zsigned (t_bal s1) = zsigned (t_bal s) + u_value u).
      { rewrite Hs1. cbn [add_input with_est t_bal]. rewrite zbal_add_value_signed. lia. }
      eapply tp_mono; [apply (IH s1 ut1 _ I1 Fe); [|lia]|].
      + exists S'. split; [exact HS'|]. rewrite Hlen in Hen. lia.
      + cbn beta. intros s' _ (A1 & A2 & A3 & A4). rewrite Hs1 in A1, A2. cbn [add_input with_est t_changes t_abal] in A1, A2. rewrite Pu in A2. cbn [foldl] in A2.
        split; [exact A1|]. split; [exact A2|]. split; [exact A3|]. intros _. apply A4. left. rewrite Hs1. cbn [add_input with_est t_sel]. destruct (t_sel s); discriminate.
    - cbn [tp]. assert (~ zsigned (t_bal s) < f) by (intro Q; apply D in Q; discriminate).
      split; [reflexivity|]. split; [reflexivity|]. split; [lia|]. intros [?|?]; [assumption|lia].
  Qed.

  Lemma remaining_tok s ut : inv s ut -> t_sel s <> [] -> tp False (remaining est sc chk outputs s) (fun s' _ => s' = s).
  Proof.
    intros H Hsel.
    assert (Hin : forall e u f, e_fee_in est e u = Some f -> sc <= f).
    { intros e u f Hf. destruct (Hlin e) as (f' & _ & Li & _). destruct (Li u) as [Q _]. rewrite Hf in Q. injection Q as ->. exact Ha. }
    assert (N := remaining_np est sc chk cfg outputs P h K HN ltac:(apply Hfine) Hin Hroom Hnum Hnuma s ut H).
    unfold remaining in *. destruct outputs as [|o os]; [congruence|]. destruct (t_sel s) as [|u us]; [congruence|].
    assert (Hsc : 0 < sc) by apply Hfine. assert (Fe := proj1 Hfine (t_est s)).
    destruct (Hlin (t_est s)) as (f' & Hf' & Li & Lo & _). destruct (Lo o) as [Ho _]. destruct (Li u) as [Hi _].
    assert (0 <= b) by (eapply Fe; exact Ho).
    assert (Tb : to_usize sc b = Some (Z.to_N (b / sc))).
    { unfold to_usize. destruct (Z.ltb_spec b 0) as [?|_]; [lia|]. destruct (Z.ltb_spec (b / sc) (Z.of_N two64)) as [_|?]; [reflexivity|lia]. }
    assert (Ta : to_usize sc a = Some (Z.to_N (a / sc))).
    { unfold to_usize. destruct (Z.ltb_spec a 0) as [?|_]; [lia|]. destruct (Z.ltb_spec (a / sc) (Z.of_N two64)) as [_|?]; [reflexivity|lia]. }
    rewrite Ho in N |- *. cbn [lift bind] in N |- *. rewrite Tb in N |- *. cbn [lift bind] in N |- *. rewrite Hi in N |- *. cbn [lift bind] in N |- *.
    rewrite Ta in N |- *. cbn [lift bind] in N |- *. destruct (usize_mul _ _ _) as [r|]; [|exact N]. destruct (usize_mul _ _ _) as [r2|]; [|exact N].
    destruct (Hs (t_est s)) as [[n Hn] [m Hm]]. rewrite Hm in N |- *. cbn [lift bind] in N |- *. rewrite Hn in N |- *. cbn [lift bind] in N |- *.
    destruct (_ =? 0)%N; [exact N|reflexivity].
  Qed.

  (** few outputs of each token: the search for more inputs finds none *)
  Lemma extra_tok : forall fuel empty i s ut, inv s ut -> t_sel s <> [] ->
    (forall t, t ∈ K -> (N.of_nat (number_utxos_for_token ut t) <= c_num cfg)%N) -> length empty = length K -> (i < length K)%nat ->
    tp True (extra_inputs est enum sc chk cfg outputs fuel K empty i s ut) (fun s' ut' => s' = s /\ ut' = ut).
  Proof.
    induction fuel as [|fuel IH]; intros empty i s ut H Ne Few Le Hi; cbn [extra_inputs]; apply tp_bind;
      (assert (R := remaining_tok s ut H Ne)); (destruct (remaining est sc chk outputs s) as [s' [n| | |]]; try contradiction);
      cbn [tp] in *; subst s'; (destruct (n =? 0)%N; [split; reflexivity|]); [exact I|].
    destruct (lookup_lt_is_Some_2 K i Hi) as [t Et]. rewrite Et.
    destruct (lookup_lt_is_Some_2 empty i ltac:(lia)) as [fl Eb]. rewrite Eb.
    assert (Nx : (S i mod length K < length K)%nat) by (apply Nat.mod_upper_bound; lia).
    destruct fl; [destruct (forallb id empty); [split; reflexivity|apply IH; auto]|].
    assert (Ft : (N.of_nat (number_utxos_for_token ut t) <= c_num cfg)%N) by (apply Few, elem_of_list_lookup; eauto).
    destruct (N.leb_spec (N.of_nat (number_utxos_for_token ut t)) (c_num cfg)) as [_|?]; [|lia].
    apply IH; auto. rewrite insert_length. exact Le.
  Qed.

  Lemma return_excess_tok : forall l s ut, (forall t, t ∈ l -> t <> MAIN /\ settled (t_abal s) t) ->
    return_excess est chk cfg addr l s ut = (s, ROk tt).
  Proof.
    induction l as [|t l IH]; intros s ut Hl; [reflexivity|]. cbn [return_excess]. destruct (Hl t ltac:(left)) as [n St].
    unfold balance_excess_of, current_balance_of. rewrite bool_decide_eq_false_2 by exact n. rewrite andb_false_r, St. cbn [bind].
    apply IH. intros t' Ht'. apply Hl. right. exact Ht'.
  Qed.

  Lemma balance_excess_tok s : znormal (t_bal s) -> 0 <= zsigned (t_bal s) -> t_changes s !! MAIN = None ->
    tp False (balance_excess est cfg addr s) (fun s' _ => 0 <= zsigned (t_bal s') /\ znormal (t_bal s')).
  Proof.
    intros G1 Hb C0. unfold balance_excess. apply tp_bind, current_tok. intros f Hf.
    assert (0 <= f) by (destruct Hfine as (Fe & _); apply (proj1 (Fe (t_est s))); exact Hf).
    assert (R := zbal_sub_value_signed (t_bal s) f). assert (N := zbal_sub_value_normal (t_bal s) f G1 ltac:(assumption)).
    destruct (zbal_sub_value (t_bal s) f) as [d| |x]; [split; assumption|split; assumption|]. rewrite Had. cbn [lift bind].
    rewrite Hmain, C0. unfold min_value. destruct (Hmin (t_est s) (Uout ad x [] None)) as [m Hm].
    destruct (e_min_value est (t_est s) (Uout ad x [] None)) as [e m'] eqn:Em. cbn [snd] in Hm. subst m'. cbn [bind].
    assert (0 <= m) by (destruct Hfine as (_ & Hmv & _); eapply Hmv; exact Em).
    destruct (x <? m); [split; assumption|]. apply tp_bind.
    assert (0 <= b). { destruct (Hlin e) as (f' & _ & _ & Lo & _). destruct (Lo (Uout ad x [] None)) as [Lg _]. destruct Hfine as (Fe & _). eapply (Fe e); exact Lg. }
    apply fee_out_tok. destruct (Z.ltb_spec x (m + b)) as [?|?]; [split; assumption|]. cbn zeta. apply tp_bind, add_out_tok. intro e'.
    cbn [tp put with_est pay with_bal t_bal]. rewrite zbal_sub_value_signed. split; [cbn in R; lia|]. apply zbal_sub_value_normal; [exact G1|lia].
  Qed.

  Lemma split_all_tok ut : forall l s, znormal (t_bal s) -> 0 <= zsigned (t_bal s) ->
    tp False (split_all est sc above cfg ut l s) (fun s' _ => 0 <= zsigned (t_bal s') /\ znormal (t_bal s')).
  Proof.
    assert (Pb : forall (e : E), 0 <= b).
    { intro e. destruct (Hlin e) as (f' & _ & _ & Lo & _). destruct (Lo (Uout ad 0 [] None)) as [Lg _]. destruct Hfine as (Fe & _). eapply (Fe e); exact Lg. }
    induction l as [|[t o] l IH]; intros s G1 Hb; [split; assumption|]. cbn [split_all]. apply tp_bind. specialize (Pb (t_est s)).
    apply (tp_mono _ _ (fun s' _ => 0 <= zsigned (t_bal s') /\ znormal (t_bal s'))); [|intros s1 [] [A B]; apply IH; assumption].
    unfold split_one. destruct (get_balance_of ut t); [|split; assumption]. destruct (o_assets o).
    - destruct (bool_decide _); [|split; assumption]. destruct (N.eqb_spec (c_num cfg) 0) as [?|_]; [contradiction|].
      apply tp_bind, fee_out_tok. cbn zeta. destruct (_ || _); [split; assumption|]. destruct (above _ _ _); [|split; assumption].
      apply add_out_tok. intro e. cbn [with_est t_bal push_extra gain with_bal put].
      rewrite zbal_add_value_signed. split; [lia|]. apply zbal_add_value_normal; [exact G1|lia].
    - destruct (N.eqb_spec (c_num_assets cfg) 0) as [?|_]; [contradiction|]. destruct (above _ _ _); [|split; assumption]. cbn zeta.
      apply tp_bind, fee_out_tok. destruct (_ || _); [split; assumption|]. apply tp_bind, add_out_tok. intro e.
      cbn [tp with_est t_bal push_extra gain with_bal put].
      rewrite zbal_add_value_signed. split; [lia|]. apply zbal_add_value_normal; [exact G1|lia].
  Qed.

  (** what is taken for a token is worth its fee, and the tokens are there *)
  Context (Hworth : forall u t, u ∈ unspent h -> t ∈ K -> sole t u -> a <= u_value u).
  Context (Htok : forall t, t ∈ K -> 0 <= tbase t + token_in t (filter (sole t) (unspent h))).
  Context (Hfew : forall t, t ∈ K -> (N.of_nat (length (filter (holds t) (unspent h))) <= c_num cfg)%N).

  Lemma worth_sum l : Forall (fun u => a <= u_value u) l -> a * Z.of_nat (length l) <= value_in l.
  Proof.
    induction 1 as [|u l Hu _ IH]; [change (value_in []) with 0; cbn; lia|].
    change (u :: l) with ([u] ++ l). rewrite value_in_app, value_in_one, app_length. cbn [length]. lia.
  Qed.
  Lemma pure_sole_nil us : Forall (fun u => exists t, t ∈ K /\ sole t u) us -> pure us = [].
  Proof.
    induction 1 as [|u us (t & _ & Hu) _ IH]; [reflexivity|]. unfold pure. rewrite filter_cons_False; [exact IH|].
    intro Q. unfold sole in Hu. rewrite Q in Hu. exact Hu.
  Qed.

  Lemma select_tok s : fair_t ordc -> K <> [] -> ready s (final h) -> t_changes s = ∅ -> t_sel s = [] -> t_extra s = [] ->
    (base < f0 \/ exists t, t ∈ K /\ tbase t < 0) ->
    (exists S, S ⊆+ pure (unspent h) /\
      f0 + Z.of_nat (length K) * (c_max cfg + b) + a * Z.of_nat (length S) <= base + value_in S) ->
    tp False (select est enum sc above chk cfg addr outputs ordc K (final h) s) (fun s' _ => in_debt (t_bal s') = false).
  Proof.
    intros Ho Kne R0 C0 S0 X0 Hlt (S & HS & Hen). unfold select.
    assert (Bk : forall t, zsigned (bal_of (t_abal s) t) = tbase t).
    { intro t. destruct (r_books _ _ R0) as (_ & T & _). rewrite T, C0, S0, X0, msum_empty. unfold token_in, token_out, sumZ. cbn. lia. }
    assert (Pool0 : forall t, t ∈ K -> 0 <= zsigned (bal_of (t_abal s) t) + token_in t (sole_left t s)).
    { intros t Ht. rewrite Bk. unfold sole_left. rewrite S0, spend_nil. apply Htok, Ht. }
    apply tp_bind. eapply tp_mono; [apply (tp_and _ _ _ _ (fund_assets_tok K s (final h) HN (fun t Ht => Ht) R0 Pool0)
      (fund_assets_run est enum sc chk cfg addr P h K Hfair Hwf K s (final h) HN (fun t Ht => Ht) (r_inv _ _ R0)))|].
    cbn beta. intros s1 ut1 ((R1 & us & U1 & U2 & U3) & (_ & St1 & _)). rewrite S0 in U1. cbn [app] in U1.
    destruct R1 as [I1 Kn1 B1 T1 M1].
    assert (Xt : t_extra s1 = []) by apply (k_extra _ _ _ _ (proj1 I1)).
    assert (Part := k_part _ _ _ _ (proj1 I1)). rewrite U1 in Part.
    assert (Lp : pure (left s1) ≡ₚ pure (unspent h)).
    { rewrite U1. unfold pure at 2. rewrite <- Part, filter_app. fold (pure us). rewrite (pure_sole_nil us U2). reflexivity. }
    assert (Sz : (size (t_changes s1) <= length K)%nat).
    { rewrite <- size_dom, <- (size_list_to_set (C := gset token) K HN). apply subseteq_size. intros t Ht. apply elem_of_dom in Ht as [o Ho1].
      apply elem_of_list_to_set. exact (proj1 (M1 _ _ Ho1)). }
    assert (Wv : a * Z.of_nat (length us) <= value_in us).
    { apply worth_sum. rewrite Forall_forall in U2 |- *. intros u Hu. destruct (U2 u Hu) as (t & Ht & Su). apply (Hworth u t); [|exact Ht|exact Su].
      rewrite <- Part. apply elem_of_app. left. exact Hu. }
    assert (Fee : e_min_fee est (t_est s1) = Some (f0 + a * Z.of_nat (length us) + b * Z.of_nat (size (t_changes s1)))).
    { assert (Q := T1). unfold told in Q. unfold ThermoCountProofs.told, changes_of in Q. rewrite Q, Xt, U1. f_equal. cbn [length]. lia. }
    assert (Bal : zsigned (t_bal s1) = base + value_in us - msum o_value (t_changes s1)).
    { destruct B1 as (M & _). unfold main_book in M. rewrite M, Xt, U1. unfold value_out, sumZ. cbn. lia. }
    assert (Ms : msum o_value (t_changes s1) <= Z.of_nat (size (t_changes s1)) * c_max cfg) by (apply msum_le; intros t o Q; apply (M1 t o Q)).
    assert (Hc : 0 <= c_max cfg) by (destruct Hfine as (_ & _ & ? & _); lia).
    assert (Pb : 0 <= b).
    { destruct (Hlin (t_est s)) as (f' & _ & _ & Lo & _). destruct (Lo (Uout ad 0 [] None)) as [Lg _]. destruct Hfine as (Fe & _). eapply (Fe (t_est s)); exact Lg. }
    assert (Mp : 0 <= msum o_value (t_changes s1)).
    { destruct I1 as [_ Gs]. destruct (Gs Hfine) as [_ _ G3]. unfold msum. assert (Q : forall x, x ∈ map_to_list (t_changes s1) -> 0 <= o_value x.2) by (intros [t o] Hin; apply elem_of_map_to_list in Hin; apply (G3 _ _ Hin)).
      clear -Q. induction (map_to_list (t_changes s1)) as [|x l IH]; [unfold sumZ; cbn; lia|]. cbn [map]. unfold sumZ in *. cbn [foldr].
      assert (0 <= o_value x.2) by (apply Q; left). assert (0 <= foldr Z.add 0 (map (fun to => o_value to.2) l)) by (apply IH; intros; apply Q; right; assumption). lia. }
    assert (Prod : Z.of_nat (size (t_changes s1)) * (c_max cfg + b) <= Z.of_nat (length K) * (c_max cfg + b)) by (apply Z.mul_le_mono_nonneg_r; lia).
    apply tp_bind. eapply tp_mono.
    { apply (tp_and _ _ _ _ (main_until_tok (Datatypes.S (store_len ut1)) s1 ut1 _ I1 Fee ltac:(exists S; split; [rewrite Lp; exact HS|lia]) ltac:(lia))
        (main_until_balanced_run est enum sc cfg P h K Hfair Hwf Hmain (Datatypes.S (store_len ut1)) s1 ut1 I1 ltac:(lia))). }
    cbn beta zeta. intros s2 ut2 ((C2 & A2 & B2 & N2) & (I2 & _)).
    assert (Ne2 : t_sel s2 <> []).
    { apply N2. destruct Hlt as [Hlt|(t & Ht & Hneg)].
      - destruct us as [|u us']; [right; rewrite Bal; cbn [length]; change (value_in []) with 0; lia|left; rewrite U1; discriminate].
      - left. rewrite U1. apply U3. exists t. rewrite Bk. auto. }
    rewrite (size_keys est sc cfg P h K HN s2 ut2 I2).
    assert (L0 : (length K =? 0)%nat = false) by (apply Nat.eqb_neq; destruct K; [congruence|discriminate]).
    rewrite L0. cbn [orb].
    assert (Few2 : forall t, t ∈ K -> (N.of_nat (number_utxos_for_token ut2 t) <= c_num cfg)%N).
    { intros t Ht. rewrite (k_store _ _ _ _ (proj1 I2)).
      assert (Hw2 : Forall wf_op (spend h (t_sel s2))) by (apply spend_wf, Hwf).
      destruct (C10_listings (spend h (t_sel s2)) t (enum 0) Hw2 (Hfair _)) as (_ & _ & _ & _ & _ & Q & _).
      change (fst (store_run store_new (spend h (t_sel s2)))) with (final (spend h (t_sel s2))) in Q. rewrite Q.
      specialize (Hfew t Ht). rewrite <- (k_part _ _ _ _ (proj1 I2)), filter_app, app_length in Hfew. lia. }
    assert (Lk : (0 < length K)%nat) by (destruct K; [congruence|cbn; lia]).
    apply tp_bind.
    match goal with |- tp _ ?p _ => assert (T3 : tp False p (fun s' ut' => s' = s2 /\ ut' = ut2)) end.
    { assert (Q1 := extra_tok (extra_fuel K ut2) (repeat false (length K)) 0 s2 ut2 I2 Ne2 Few2 ltac:(apply repeat_length) Lk).
      assert (Q2 : wp False (extra_inputs est enum sc chk cfg outputs (extra_fuel K ut2) K (repeat false (length K)) 0 s2 ut2) (fun _ _ => True)).
      { eapply wp_mono; [apply (extra_inputs_run est enum sc chk cfg outputs P h K Hfair Hwf K Kne (fun t Ht => or_intror Ht)); [exact I2|apply repeat_length|exact Lk|]|auto].
        right. exists 0%nat. split; [exact Lk|]. split; [rewrite Nat.mod_small by lia; destruct (length K); [lia|reflexivity]|].
        unfold extra_fuel. rewrite down_repeat. nia. }
      destruct (extra_inputs _ _ _ _ _ _ _ _ _ _ _ _) as [s3 [ut3| | |]]; cbn in *; tauto. }
    eapply tp_mono; [exact T3|]. cbn beta. intros s3 ut3 [-> ->].
    rewrite (size_keys est sc cfg P h K HN s2 ut2 I2), L0. cbn [orb].
    assert (Hd : (length K =? 1)%nat && bool_decide (head K = Some (c_main cfg)) = false).
    { rewrite bool_decide_eq_false_2; [apply andb_false_r|]. rewrite Hmain. intro Q. apply HK. destruct K; [discriminate|]. injection Q as ->. left. }
    rewrite Hd. cbn zeta.
    rewrite (return_excess_tok K s2 ut2).
    2: { intros t Ht. split; [intros ->; exact (HK Ht)|]. unfold settled. rewrite A2. apply St1, Ht. }
    cbn [bind].
    assert (G2 : znormal (t_bal s2)) by (destruct I2 as [_ Gs]; destruct (Gs Hfine); assumption).
    assert (CM : t_changes s2 !! MAIN = None).
    { rewrite C2. destruct (t_changes s1 !! MAIN) as [o|] eqn:Q; [|reflexivity]. exfalso. apply HK, (M1 _ _ Q). }
    apply tp_bind. eapply tp_mono; [apply (balance_excess_tok s2 G2 B2 CM)|]. cbn beta. intros s4 [] (B4 & G4).
    apply tp_bind. eapply tp_mono; [apply (split_all_tok ut2 _ s4 G4 B4)|]. cbn beta. intros s5 [] (B5 & G5).
    cbn [tp]. destruct (t_bal s5); cbn in *; try reflexivity. lia.
  Qed.
End Token.
