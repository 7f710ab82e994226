(** Proofs about largest-first selection. *)
From Coq Require Import ZArith Lia.
From stdpp Require Import gmap strings list sorting.
From Verif Require Import ValueModel BalanceModel BalanceProofs StoreModel StoreSpec StoreProofs SelModel SelSpec SelProofs.
Open Scope Z_scope.

(** ** the store during a selection *)
Lemma store_run_snoc h o : forall st, OpPanic ∉ snd (store_run st h) ->
  fst (store_run st (h ++ [o])) = fst (store_step (fst (store_run st h)) o).
Proof.
  induction h as [|x h IH]; intros st Hp; cbn [app store_run].
  - cbn [store_run fst] in *. destruct (store_step st o) as [st' r] eqn:S. destruct r; reflexivity.
  - cbn [store_run] in Hp. destruct (store_step st x) as [st' r] eqn:S.
    specialize (IH st').
    destruct r; [| |exfalso; apply Hp; left];
      destruct (store_run st' h) as [a b] eqn:R; destruct (store_run st' (h ++ [o])) as [c d] eqn:R2;
      cbn [fst snd] in *; apply IH; intro Hin; apply Hp; right; exact Hin.
Qed.
Lemma spec_results_no_panic h : forall l, OpPanic ∉ spec_results l h.
Proof.
  induction h as [|o h IH]; intros l; cbn [spec_results]; [intro H; inversion H|].
  rewrite elem_of_cons. intros [H|H]; [|exact (IH _ H)].
  destruct o; cbn [spec_ok] in H; destruct (decide _); discriminate.
Qed.
Lemma final_snoc h o : final (h ++ [o]) = fst (store_step (final h) o).
Proof.
  unfold final. apply store_run_snoc. destruct (final_spec h) as [-> _]. apply spec_results_no_panic.
Qed.

Lemma store_len_final h : store_len (final h) = length (unspent h).
Proof.
  destruct (final_spec h) as [_ W]. unfold store_len. rewrite (so_set _ _ _ (w_main _ _ W)).
  apply size_as_map, NoDup_unspent.
Qed.

Lemma spend_nil h : spend h [] = h.
Proof. unfold spend. apply app_nil_r. Qed.
Lemma spend_app h a b : spend h (a ++ b) = spend (spend h a) b.
Proof. unfold spend. rewrite map_app, app_assoc. reflexivity. Qed.
Lemma spend_wf h us : Forall wf_op h -> Forall wf_op (spend h us).
Proof. intro H. unfold spend. apply Forall_app. split; [exact H|]. apply Forall_forall. intros o Ho. apply elem_of_list_fmap in Ho as (u & -> & _). exact I. Qed.

Lemma filter_ptr_perm l u : NoDup (map u_ptr l) -> u ∈ l -> u :: filter (fun w => u_ptr w <> u_ptr u) l ≡ₚ l.
Proof.
  intros HN Hin. apply elem_of_Permutation in Hin as [k Hk].
  assert (HN' : NoDup (map u_ptr (u :: k))) by (rewrite <- Hk; exact HN).
  cbn [map] in HN'. apply NoDup_cons in HN' as [Hnot _].
  assert (F : filter (fun w => u_ptr w <> u_ptr u) l ≡ₚ filter (fun w => u_ptr w <> u_ptr u) (u :: k))
    by (rewrite Hk; reflexivity).
  rewrite F, filter_cons_False by auto. rewrite Hk. apply Permutation_skip.
  clear F Hk HN. induction k as [|w k IH]; [reflexivity|]. cbn [map] in Hnot. apply not_elem_of_cons in Hnot as [A B].
  rewrite filter_cons_True by auto. apply Permutation_skip, IH, B.
Qed.
Lemma unspent_remove h p : unspent (h ++ [Remove p]) = filter (fun u => u_ptr u <> p) (unspent h).
Proof. unfold unspent. rewrite foldl_app. reflexivity. Qed.
Lemma unspent_spend_one h u : u ∈ unspent h -> u :: unspent (spend h [u]) ≡ₚ unspent h.
Proof. intro H. unfold spend. cbn [map]. rewrite unspent_remove. apply filter_ptr_perm; [apply NoDup_unspent|exact H]. Qed.

Lemma unspent_wf h : Forall wf_op h -> forall u, u ∈ unspent h -> wf_utxo u.
Proof.
  intros H u Hu. destruct (final_strong h H) as (_ & Hw & _). apply (Hw (u_ptr u)).
  apply as_map_Some; [apply NoDup_unspent|auto].
Qed.

Lemma remove_present h u : u ∈ unspent h -> store_remove (final h) (u_ptr u) = (final (spend h [u]), OpOk).
Proof.
  intro Hu. unfold spend. cbn [map]. rewrite final_snoc. cbn [store_step].
  destruct (final_spec h) as [_ W]. destruct (weak_step _ _ (Remove (u_ptr u)) W) as (st' & r & S & Hp & _ & Hr & _).
  cbn [store_step] in S. rewrite S. destruct r; [reflexivity| |congruence].
  exfalso. assert (N : as_map (unspent h) !! u_ptr u = None) by (apply Hr; reflexivity).
  rewrite (proj2 (as_map_Some (u_ptr u) u (unspent h) (NoDup_unspent h))) in N by auto. discriminate.
Qed.

Lemma holders_list t h u : u ∈ map snd (map_to_list (holders t (as_map (unspent h)))) <-> u ∈ unspent h /\ holds t u.
Proof.
  rewrite elem_of_list_fmap. split.
  - intros ([p w] & -> & H). apply elem_of_map_to_list, holders_lookup in H as [H Hh].
    apply as_map_Some in H as [H _]; [auto|apply NoDup_unspent].
  - intros [H Hh]. exists (u_ptr u, u). split; [reflexivity|]. apply elem_of_map_to_list, holders_lookup. split; [|exact Hh].
    apply as_map_Some; [apply NoDup_unspent|auto].
Qed.

Lemma largest_spec enum h t : (forall n, fair (enum n)) -> Forall wf_op h ->
  (largest_for enum (final h) t = Some None /\ forall w, w ∈ unspent h -> ~ holds t w) \/
  exists u, largest_for enum (final h) t = Some (Some (u, final (spend h [u]))) /\ u ∈ unspent h /\ holds t u /\
    forall w, w ∈ unspent h -> holds t w -> quantity t w <= quantity t u.
Proof.
  intros Hf Hw. destruct (final_strong h Hw) as (W & _ & Hby). specialize (Hby t). destruct Hby as [Hn Hs].
  unfold largest_for, iter_token_ordered_by_value_rev.
  destruct (st_by (final h) !! t) as [s|] eqn:L.
  - destruct (Hs s eq_refl) as [_ Hok].
    assert (P := ordered_rev_perm (enum (store_len (final h))) _ _ _ (Hf _) Hok).
    assert (S := ordered_rev_sorted (enum (store_len (final h))) _ _ _ (Hf _) Hok).
    destruct (ordered_rev (enum (store_len (final h))) s) as [|u r].
    + exfalso. apply Permutation_nil_l in P.
      assert (P' : map_to_list (holders t (as_map (unspent h))) = []).
      { destruct (map_to_list (holders t (as_map (unspent h)))); [reflexivity|]. discriminate. }
      apply map_to_list_empty_iff in P'. apply Hn in P'. discriminate.
    + right. exists u.
      assert (Hu : u ∈ unspent h /\ holds t u) by (apply holders_list; rewrite <- P; left).
      rewrite (remove_present h u (proj1 Hu)). split; [reflexivity|]. split; [apply Hu|]. split; [apply Hu|].
      intros w Hw1 Hw2. assert (Hin : w ∈ u :: r) by (rewrite P; apply holders_list; auto).
      apply elem_of_cons in Hin as [->|Hin]; [lia|]. apply StronglySorted_inv in S as [_ S].
      rewrite Forall_forall in S. specialize (S _ Hin). lia.
  - left. split; [reflexivity|]. intros w Hw1 Hh. assert (E0 : holders t (as_map (unspent h)) = ∅) by (apply Hn; reflexivity).
    assert (w ∈ map snd (map_to_list (holders t (as_map (unspent h))))) as Hin by (apply holders_list; auto).
    rewrite E0, map_to_list_empty in Hin. inversion Hin.
Qed.

(** ** sums *)
Lemma value_in_app a b : value_in (a ++ b) = value_in a + value_in b.
Proof. unfold value_in. rewrite map_app. apply sumZ_app. Qed.
Lemma token_in_app t a b : token_in t (a ++ b) = token_in t a + token_in t b.
Proof. unfold token_in. rewrite map_app. apply sumZ_app. Qed.
Lemma token_in_perm t a b : a ≡ₚ b -> token_in t a = token_in t b.
Proof. intro H. unfold token_in. apply sumZ_perm. rewrite H. reflexivity. Qed.
Lemma value_in_perm a b : a ≡ₚ b -> value_in a = value_in b.
Proof. intro H. unfold value_in. apply sumZ_perm. rewrite H. reflexivity. Qed.
Lemma token_in_zero t us : (forall u, u ∈ us -> held t (u_assets u) = 0) -> token_in t us = 0.
Proof.
  unfold token_in. induction us as [|u us IH]; intro H; [reflexivity|]. cbn [map]. unfold sumZ in *. cbn [foldr].
  rewrite IH, H; [reflexivity|left|]. intros; apply H; right; assumption.
Qed.
Lemma token_in_nonneg t us : Forall nonneg_in us -> 0 <= token_in t us.
Proof.
  unfold token_in. induction 1 as [|u us [_ Ha] _ IH]; [reflexivity|]. cbn [map]. unfold sumZ in *. cbn [foldr].
  assert (X := held_nonneg t _ Ha). lia.
Qed.
Lemma held_not t l : t ∉ map a_fp l -> held t l = 0.
Proof. intro H. unfold held. rewrite filter_fp_nil by exact H. reflexivity. Qed.
Lemma held_main u : wf_utxo u -> held MAIN (u_assets u) = 0.
Proof. unfold wf_utxo. intro H. apply NoDup_cons in H as [H _]. apply held_not, H. Qed.

Section Charge.
  Context {E : Type} (est : estimator E).
  Lemma charge_snoc us u : forall e e1 f1, charge est e us = Some (e1, f1) ->
    charge est e (us ++ [u]) =
      match e_fee_in est e1 u, e_add_in est e1 u with
      | Some f, (e', true) => Some (e', f1 + f)
      | _, _ => None
      end.
  Proof.
    induction us as [|w us IH]; intros e e1 f1; cbn [charge app].
    - intro H. injection H as -> ->. destruct (e_fee_in est e1 u); [|reflexivity].
      destruct (e_add_in est e1 u) as [e' []]; [|reflexivity]. f_equal. f_equal. lia.
    - destruct (e_fee_in est e w) as [f|]; [|discriminate]. destruct (e_add_in est e w) as [e' []]; [|discriminate].
      destruct (charge est e' us) as [[e2 g]|] eqn:C; [|discriminate]. intro H. injection H as -> <-.
      rewrite (IH e' e1 g C). destruct (e_fee_in est e1 u) as [f'|]; [|reflexivity].
      destruct (e_add_in est e1 u) as [e3 []]; [|reflexivity]. f_equal. f_equal. lia.
  Qed.
  Lemma charge_nonneg us : fees_nonneg est -> forall e e1 f, charge est e us = Some (e1, f) -> 0 <= f.
  Proof.
    intro Hn. induction us as [|u us IH]; intros e e1 f; cbn [charge].
    - intro H. injection H as _ <-. lia.
    - destruct (e_fee_in est e u) as [g|] eqn:G; [|discriminate]. destruct (e_add_in est e u) as [e' []]; [|discriminate].
      destruct (charge est e' us) as [[e2 k]|] eqn:C; [|discriminate]. intro H. injection H as _ <-.
      assert (A := proj1 (proj2 (Hn e)) u g G). assert (B := IH _ _ _ C). lia.
  Qed.
End Charge.

(** ** the loops *)
Section Loops.
  Context {E : Type} (est : estimator E) (enum : nat -> enumeration).
  Hypothesis enum_fair : forall n, fair (enum n).
  Context (h : list store_op) (h_wf : Forall wf_op h) (e0 : E) (fee0 T0 : Z) (A0 : assets).

  Record good (s : lf E) : Prop := Good {
    g_st : l_utxos s = final (spend h (l_chosen s));
    g_perm : l_chosen s ++ unspent (spend h (l_chosen s)) ≡ₚ unspent h;
    g_fee : charge est e0 (l_chosen s) = Some (l_est s, l_fee s - fee0);
    g_total : l_total s = T0 + value_in (l_chosen s);
    g_assets : forall t, amount t (l_assets s) = amount t A0 + token_in t (l_chosen s)
  }.

  (** the estimator refuses to go on from the inputs already chosen *)
  Definition refuses (e : E) : Prop :=
    exists c e1 f u, charge est e0 c = Some (e1, f) /\
      ((e_fee_in est e1 u = None /\ e = e1) \/ e_add_in est e1 u = (e, false)).

  Lemma good_init : good (Lf (final h) e0 A0 T0 fee0 []).
  Proof.
    split; cbn [l_utxos l_est l_assets l_total l_fee l_chosen]; rewrite ?spend_nil; try reflexivity.
    - cbn [charge]. f_equal. f_equal. lia.
    - unfold value_in. cbn. lia.
    - intro t. unfold token_in. cbn. lia.
  Qed.

  Lemma charge_step s u m' : good s -> u ∈ unspent (spend h (l_chosen s)) ->
    (forall t, amount t m' = amount t (l_assets s) + held t (u_assets u)) ->
    (exists s', lf_charge est s u (final (spend (spend h (l_chosen s)) [u])) m' = SDone s' /\ good s' /\
       l_chosen s' = l_chosen s ++ [u] /\ l_assets s' = m') \/
    (exists e, lf_charge est s u (final (spend (spend h (l_chosen s)) [u])) m' = SFail e /\ refuses e).
  Proof.
    intros [G1 G2 G3 G4 G5] Hu Hm. unfold lf_charge.
    destruct (e_fee_in est (l_est s) u) as [f|] eqn:F.
    - destruct (e_add_in est (l_est s) u) as [e' ok] eqn:A. destruct ok.
      + left. eexists. split; [reflexivity|]. cbn [l_chosen l_assets]. split; [|auto].
        split; cbn [l_utxos l_est l_assets l_total l_fee l_chosen].
        * rewrite spend_app. reflexivity.
        * rewrite spend_app, <- app_assoc. cbn [app]. rewrite unspent_spend_one by exact Hu. exact G2.
        * rewrite (charge_snoc est _ u _ _ _ G3), F, A. f_equal. f_equal. lia.
        * rewrite value_in_app, G4. unfold value_in at 3. cbn. lia.
        * intro t. rewrite Hm, G5, token_in_app. unfold token_in at 3. cbn. lia.
      + right. eexists. split; [reflexivity|]. exists (l_chosen s), (l_est s), (l_fee s - fee0), u. auto.
    - right. eexists. split; [reflexivity|]. exists (l_chosen s), (l_est s), (l_fee s - fee0), u. auto.
  Qed.

  Lemma lf_asset_fold t l : forall m tb,
    foldl (lf_asset t) (m, tb) l = (add_assets m l, tb + if decide (t = MAIN) then 0 else held t l).
  Proof.
    induction l as [|a l IH]; intros m tb; cbn [foldl].
    - rewrite held_nil. cbn. f_equal. destruct (decide (t = MAIN)); lia.
    - unfold lf_asset at 2. cbn [fst snd]. rewrite IH. f_equal. rewrite held_cons.
      repeat case_bool_decide; destruct (decide (t = MAIN)); destruct (decide (a_fp a = t)); cbn [andb]; try lia; congruence.
  Qed.

  Lemma take_spec t s : good s ->
    let rest := unspent (spend h (l_chosen s)) in
    (lf_take est enum t s (amount t (l_assets s)) = SFail (l_est s) /\ forall w, w ∈ rest -> ~ holds t w) \/
    (exists u s', lf_take est enum t s (amount t (l_assets s)) = SDone (s', amount t (l_assets s')) /\ good s' /\
        u ∈ rest /\ l_chosen s' = l_chosen s ++ [u] /\ holds t u /\
        forall w, w ∈ rest -> holds t w -> quantity t w <= quantity t u) \/
    (exists e, lf_take est enum t s (amount t (l_assets s)) = SFail e /\ refuses e).
  Proof.
    intros G rest. unfold lf_take. rewrite (g_st _ G).
    destruct (largest_spec enum (spend h (l_chosen s)) t enum_fair (spend_wf _ _ h_wf)) as [[-> Hno]|(u & -> & Hu & Hh & Hmax)].
    - left. auto.
    - rewrite lf_asset_fold. cbn [fst snd].
      destruct (charge_step s u (add_assets (l_assets s) (u_assets u)) G Hu) as [(s' & -> & G' & Hc & Ha)|(e & -> & R)].
      + intro t'. apply amount_add_assets.
      + right. left. exists u, s'. split.
        * f_equal. f_equal. rewrite Ha, amount_add_assets. destruct (decide (t = MAIN)) as [->|]; [|reflexivity].
          rewrite held_main; [reflexivity|]. apply (unspent_wf _ (spend_wf h (l_chosen s) h_wf)), Hu.
        * auto 10.
      + right. right. eauto.
  Qed.

  Lemma take_main_spec s : good s ->
    let rest := unspent (spend h (l_chosen s)) in
    (lf_take_main est enum s = SFail (l_est s) /\ rest = []) \/
    (exists u s', lf_take_main est enum s = SDone s' /\ good s' /\
        u ∈ rest /\ l_chosen s' = l_chosen s ++ [u] /\ forall w, w ∈ rest -> u_value w <= u_value u) \/
    (exists e, lf_take_main est enum s = SFail e /\ refuses e).
  Proof.
    intros G rest. unfold lf_take_main. rewrite (g_st _ G).
    destruct (largest_spec enum (spend h (l_chosen s)) MAIN enum_fair (spend_wf _ _ h_wf)) as [[-> Hno]|(u & -> & Hu & Hh & Hmax)].
    - left. split; [reflexivity|]. fold rest in Hno. destruct rest as [|w r]; [reflexivity|].
      exfalso. apply (Hno w); [left|left; reflexivity].
    - destruct (charge_step s u (add_assets (l_assets s) (u_assets u)) G Hu) as [(s' & -> & G' & Hc & Ha)|(e & -> & R)].
      + intro t'. apply amount_add_assets.
      + right. left. exists u, s'. do 4 (split; [auto|]). intros w Hw.
        assert (X := Hmax w Hw (or_introl eq_refl)).
        rewrite !quantity_main in X by (apply (unspent_wf _ (spend_wf h (l_chosen s) h_wf)); assumption). exact X.
      + right. right. eauto.
  Qed.

  Lemma good_len s : good s -> (length (l_chosen s) + store_len (l_utxos s) = length (unspent h))%nat.
  Proof. intros [G1 G2 _ _ _]. rewrite G1, store_len_final, <- app_length, G2. reflexivity. Qed.

  (** nothing left holds the token, so all that was available is counted *)
  Lemma exhausted t s : good s -> (forall w, w ∈ unspent (spend h (l_chosen s)) -> ~ holds t w) ->
    amount t (l_assets s) = amount t A0 + token_in t (unspent h).
  Proof.
    intros G H. rewrite (g_assets _ G), <- (token_in_perm t _ _ (g_perm _ G)), token_in_app.
    rewrite (token_in_zero t (unspent _)); [lia|]. intros w Hw. apply held_not. intro Hin. apply (H w Hw). right. exact Hin.
  Qed.

  Lemma token_loop_spec fuel : forall t q s, good s -> (store_len (l_utxos s) < fuel)%nat ->
    match lf_token_loop est enum fuel t q s (amount t (l_assets s)) with
    | SDone s' => good s' /\ q <= amount t (l_assets s') /\ exists k, l_chosen s' = l_chosen s ++ k
    | SFail e => refuses e \/ amount t A0 + token_in t (unspent h) < q
    | SPanic | SLoop => False
    end.
  Proof.
    induction fuel as [|fuel IH]; intros t q s G Hl; [lia|]. cbn [lf_token_loop].
    destruct (Z.ltb_spec (amount t (l_assets s)) q) as [Hlt|Hge].
    - destruct (take_spec t s G) as [[-> Hno]|[(u & s' & -> & G' & Hu & Hc & _)|(e & -> & R)]].
      + right. rewrite <- (exhausted t s G Hno). exact Hlt.
      + assert (L1 := good_len s G). assert (L2 := good_len s' G').
        rewrite Hc, app_length in L2. cbn [length] in L2.
        specialize (IH t q s' G' ltac:(lia)).
        destruct (lf_token_loop est enum fuel t q s' (amount t (l_assets s'))); try exact IH.
        destruct IH as (A & B & k & Hk). do 2 (split; [assumption|]). exists (u :: k).
        rewrite Hk, Hc, <- app_assoc. reflexivity.
      + left. exact R.
    - split; [exact G|]. split; [exact Hge|]. exists []. rewrite app_nil_r. reflexivity.
  Qed.

  Lemma good_touch s t cur : good s -> a_qty cur = amount t (l_assets s) ->
    good (Lf (l_utxos s) (l_est s) (<[t := cur]> (l_assets s)) (l_total s) (l_fee s) (l_chosen s)).
  Proof.
    intros [G1 G2 G3 G4 G5] Hc. split; cbn [l_utxos l_est l_assets l_total l_fee l_chosen]; try assumption.
    intro t'. rewrite amount_insert, <- G5. destruct (decide (t = t')) as [<-|]; [exact Hc|reflexivity].
  Qed.

  Lemma tokens_spec : Forall nonneg_in (unspent h) -> forall l s, good s ->
    match lf_tokens est enum l s with
    | SDone s' => good s' /\ (exists k, l_chosen s' = l_chosen s ++ k) /\
                  forall t a, (t, a) ∈ l -> a_qty a <= amount t (l_assets s')
    | SFail e => refuses e \/ exists t a, (t, a) ∈ l /\ amount t A0 + token_in t (unspent h) < a_qty a
    | SPanic | SLoop => False
    end.
  Proof.
    intros Hnn l. induction l as [|[t a] l IH]; intros s G; cbn [lf_tokens].
    { split; [exact G|]. split; [exists []; rewrite app_nil_r; reflexivity|]. intros t a H. inversion H. }
    set (cur := default (Asset (a_policy a) (a_name a) (a_fp a) 0) (l_assets s !! t)).
    assert (Hcur : a_qty cur = amount t (l_assets s)) by (unfold cur, amount; destruct (l_assets s !! t); reflexivity).
    assert (G1 := good_touch s t cur G Hcur).
    set (s1 := Lf (l_utxos s) (l_est s) (<[t := cur]> (l_assets s)) (l_total s) (l_fee s) (l_chosen s)) in *.
    replace (a_qty cur) with (amount t (l_assets s1)) by (unfold s1; cbn [l_assets]; rewrite amount_insert, decide_True by reflexivity; reflexivity).
    assert (T := token_loop_spec (S (store_len (l_utxos s))) t (a_qty a) s1 G1 ltac:(unfold s1; cbn [l_utxos]; lia)).
    destruct (lf_token_loop _ _ _ _ _ _ _) as [s2|e| |]; try contradiction.
    - destruct T as (G2 & Hq & k & Hk). change (l_chosen s1) with (l_chosen s) in Hk. specialize (IH s2 G2).
      destruct (lf_tokens est enum l s2) as [s3|e| |]; try contradiction.
      + destruct IH as (G3 & (k' & Hk') & Hcov). split; [exact G3|]. split.
        { exists (k ++ k'). rewrite Hk', Hk, <- app_assoc. reflexivity. }
        intros t' a' Hin. apply elem_of_cons in Hin as [Heq|Hin]; [|apply Hcov, Hin]. injection Heq as -> ->.
        rewrite (g_assets _ G2) in Hq. rewrite (g_assets _ G3), Hk', token_in_app.
        assert (0 <= token_in t k'); [|lia]. apply token_in_nonneg.
        apply Forall_forall. intros u Hu. rewrite Forall_forall in Hnn. apply Hnn.
        rewrite <- (g_perm _ G3), Hk'. rewrite !elem_of_app. auto.
      + destruct IH as [R|(t' & a' & Hin & Hlt)]; [auto|]. right. exists t', a'. split; [right; exact Hin|exact Hlt].
    - destruct T as [R|Hlt]; [auto|]. right. exists t, a. split; [left|exact Hlt].
  Qed.

  (** the main loop, as a sequence of picks *)
  Inductive picks (out : Z) : lf E -> lf E -> Prop :=
  | picks_nil s : good s -> picks out s s
  | picks_cons s u s1 s2 : good s -> in_debt (main_balance_of (l_total s) out (l_fee s)) = true ->
      u ∈ unspent (spend h (l_chosen s)) -> l_chosen s1 = l_chosen s ++ [u] ->
      (forall w, w ∈ unspent (spend h (l_chosen s)) -> u_value w <= u_value u) ->
      picks out s1 s2 -> picks out s s2.

  Lemma picks_good out s s' : picks out s s' -> good s /\ good s' /\ exists k, l_chosen s' = l_chosen s ++ k.
  Proof.
    induction 1 as [s G|s u s1 s2 G _ _ Hc _ _ (G1 & G2 & k & Hk)].
    - do 2 (split; [exact G|]). exists []. rewrite app_nil_r. reflexivity.
    - do 2 (split; [assumption|]). exists (u :: k). rewrite Hk, Hc, <- app_assoc. reflexivity.
  Qed.

  Lemma main_loop_spec out fuel : forall s, good s -> (store_len (l_utxos s) < fuel)%nat ->
    match lf_main_loop est enum fuel out s with
    | SDone s' => picks out s s' /\ in_debt (main_balance_of (l_total s') out (l_fee s')) = false
    | SFail e => refuses e \/ exists s', picks out s s' /\ l_est s' = e /\ unspent (spend h (l_chosen s')) = [] /\
                   in_debt (main_balance_of (l_total s') out (l_fee s')) = true
    | SPanic | SLoop => False
    end.
  Proof.
    induction fuel as [|fuel IH]; intros s G Hl; [lia|]. cbn [lf_main_loop].
    destruct (in_debt (main_balance_of (l_total s) out (l_fee s))) eqn:D.
    - destruct (take_main_spec s G) as [[-> Hno]|[(u & s' & -> & G' & Hu & Hc & Hmax)|(e & -> & R)]].
      + right. exists s. split; [constructor; exact G|auto].
      + assert (L1 := good_len s G). assert (L2 := good_len s' G').
        rewrite Hc, app_length in L2. cbn [length] in L2. specialize (IH s' G' ltac:(lia)).
        destruct (lf_main_loop est enum fuel out s') as [s2|e| |]; try exact IH.
        * destruct IH as [P Q]. split; [|exact Q]. eapply picks_cons; eassumption.
        * destruct IH as [R|(s2 & P & Q)]; [auto|]. right. exists s2. split; [|exact Q]. eapply picks_cons; eassumption.
      + left. exact R.
    - split; [constructor; exact G|exact D].
  Qed.
End Loops.
