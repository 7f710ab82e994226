(** Proofs about the thermostat: what it gives, what it takes, and where the difference goes. *)
From Coq Require Import ZArith Lia.
From stdpp Require Import gmap strings list.
From Verif Require Import ValueModel BalanceModel BalanceProofs StoreModel StoreSpec StoreProofs SelModel SelSpec SelProofs SelLargestProofs ThermoModel.
Open Scope Z_scope.

(** ** running a method: what holds of the value, if it returns one; L says what holds if a loop is cut short *)
Definition wp {S A} (L : Prop) (p : S * res A) (Q : S -> A -> Prop) : Prop :=
  match p with (s, ROk a) => Q s a | (_, RLoop) => L | _ => True end.
Lemma wp_bind {S A B} L (p : S * res A) (f : S -> A -> S * res B) Q :
  wp L p (fun s a => wp L (f s a) Q) -> wp L (bind p f) Q.
Proof. destruct p as [s [a| | |]]; exact id. Qed.
Lemma wp_mono {S A} L (p : S * res A) (Q R : S -> A -> Prop) : wp L p Q -> (forall s a, Q s a -> R s a) -> wp L p R.
Proof. intros H HQ. destruct p as [s [a| | |]]; cbn in *; auto. Qed.
Lemma wp_lift {E A} L (s : thermo E) (o : option A) (Q : thermo E -> A -> Prop) : (forall a, o = Some a -> Q s a) -> wp L (lift s o) Q.
Proof. intro H. destruct o; cbn; auto. Qed.

(** ** sums over the changes *)
Definition msum (f : uout -> Z) (m : gmap token uout) : Z := sumZ (map (fun to => f to.2) (map_to_list m)).
Lemma msum_empty f : msum f ∅ = 0.
Proof. unfold msum. rewrite map_to_list_empty. reflexivity. Qed.
Lemma msum_fresh f m t o : m !! t = None -> msum f (<[t := o]> m) = f o + msum f m.
Proof.
  intro H. unfold msum. rewrite (sumZ_perm _ (map (fun to => f to.2) ((t, o) :: map_to_list m))); [reflexivity|].
  apply Permutation_map, map_to_list_insert, H.
Qed.
Lemma msum_insert f m t o : msum f (<[t := o]> m) = msum f m - match m !! t with Some x => f x | None => 0 end + f o.
Proof.
  destruct (m !! t) as [x|] eqn:L; [|rewrite msum_fresh by exact L; lia].
  rewrite <- (insert_delete m t x L) at 2. rewrite <- insert_delete_insert, !msum_fresh by apply lookup_delete. lia.
Qed.
Lemma msum_order f (ord : torder uout) m : fair_t ord -> sumZ (map f (map snd (ord m))) = msum f m.
Proof. intro H. unfold msum. rewrite map_map. apply sumZ_perm, Permutation_map, H. Qed.

Lemma fold_bal_signed t l : forall m,
  zsigned (bal_of (foldl (fun m a => bal_plus m (a_fp a) (a_qty a)) m l) t) = zsigned (bal_of m t) + held t l.
Proof.
  induction l as [|a l IH]; intro m; cbn [foldl]; [rewrite held_nil; lia|]. rewrite IH, signed_plus, held_cons. lia.
Qed.
Lemma value_in_one u : value_in [u] = u_value u.
Proof. unfold value_in, sumZ. cbn. lia. Qed.
Lemma token_in_one t u : token_in t [u] = held t (u_assets u).
Proof. unfold token_in, sumZ. cbn. lia. Qed.
Lemma value_out_snoc l o : value_out (l ++ [o]) = value_out l + o_value o.
Proof. unfold value_out. rewrite map_app, sumZ_app. unfold sumZ at 2. cbn. lia. Qed.
Lemma token_out_snoc t l o : token_out t (l ++ [o]) = token_out t l + held t (o_assets o).
Proof. unfold token_out. rewrite map_app, sumZ_app. unfold sumZ at 2. cbn. lia. Qed.

(** ** the books *)
Definition shaped (t : token) (o : uout) : Prop := o_assets o = [] \/ exists p n q, o_assets o = [Asset p n t q].

Section Books.
  Context {E : Type} (est : estimator E) (enum : nat -> enumeration) (sc : Z) (above : Z -> Z -> N -> bool) (chk : bool)
          (cfg : tconfig) (addr : option string) (outputs : list uout).
  Notation st := (thermo E).
  (** what the setup brings in less what it pays out *)
  Context (base : Z) (tbase : token -> Z).

  Definition main_book (s : st) : Prop :=
    zsigned (t_bal s) = base + value_in (t_sel s) - msum o_value (t_changes s) - value_out (t_extra s).
  Definition token_book (s : st) : Prop := forall t,
    zsigned (bal_of (t_abal s) t) =
    tbase t + token_in t (t_sel s) - msum (fun o => held t (o_assets o)) (t_changes s) - token_out t (t_extra s).
  Definition shapes (s : st) : Prop := forall t o, t_changes s !! t = Some o -> shaped t o.
  Definition books (s : st) : Prop := main_book s /\ token_book s /\ shapes s.

  (** two states with the same books: they differ in the estimator only *)
  Definition same (s s' : st) : Prop := exists e, s' = with_est s e.
  Lemma books_est s e : books s -> books (with_est s e).
  Proof. exact id. Qed.

  Lemma add_out_wp L s o (Q : st -> unit -> Prop) : (forall e, Q (with_est s e) tt) -> wp L (add_out est s o) Q.
  Proof. intro H. unfold add_out. destruct (e_add_out est (t_est s) o) as [e [|]]; cbn; auto. Qed.
  Lemma add_in_wp L s u (Q : st -> unit -> Prop) : (forall e, Q (with_est s e) tt) -> wp L (add_in est s u) Q.
  Proof. intro H. unfold add_in. destruct (e_add_in est (t_est s) u) as [e [|]]; cbn; auto. Qed.
  Lemma min_value_wp L s o (Q : st -> Z -> Prop) : (forall e m, e_min_value est (t_est s) o = (e, Some m) -> Q (with_est s e) m) ->
    wp L (min_value est s o) Q.
  Proof. intro H. unfold min_value. destruct (e_min_value est (t_est s) o) as [e [m|]]; cbn; auto. Qed.
  Lemma current_balance_wp L s (Q : st -> balance Z -> Prop) :
    (forall f, e_min_fee est (t_est s) = Some f -> Q s (zbal_sub_value (t_bal s) f)) -> wp L (current_balance est s) Q.
  Proof. intro H. unfold current_balance. apply wp_bind, wp_lift. intros f Hf. cbn. auto. Qed.
  Lemma current_balance_of_wp L s t (Q : st -> balance Z -> Prop) : (forall b, t_abal s !! t = Some b -> Q s b) -> wp L (current_balance_of chk s t) Q.
  Proof.
    intro H. unfold current_balance_of. destruct (chk && _); [exact I|]. destruct (t_abal s !! t); cbn; auto.
  Qed.

  Lemma books_add_input s u : books s -> books (add_input s u).
  Proof.
    intros (M & T & S). split; [|split].
    - unfold main_book in *. cbn [add_input t_bal t_sel t_changes t_extra].
      rewrite zbal_add_value_signed, value_in_app, value_in_one. lia.
    - intro t. specialize (T t). cbn [add_input t_abal t_sel t_changes t_extra].
      rewrite fold_bal_signed, token_in_app, token_in_one. lia.
    - exact S.
  Qed.

  Lemma select_input_for_books L s ut t : books s ->
    wp L (select_input_for est enum s ut t) (fun s' _ => books s').
  Proof.
    intro H. unfold select_input_for. destruct (List.find _ _) as [u|]; [|exact I].
    apply wp_bind, add_in_wp. intro e. cbn zeta.
    destruct (store_remove ut (u_ptr u)) as [ut' [| |]]; cbn; auto. apply (books_add_input (with_est s e)), books_est, H.
  Qed.
  (** the state a failing call leaves has the same books too, when the store removes what it lists *)
  Lemma until_balanced_books t : forall fuel s ut, books s ->
    wp True (until_balanced est enum chk fuel s ut t) (fun s' _ => books s').
  Proof.
    induction fuel as [|fuel IH]; intros s ut H; cbn [until_balanced]; apply wp_bind, current_balance_of_wp;
      intros b Hb; destruct (in_debt b); cbn; auto.
    apply wp_bind. eapply wp_mono; [apply select_input_for_books, H|]. intros s' ut' H'. apply IH, H'.
  Qed.
  Lemma main_until_balanced_books : forall fuel s ut, books s ->
    wp True (main_until_balanced est enum cfg fuel s ut) (fun s' _ => books s').
  Proof.
    induction fuel as [|fuel IH]; intros s ut H; cbn [main_until_balanced]; apply wp_bind, current_balance_wp;
      intros b Hb; destruct (in_debt _); cbn; auto.
    apply wp_bind. eapply wp_mono; [apply select_input_for_books, H|]. intros s' ut' H'. apply IH, H'.
  Qed.

  (** the entry is charged to the balance for exactly what it is worth more than before *)
  Lemma change_entry_books L s a t w : books s ->
    wp L (change_entry est s a t w) (fun s' o =>
      t_changes s' = t_changes s /\ t_extra s' = t_extra s /\ t_sel s' = t_sel s /\ t_abal s' = t_abal s /\
      zsigned (t_bal s') = zsigned (t_bal s) - (o_value o - match t_changes s !! t with Some x => o_value x | None => 0 end) /\
      o_assets o = match t_changes s !! t with Some x => o_assets x | None => [] end).
  Proof.
    intro H. unfold change_entry. destruct (t_changes s !! t) as [x|] eqn:C.
    - cbn. do 4 (split; [reflexivity|]). split; [|reflexivity]. rewrite zbal_sub_value_signed. lia.
    - apply wp_bind, min_value_wp. intros e m _. cbn zeta.
      assert (X : forall (s1 : st) v,
        t_changes s1 = t_changes s -> t_extra s1 = t_extra s -> t_sel s1 = t_sel s -> t_abal s1 = t_abal s ->
        zsigned (t_bal s1) = zsigned (t_bal s) - (v - w) ->
        wp L (LET s2, f := lift s1 (e_fee_out est (t_est s1) (Uout a v [] None)) IN
              let '(s3, v3) := if v <? m + f then (pay s2 w, v) else (pay s2 (w - f), v - f) in
              LET s4, _ := add_out est s3 (Uout a v3 [] None) IN (s4, ROk (Uout a v3 [] None)))
           (fun s' o => t_changes s' = t_changes s /\ t_extra s' = t_extra s /\ t_sel s' = t_sel s /\ t_abal s' = t_abal s /\
              zsigned (t_bal s') = zsigned (t_bal s) - (o_value o - 0) /\ o_assets o = [])).
      { intros s1 v A B C1 D Hb. apply wp_bind, wp_lift. intros f _.
        destruct (v <? m + f); apply wp_bind, add_out_wp; intro e'; cbn;
          (do 4 (split; [assumption|])); (split; [|reflexivity]); rewrite zbal_sub_value_signed; lia. }
      destruct (w <? m); apply X; try reflexivity; cbn; rewrite ?zbal_sub_value_signed; lia.
  Qed.

  Lemma credit_spec ut t x o o' : shaped t o -> credit ut t x o = Some o' ->
    o_value o' = o_value o /\ (exists p n q, o_assets o' = [Asset p n t q]) /\
    forall t', held t' (o_assets o') = held t' (o_assets o) + (if decide (t = t') then x else 0).
  Proof.
    unfold credit. intros S H. destruct S as [Hn|(p & n & q & Hn)]; rewrite Hn in H |- *.
    - destruct (get_asset_ids ut t) as [[p n]|]; [|discriminate]. injection H as <-. cbn [o_value o_assets].
      split; [reflexivity|]. split; [eauto|]. intro t'. rewrite held_cons, held_nil. cbn [a_fp a_qty]. lia.
    - injection H as <-. cbn [o_value o_assets a_policy a_name a_fp a_qty]. split; [reflexivity|]. split; [eauto|].
      intro t'. rewrite !held_cons, !held_nil. cbn [a_fp a_qty]. destruct (decide (t = t')); lia.
  Qed.

  Lemma balance_excess_of_books L s ut t : books s ->
    wp L (balance_excess_of est chk cfg addr s ut t) (fun s' _ => books s').
  Proof.
    intro H. unfold balance_excess_of. apply wp_bind, current_balance_of_wp. intros b Hb.
    destruct b as [d| |x]; [exact H|exact H|]. apply wp_bind, wp_lift. intros a _.
    apply wp_bind, current_balance_wp. intros f _. cbn zeta. apply wp_bind.
    eapply wp_mono; [apply change_entry_books, H|]. cbn beta. intros s' o (A & B & C & D & F & G).
    destruct H as (M & T & S).
    assert (So : shaped t o).
    { unfold shaped. rewrite G. destruct (t_changes s !! t) as [y|] eqn:Cy; [exact (S _ _ Cy)|left; reflexivity]. }
    destruct (credit ut t x o) as [o'|] eqn:Cr; [|exact I].
    destruct (credit_spec _ _ _ _ _ So Cr) as (V & (p & n & q & As) & Hh). cbn [wp].
    assert (X : forall v b', zsigned b' = zsigned (t_bal s') - (v - o_value o') ->
      books (with_bal (put (with_abal s' (bal_minus (t_abal s') t x)) t (Uout (o_addr o') v (o_assets o') (o_extra o'))) b')).
    { intros v b' Hb'. split; [|split].
        - unfold main_book in *. cbn [with_bal put with_abal t_bal t_sel t_changes t_extra].
          rewrite Hb', F, M, A, B, C, msum_insert. cbn [o_value]. rewrite V. lia.
        - intro t'. specialize (T t'). cbn [with_bal put with_abal t_abal t_sel t_changes t_extra].
          rewrite D, signed_minus, T, A, B, C, msum_insert. cbn [o_assets]. rewrite Hh, G.
          destruct (t_changes s !! t); rewrite ?held_nil; lia.
        - intros t' o2. cbn [with_bal put with_abal t_changes]. destruct (decide (t = t')) as [<-|n'].
          + rewrite lookup_insert. intro E1; injection E1 as <-. right. cbn [o_assets]. eauto.
          + rewrite lookup_insert_ne by exact n'. rewrite A. apply S. }
    unfold clamp. destruct (o_value o' <? c_min cfg); [|destruct (c_max cfg <? o_value o')].
    - unfold pay. apply X. cbn [put with_abal t_bal]. rewrite zbal_sub_value_signed. lia.
    - unfold gain. apply X. cbn [put with_abal t_bal]. rewrite zbal_add_value_signed. lia.
    - assert (Y := X (o_value o') (t_bal s')). destruct o' as [oa ov os oe]. cbn in Y. destruct s'. apply Y. cbn. lia.
  Qed.

  Lemma balance_excess_books L s : books s -> wp L (balance_excess est cfg addr s) (fun s' _ => books s').
  Proof.
    intro H. unfold balance_excess. apply wp_bind, current_balance_wp. intros f0 _.
    destruct (zbal_sub_value (t_bal s) f0) as [d| |x]; [exact H|exact H|]. apply wp_bind, wp_lift. intros a _.
    assert (X : forall (s1 : st) o, t_changes s1 = t_changes s -> t_extra s1 = t_extra s -> t_sel s1 = t_sel s -> t_abal s1 = t_abal s ->
       zsigned (t_bal s1) = zsigned (t_bal s) - (o_value o - match t_changes s !! c_main cfg with Some y => o_value y | None => 0 end) ->
       o_assets o = match t_changes s !! c_main cfg with Some y => o_assets y | None => [] end ->
       books (put s1 (c_main cfg) o)).
    { intros s1 o A B C D F G. destruct H as (M & T & S). split; [|split].
      - unfold main_book in *. cbn [put t_bal t_sel t_changes t_extra]. rewrite F, M, A, B, C, msum_insert. lia.
      - intro t'. specialize (T t'). cbn [put t_abal t_sel t_changes t_extra].
        rewrite D, T, A, B, C, msum_insert, G. destruct (t_changes s !! c_main cfg); rewrite ?held_nil; lia.
      - intros t' o2. cbn [put t_changes]. destruct (decide (c_main cfg = t')) as [<-|n'].
        + rewrite lookup_insert. intro E1; injection E1 as <-. unfold shaped. rewrite G.
          destruct (t_changes s !! c_main cfg) as [y|] eqn:Cy; [exact (S _ _ Cy)|left; reflexivity].
        + rewrite lookup_insert_ne by exact n'. rewrite A. apply S. }
    destruct (t_changes s !! c_main cfg) as [o|] eqn:C0.
    - cbn [wp]. apply X; try reflexivity. cbn. rewrite zbal_sub_value_signed. lia.
    - apply wp_bind, min_value_wp. intros e m _. destruct (x <? m); [exact H|].
      apply wp_bind, wp_lift. intros f _. destruct (x <? m + f); [exact H|]. cbn zeta.
      apply wp_bind, add_out_wp. intro e'. cbn [wp]. apply X; try reflexivity. cbn. rewrite zbal_sub_value_signed. lia.
  Qed.

  Lemma fund_assets_books : forall l s ut, books s ->
    wp True (fund_assets est enum chk cfg addr l s ut) (fun s' _ => books s').
  Proof.
    induction l as [|t l IH]; intros s ut H; [exact H|]. cbn [fund_assets].
    apply wp_bind. eapply wp_mono; [apply until_balanced_books, H|]. intros s1 ut1 H1.
    apply wp_bind. eapply wp_mono; [apply balance_excess_of_books, H1|]. intros s2 [] H2. apply IH, H2.
  Qed.
  Lemma return_excess_books : forall l s ut, books s ->
    wp True (return_excess est chk cfg addr l s ut) (fun s' _ => books s').
  Proof.
    induction l as [|t l IH]; intros s ut H; [exact H|]. cbn [return_excess].
    apply wp_bind. eapply wp_mono; [apply balance_excess_of_books, H|]. intros s1 [] H1. apply IH, H1.
  Qed.

  Lemma remaining_wp L s (Q : st -> N -> Prop) : (forall n, Q s n) -> wp L (remaining est sc chk outputs s) Q.
  Proof.
    intro H. unfold remaining. destruct outputs as [|o os]; [exact I|]. destruct (t_sel s) as [|u us]; [exact I|].
    do 4 (apply wp_bind, wp_lift; intros ? _). destruct (usize_mul _ _ _) as [r1|]; [|exact I].
    destruct (usize_mul _ _ _) as [r2|]; [|exact I]. do 2 (apply wp_bind, wp_lift; intros ? _).
    destruct (_ =? 0)%N; [exact I|]. apply H.
  Qed.

  (** a call of select_input_for that fails has changed the estimator only, or has counted an input that it could not
      remove from the store, which leaves the books right anyway *)
  Lemma select_input_for_err s ut t s' : books s -> select_input_for est enum s ut t = (s', RErr) -> books s'.
  Proof.
    intros H. unfold select_input_for. destruct (List.find _ _) as [u|]; [|intro E1; injection E1 as <-; exact H].
    unfold add_in. destruct (e_add_in est (t_est s) u) as [e [|]]; cbn [bind].
    - destruct (store_remove ut (u_ptr u)) as [ut' [| |]]; intro E1; try discriminate. injection E1 as <-.
      apply (books_add_input (with_est s e)), books_est, H.
    - intro E1; injection E1 as <-. exact H.
  Qed.

  Lemma extra_inputs_books l : forall fuel empty i s ut, books s ->
    wp True (extra_inputs est enum sc chk cfg outputs fuel l empty i s ut) (fun s' _ => books s').
  Proof.
    induction fuel as [|fuel IH]; intros empty i s ut H; cbn [extra_inputs]; apply wp_bind, remaining_wp; intro n;
      destruct (n =? 0)%N; cbn; auto.
    destruct (l !! i) as [t|]; [|exact I]. destruct (empty !! i) as [[|]|]; [| |exact I].
    - destruct (forallb id empty); [exact H|apply IH, H].
    - destruct (N.of_nat _ <=? c_num cfg)%N; [apply IH, H|].
      destruct (select_input_for est enum s ut t) as [s1 [ut1| | |]] eqn:S1; cbn; auto.
      + assert (W := select_input_for_books True s ut t H). rewrite S1 in W. apply IH, W.
      + apply IH. eapply select_input_for_err; eauto.
  Qed.

  (** *** the splits *)
  (** the books with respect to main value only, and the tokens of the changes no more than before *)
  Definition total_tokens (s : st) (t : token) : Z :=
    msum (fun o => held t (o_assets o)) (t_changes s) + token_out t (t_extra s).

  Lemma half_nonneg v : 0 <= sc -> 0 <= half sc v.
  Proof.
    intro H. unfold half. destruct (Z.ltb_spec v (2 * sc)) as [_|Hv]; [lia|]. apply Z.mul_nonneg_nonneg; [|exact H].
    destruct (Z.eq_dec sc 0) as [->|Hn]; [rewrite Zdiv_0_r; lia|]. apply Z.div_pos; lia.
  Qed.

  Lemma split_one_main L ut s t o : t_changes s !! t = Some o -> main_book s ->
    wp L (split_one est sc above cfg ut s t o) (fun s' _ => main_book s' /\ t_sel s' = t_sel s /\ t_abal s' = t_abal s /\
      (exists o', t_changes s' = <[t := o']> (t_changes s))).
  Proof.
    intros Ho M. unfold split_one.
    assert (I0 : main_book s /\ t_sel s = t_sel s /\ t_abal s = t_abal s /\ (exists o', t_changes s = <[t := o']> (t_changes s))).
    { split; [exact M|]. do 2 (split; [reflexivity|]). exists o. rewrite insert_id by exact Ho. reflexivity. }
    destruct (get_balance_of ut t) as [total|]; [|exact I0].
    destruct (o_assets o) as [|a l] eqn:Ha.
    - destruct (bool_decide _); [|exact I0]. destruct (c_num cfg =? 0)%N; [exact I|].
      apply wp_bind, wp_lift. intros f _. cbn zeta.
      destruct ((half sc (o_value o) <=? half sc f) || (half sc (o_value o) <=? f)); [exact I0|].
      destruct (above _ _ _); [|exact I0]. apply add_out_wp. intro e.
      split; [|cbn; eauto]. unfold main_book in *.
      cbn [with_est push_extra gain with_bal put t_bal t_sel t_changes t_extra].
      rewrite zbal_add_value_signed, M, msum_insert, Ho, value_out_snoc. cbn [o_value]. lia.
    - destruct (c_num_assets cfg =? 0)%N; [exact I|]. destruct (above _ _ _); [|exact I0]. cbn zeta.
      apply wp_bind, wp_lift. intros f _.
      destruct ((half sc (o_value o) <=? half sc f) || (half sc (o_value o) <=? f)).
      + split; [|cbn; eauto]. unfold main_book in *. cbn [put t_bal t_sel t_changes t_extra].
        rewrite M, msum_insert, Ho. cbn [o_value]. lia.
      + apply wp_bind, add_out_wp. intro e. split; [|cbn; split; [reflexivity|split; [reflexivity|]]].
        * unfold main_book in *. cbn [with_est push_extra gain with_bal put t_bal t_sel t_changes t_extra].
          rewrite zbal_add_value_signed, M, insert_insert, msum_insert, Ho, value_out_snoc. cbn [o_value]. lia.
        * eexists. rewrite insert_insert. reflexivity.
  Qed.

  (** a change below this value may be split in a way that loses tokens *)
  Definition roomy (o : uout) : Prop :=
    forall e (o' : uout) f, e_fee_out est e o' = Some f -> half sc f < half sc (o_value o) /\ f < half sc (o_value o).

  Lemma split_one_tokens L ut s t o : 0 <= sc -> shaped t o -> t_changes s !! t = Some o ->
    wp L (split_one est sc above cfg ut s t o) (fun s' _ => forall t', total_tokens s' t' <= total_tokens s t' /\
      (o_assets o = [] \/ roomy o -> total_tokens s' t' = total_tokens s t')).
  Proof.
    intros Hsc Hsh Ho. unfold split_one. destruct (get_balance_of ut t) as [total|]; [|cbn; split; [lia|auto]].
    destruct (o_assets o) as [|a l] eqn:Ha.
    - destruct (bool_decide _); [|cbn; split; [lia|auto]]. destruct (c_num cfg =? 0)%N; [exact I|].
      apply wp_bind, wp_lift. intros f _. cbn zeta.
      destruct ((half sc (o_value o) <=? half sc f) || (half sc (o_value o) <=? f)); [cbn; split; [lia|auto]|].
      destruct (above _ _ _); [|cbn; split; [lia|auto]]. apply add_out_wp. intros e t'. unfold total_tokens.
      cbn [with_est push_extra gain with_bal put t_bal t_sel t_changes t_extra].
      rewrite msum_insert, Ho, token_out_snoc, Ha. cbn [o_assets]. rewrite held_nil. lia.
    - assert (l = []) as -> by (destruct Hsh as [Hs|(p & n & q & Hs)]; rewrite Ha in Hs; [discriminate|injection Hs; auto]).
      destruct (c_num_assets cfg =? 0)%N; [exact I|]. destruct (above _ _ _); [|cbn; split; [lia|auto]]. cbn zeta.
      assert (Hh := half_nonneg (a_qty a) Hsc).
      apply wp_bind, wp_lift. intros f Hf.
      destruct (Z.leb_spec (half sc (o_value o)) (half sc f)) as [L1|L1];
        [|destruct (Z.leb_spec (half sc (o_value o)) f) as [L2|L2]]; cbn [orb].
      + intro t'. unfold total_tokens. cbn [put t_bal t_sel t_changes t_extra].
        rewrite msum_insert, Ho, Ha. cbn [o_assets]. rewrite !held_cons, !held_nil. cbn [a_fp a_qty].
        split; [destruct (decide (a_fp a = t')); lia|]. intros [X|X]; [discriminate|]. destruct (X _ _ _ Hf). lia.
      + intro t'. unfold total_tokens. cbn [put t_bal t_sel t_changes t_extra].
        rewrite msum_insert, Ho, Ha. cbn [o_assets]. rewrite !held_cons, !held_nil. cbn [a_fp a_qty].
        split; [destruct (decide (a_fp a = t')); lia|]. intros [X|X]; [discriminate|]. destruct (X _ _ _ Hf). lia.
      + apply wp_bind, add_out_wp. intros e t'. unfold total_tokens.
        cbn [with_est push_extra gain with_bal put t_bal t_sel t_changes t_extra wp].
        rewrite insert_insert, msum_insert, Ho, Ha, token_out_snoc. cbn [o_assets]. rewrite !held_cons, !held_nil. cbn [a_fp a_qty].
        destruct (decide (a_fp a = t')); lia.
  Qed.

  Lemma split_all_spec ut : 0 <= sc -> forall l s,
    NoDup (map fst l) -> (forall t o, (t, o) ∈ l -> t_changes s !! t = Some o /\ shaped t o) -> main_book s ->
    wp True (split_all est sc above cfg ut l s) (fun s' _ => main_book s' /\ t_sel s' = t_sel s /\ t_abal s' = t_abal s /\
      (forall t', total_tokens s' t' <= total_tokens s t') /\
      ((forall t o, (t, o) ∈ l -> o_assets o = [] \/ roomy o) -> forall t', total_tokens s' t' = total_tokens s t')).
  Proof.
    intro Hsc. induction l as [|[t o] l IH]; intros s HN Hl M.
    - cbn. repeat split; auto. lia.
    - cbn [split_all map fst] in *. apply NoDup_cons in HN as [Hnot HN].
      destruct (Hl t o ltac:(left)) as [Ho Hs]. apply wp_bind.
      assert (W1 := split_one_main True ut s t o Ho M).
      assert (W2 := split_one_tokens True ut s t o Hsc Hs Ho).
      destruct (split_one est sc above cfg ut s t o) as [s1 [[]| | |]]; cbn [wp] in *; auto.
      destruct W1 as (M1 & A1 & B1 & o1 & C1).
      eapply wp_mono; [apply (IH s1 HN)|].
      + intros t' o' Hin. destruct (Hl t' o' ltac:(right; exact Hin)) as [P1 P2]. split; [|exact P2].
        rewrite C1, lookup_insert_ne; [exact P1|]. intros ->. apply Hnot, elem_of_list_fmap. exists (t', o'). auto.
      + exact M1.
      + cbn beta. intros s' _ (M' & A' & B' & C' & D'). rewrite A', B'. split; [exact M'|]. do 2 (split; [assumption|]).
        split.
        * intro t'. specialize (C' t'). destruct (W2 t') as [X _]. lia.
        * intros Hr t'. rewrite D' by (intros; eapply Hr; right; eassumption). apply (W2 t'), (Hr t o). left.
  Qed.
End Books.
