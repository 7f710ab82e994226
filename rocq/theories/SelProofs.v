(** Proofs about the selection setup, the balance checks, largest-first and the two change balancers. *)
From Coq Require Import ZArith Lia.
From stdpp Require Import gmap strings list sorting.
From Verif Require Import ValueModel BalanceModel BalanceProofs StoreModel StoreSpec StoreProofs SelModel SelSpec.
Open Scope Z_scope.

(** ** tables of totals *)
Lemma held_nil t : held t [] = 0.
Proof. reflexivity. Qed.
Lemma held_cons t a l : held t (a :: l) = (if decide (a_fp a = t) then a_qty a else 0) + held t l.
Proof. unfold held. rewrite filter_cons. destruct (decide (a_fp a = t)); reflexivity. Qed.
Lemma held_app t l k : held t (l ++ k) = held t l + held t k.
Proof. unfold held. rewrite filter_app, map_app. apply sumZ_app. Qed.
Lemma held_nonneg t l : nonneg_list l -> 0 <= held t l.
Proof.
  unfold nonneg_list. induction 1 as [|a l Ha _ IH]; [reflexivity|]. rewrite held_cons.
  destruct (decide (a_fp a = t)); lia.
Qed.

Lemma amount_insert t t' a m : amount t (<[t' := a]> m) = if decide (t' = t) then a_qty a else amount t m.
Proof.
  unfold amount. destruct (decide (t' = t)) as [->|n]; [rewrite lookup_insert|rewrite lookup_insert_ne by exact n];
    reflexivity.
Qed.
Lemma amount_add_asset t m a :
  amount t (add_asset m a) = amount t m + (if decide (a_fp a = t) then a_qty a else 0).
Proof.
  unfold add_asset. rewrite amount_insert. cbn [a_qty]. destruct (decide (a_fp a = t)) as [<-|n]; [|lia].
  unfold amount. destruct (m !! a_fp a); cbn; lia.
Qed.
Lemma amount_add_assets t l : forall m, amount t (add_assets m l) = amount t m + held t l.
Proof.
  unfold add_assets. induction l as [|a l IH]; intro m; cbn [foldl]; [rewrite held_nil; lia|].
  rewrite IH, amount_add_asset, held_cons. lia.
Qed.

Lemma filed_add_asset m a : filed m -> filed (add_asset m a).
Proof.
  intros H t b. unfold add_asset. destruct (decide (a_fp a = t)) as [<-|n].
  - rewrite lookup_insert. intro E; injection E as <-. cbn [a_fp].
    destruct (m !! a_fp a) as [c|] eqn:L; cbn; [exact (H _ _ L)|reflexivity].
  - rewrite lookup_insert_ne by exact n. apply H.
Qed.
Lemma filed_add_assets l : forall m, filed m -> filed (add_assets m l).
Proof. induction l as [|a l IH]; intros m H; [exact H|]. apply (IH (add_asset m a)). apply filed_add_asset, H. Qed.
Lemma filed_empty : filed ∅.
Proof. intros t a H. rewrite lookup_empty in H. discriminate. Qed.

Lemma add_asset_dom m a t : is_Some (add_asset m a !! t) <-> is_Some (m !! t) \/ a_fp a = t.
Proof.
  unfold add_asset. destruct (decide (a_fp a = t)) as [<-|n].
  - rewrite lookup_insert. split; [auto|eauto].
  - rewrite lookup_insert_ne by exact n. split; [auto|intros [H|H]; [exact H|contradiction]].
Qed.
Lemma add_assets_dom l : forall m t, is_Some (add_assets m l !! t) <-> is_Some (m !! t) \/ t ∈ map a_fp l.
Proof.
  induction l as [|a l IH]; intros m t.
  - cbn. split; [auto|intros [H|H]; [exact H|inversion H]].
  - change (add_assets m (a :: l)) with (add_assets (add_asset m a) l). rewrite IH, add_asset_dom.
    cbn [map]. rewrite elem_of_cons. naive_solver.
Qed.

(** an entry describes the token as one of the assets does *)
Definition described (m : assets) (l : list asset) : Prop :=
  forall t a, m !! t = Some a -> exists b, b ∈ l /\ a_fp b = t /\ a_policy a = a_policy b /\ a_name a = a_name b.
Lemma described_add_asset m l a : described m l -> described (add_asset m a) (l ++ [a]).
Proof.
  intros H t b. unfold add_asset. destruct (decide (a_fp a = t)) as [<-|n].
  - rewrite lookup_insert. intro E; injection E as <-. cbn [a_policy a_name].
    destruct (m !! a_fp a) as [c|] eqn:L; cbn.
    + destruct (H _ _ L) as (b & Hb & ?). exists b. rewrite elem_of_app. auto.
    + exists a. rewrite elem_of_app, elem_of_list_singleton. auto.
  - rewrite lookup_insert_ne by exact n. intro L. destruct (H _ _ L) as (c & Hc & ?). exists c.
    rewrite elem_of_app. auto.
Qed.
Lemma described_add_assets k : forall m l, described m l -> described (add_assets m k) (l ++ k).
Proof.
  induction k as [|a k IH]; intros m l H; [rewrite app_nil_r; exact H|].
  change (add_assets m (a :: k)) with (add_assets (add_asset m a) k).
  replace (l ++ a :: k) with ((l ++ [a]) ++ k) by (rewrite <- app_assoc; reflexivity).
  apply IH, described_add_asset, H.
Qed.

(** all assets of a list of things *)
Lemma fold_tables {A} (f : A -> list asset) l : forall m,
  foldl (fun m x => add_assets m (f x)) m l = add_assets m (flat_map f l).
Proof.
  induction l as [|x l IH]; intro m; [reflexivity|]. cbn [foldl flat_map]. rewrite IH.
  unfold add_assets. rewrite <- foldl_app. reflexivity.
Qed.
Lemma held_flat {A} (f : A -> list asset) t l : held t (flat_map f l) = sumZ (map (fun x => held t (f x)) l).
Proof. induction l as [|x l IH]; [reflexivity|]. cbn [flat_map map]. rewrite held_app, IH. reflexivity. Qed.
Lemma fold_sum {A} (f : A -> Z) l : forall v, foldl (fun v x => v + f x) v l = v + sumZ (map f l).
Proof.
  induction l as [|x l IH]; intro v; cbn [foldl map]; unfold sumZ in *; cbn [foldr]; [lia|]. rewrite IH. lia.
Qed.

(** ** the main balance *)
Lemma main_balance_spec i o f : 0 <= o -> 0 <= f ->
  match main_balance_of i o f with
  | Debt d => i + d = o + f /\ 0 < d
  | Balanced => i = o + f
  | Excess x => i = o + f + x /\ 0 < x
  end.
Proof.
  intros Ho Hf. unfold main_balance_of, zbal_sub_value, zbal_add_value.
  cbn [bal_add_value]. unfold veqb. destruct (Z.compare_spec i 0) as [Hi|Hi|Hi].
  - cbn [bal_sub_value]. unfold veqb. destruct (Z.compare_spec f 0) as [H|H|H]; cbn [bal_sub_value]; unfold veqb.
    + destruct (Z.compare_spec o 0); lia.
    + lia.
    + lia.
  - cbn [bal_sub_value]. destruct (Z.compare_spec i f); cbn [bal_sub_value]; unfold veqb; [lia|lia|].
    destruct (Z.compare_spec (i - f) o); lia.
  - cbn [bal_sub_value]. destruct (Z.compare_spec i f); cbn [bal_sub_value]; unfold veqb.
    + destruct (Z.compare_spec o 0); lia.
    + lia.
    + destruct (Z.compare_spec (i - f) o); lia.
Qed.

(** ** per-token balances *)
Definition bal_of (m : balances) (t : token) : (balance Z) := default Balanced (m !! t).
Definition all_normal (m : balances) : Prop := forall t, znormal (bal_of m t).

Lemma bal_of_plus m t q t' : bal_of (bal_plus m t q) t' = if decide (t = t') then zbal_add_value (bal_of m t) q else bal_of m t'.
Proof.
  unfold bal_of, bal_plus. destruct (decide (t = t')) as [<-|n]; [rewrite lookup_insert|rewrite lookup_insert_ne by exact n];
    reflexivity.
Qed.
Lemma bal_of_minus m t q t' : bal_of (bal_minus m t q) t' = if decide (t = t') then zbal_sub_value (bal_of m t) q else bal_of m t'.
Proof.
  unfold bal_of, bal_minus. destruct (decide (t = t')) as [<-|n]; [rewrite lookup_insert|rewrite lookup_insert_ne by exact n];
    reflexivity.
Qed.
Lemma signed_plus m t q t' : zsigned (bal_of (bal_plus m t q) t') = zsigned (bal_of m t') + (if decide (t = t') then q else 0).
Proof. rewrite bal_of_plus. destruct (decide (t = t')) as [<-|n]; [rewrite zbal_add_value_signed|]; lia. Qed.
Lemma signed_minus m t q t' : zsigned (bal_of (bal_minus m t q) t') = zsigned (bal_of m t') - (if decide (t = t') then q else 0).
Proof. rewrite bal_of_minus. destruct (decide (t = t')) as [<-|n]; [rewrite zbal_sub_value_signed|]; lia. Qed.
Lemma normal_plus m t q : all_normal m -> 0 <= q -> all_normal (bal_plus m t q).
Proof.
  intros H Hq t'. rewrite bal_of_plus. destruct (decide (t = t')); [|apply H].
  apply zbal_add_value_normal; [apply H|exact Hq].
Qed.
Lemma normal_minus m t q : all_normal m -> 0 <= q -> all_normal (bal_minus m t q).
Proof.
  intros H Hq t'. rewrite bal_of_minus. destruct (decide (t = t')); [|apply H].
  apply zbal_sub_value_normal; [apply H|exact Hq].
Qed.
Lemma normal_empty : all_normal ∅.
Proof. intro t. unfold bal_of. rewrite lookup_empty. exact I. Qed.
Lemma signed_empty t : zsigned (bal_of ∅ t) = 0.
Proof. unfold bal_of. rewrite lookup_empty. reflexivity. Qed.

Lemma normal_balanced b : znormal b -> balanced b = true <-> zsigned b = 0.
Proof. destruct b; cbn; split; intros; try lia; try discriminate; reflexivity. Qed.

Lemma all_balanced_spec m : all_normal m -> all_balanced m = true <-> forall t, zsigned (bal_of m t) = 0.
Proof.
  intro H. unfold all_balanced. rewrite forallb_forall. split.
  - intros G t. specialize (H t). unfold bal_of in *. destruct (m !! t) as [b|] eqn:L; [|reflexivity].
    apply normal_balanced; [exact H|]. apply (G (t, b)). apply elem_of_list_In, elem_of_map_to_list, L.
  - intros G [t b] Hin. apply elem_of_list_In, elem_of_map_to_list in Hin.
    specialize (H t). specialize (G t). unfold bal_of in H, G. rewrite Hin in H, G. cbn in *. apply normal_balanced; assumption.
Qed.

(** sums over an iteration of a table *)
Definition listed (t : token) (l : list (token * asset)) : Z :=
  sumZ (map (fun ta => if decide (ta.1 = t) then a_qty ta.2 else 0) l).
Lemma listed_cons t ta l : listed t (ta :: l) = (if decide (ta.1 = t) then a_qty ta.2 else 0) + listed t l.
Proof. reflexivity. Qed.
Lemma listed_perm t l k : l ≡ₚ k -> listed t l = listed t k.
Proof. intro H. unfold listed. apply sumZ_perm. rewrite H. reflexivity. Qed.
Lemma listed_table t m : listed t (map_to_list m) = amount t m.
Proof.
  induction m as [|k a m Hn IH] using map_ind.
  - rewrite map_to_list_empty. unfold amount. rewrite lookup_empty. reflexivity.
  - rewrite (listed_perm t _ _ (map_to_list_insert m k a Hn)), listed_cons, IH, amount_insert. cbn [fst snd].
    destruct (decide (k = t)) as [<-|n]; [|lia]. unfold amount. rewrite Hn. lia.
Qed.
Lemma listed_fair t (ord : torder asset) m : fair_t ord -> listed t (ord m) = amount t m.
Proof. intro H. rewrite (listed_perm t _ _ (H m)). apply listed_table. Qed.

Lemma fold_plus_signed t l : forall m,
  zsigned (bal_of (foldl (fun m ta => bal_plus m ta.1 (a_qty ta.2)) m l) t) = zsigned (bal_of m t) + listed t l.
Proof.
  induction l as [|ta l IH]; intro m; cbn [foldl]; [unfold listed; cbn; lia|].
  rewrite IH, signed_plus, listed_cons. lia.
Qed.
Lemma fold_minus_signed t l : forall m,
  zsigned (bal_of (foldl (fun m ta => bal_minus m ta.1 (a_qty ta.2)) m l) t) = zsigned (bal_of m t) - listed t l.
Proof.
  induction l as [|ta l IH]; intro m; cbn [foldl]; [unfold listed; cbn; lia|].
  rewrite IH, signed_minus, listed_cons. lia.
Qed.
Lemma fold_plus_normal (l : list (token * asset)) : forall m, all_normal m -> (forall ta, ta ∈ l -> 0 <= a_qty ta.2) ->
  all_normal (foldl (fun m ta => bal_plus m ta.1 (a_qty ta.2)) m l).
Proof.
  induction l as [|ta l IH]; intros m H Hl; cbn [foldl]; [exact H|].
  apply IH; [apply normal_plus; [exact H|apply Hl; left]|]. intros; apply Hl; right; assumption.
Qed.
Lemma fold_minus_normal (l : list (token * asset)) : forall m, all_normal m -> (forall ta, ta ∈ l -> 0 <= a_qty ta.2) ->
  all_normal (foldl (fun m ta => bal_minus m ta.1 (a_qty ta.2)) m l).
Proof.
  induction l as [|ta l IH]; intros m H Hl; cbn [foldl]; [exact H|].
  apply IH; [apply normal_minus; [exact H|apply Hl; left]|]. intros; apply Hl; right; assumption.
Qed.
Lemma order_nonneg (ord : torder asset) m : fair_t ord -> nonneg_table m -> forall ta, ta ∈ ord m -> 0 <= a_qty ta.2.
Proof. intros Hf Hn [t a] H. rewrite (Hf m) in H. apply elem_of_map_to_list in H. exact (Hn _ _ H). Qed.

Lemma asset_balances_signed ord ins outs t : fair_t ord ->
  zsigned (bal_of (asset_balances ord ins outs) t) = amount t ins - amount t outs.
Proof.
  intro Hf. unfold asset_balances. rewrite fold_minus_signed, fold_plus_signed, signed_empty, !listed_fair by exact Hf. lia.
Qed.
Lemma asset_balances_normal ord ins outs : fair_t ord -> nonneg_table ins -> nonneg_table outs ->
  all_normal (asset_balances ord ins outs).
Proof.
  intros Hf Hi Ho. unfold asset_balances. apply fold_minus_normal; [|apply order_nonneg; assumption].
  apply fold_plus_normal; [apply normal_empty|apply order_nonneg; assumption].
Qed.
Lemma are_assets_balanced_spec ord ins outs : fair_t ord -> nonneg_table ins -> nonneg_table outs ->
  are_assets_balanced ord ins outs = true <-> forall t, amount t ins = amount t outs.
Proof.
  intros Hf Hi Ho. unfold are_assets_balanced. rewrite all_balanced_spec by (apply asset_balances_normal; assumption).
  setoid_rewrite asset_balances_signed; [|exact Hf]. split; intros H t; specialize (H t); lia.
Qed.

Lemma is_balanced_spec ord s : fair_t ord -> 0 <= se_out s -> 0 <= se_fee s ->
  nonneg_table (se_in_assets s) -> nonneg_table (se_out_assets s) ->
  is_balanced ord s = true <->
  se_in s = se_out s + se_fee s /\ forall t, amount t (se_in_assets s) = amount t (se_out_assets s).
Proof.
  intros Hf Ho He Hi Hoa. unfold is_balanced. rewrite andb_true_iff, are_assets_balanced_spec by assumption.
  assert (M := main_balance_spec (se_in s) (se_out s) (se_fee s) Ho He).
  destruct (main_balance_of (se_in s) (se_out s) (se_fee s)); cbn [balanced]; split; intros [A B]; split; try exact B;
    try discriminate; try lia; reflexivity.
Qed.

(** ** balances of whole outputs *)
Definition quantity_out (t : token) (o : uout) : Z := (if decide (t = MAIN) then o_value o else 0) + held t (o_assets o).
Lemma quantity_held t u : quantity t u = (if decide (t = MAIN) then u_value u else 0) + held t (u_assets u).
Proof. reflexivity. Qed.

Lemma fold_assets_plus t l : forall m,
  zsigned (bal_of (foldl (fun m a => bal_plus m (a_fp a) (a_qty a)) m l) t) = zsigned (bal_of m t) + held t l.
Proof.
  induction l as [|a l IH]; intro m; cbn [foldl]; [rewrite held_nil; lia|]. rewrite IH, signed_plus, held_cons. lia.
Qed.
Lemma fold_assets_minus t l : forall m,
  zsigned (bal_of (foldl (fun m a => bal_minus m (a_fp a) (a_qty a)) m l) t) = zsigned (bal_of m t) - held t l.
Proof.
  induction l as [|a l IH]; intro m; cbn [foldl]; [rewrite held_nil; lia|]. rewrite IH, signed_minus, held_cons. lia.
Qed.
Lemma fold_assets_plus_normal l : forall m, all_normal m -> nonneg_list l ->
  all_normal (foldl (fun m a => bal_plus m (a_fp a) (a_qty a)) m l).
Proof.
  induction l as [|a l IH]; intros m H Hl; cbn [foldl]; [exact H|]. apply Forall_cons in Hl as [Ha Hl].
  apply IH; [apply normal_plus; assumption|exact Hl].
Qed.
Lemma fold_assets_minus_normal l : forall m, all_normal m -> nonneg_list l ->
  all_normal (foldl (fun m a => bal_minus m (a_fp a) (a_qty a)) m l).
Proof.
  induction l as [|a l IH]; intros m H Hl; cbn [foldl]; [exact H|]. apply Forall_cons in Hl as [Ha Hl].
  apply IH; [apply normal_minus; assumption|exact Hl].
Qed.

Lemma utxos_plus t us : forall m,
  zsigned (bal_of (foldl (fun m u => foldl (fun m a => bal_plus m (a_fp a) (a_qty a))
     (bal_plus m MAIN (u_value u)) (u_assets u)) m us) t) = zsigned (bal_of m t) + sumZ (map (quantity t) us).
Proof.
  induction us as [|u us IH]; intro m; cbn [foldl]; [unfold sumZ; cbn; lia|].
  rewrite IH, fold_assets_plus, signed_plus. cbn [map]. unfold sumZ; cbn [foldr]. fold (sumZ (map (quantity t) us)).
  rewrite quantity_held. destruct (decide (MAIN = t)), (decide (t = MAIN)); try lia; congruence.
Qed.
Lemma utxos_minus t os : forall m,
  zsigned (bal_of (foldl (fun m o => foldl (fun m a => bal_minus m (a_fp a) (a_qty a))
     (bal_minus m MAIN (o_value o)) (o_assets o)) m os) t) = zsigned (bal_of m t) - sumZ (map (quantity_out t) os).
Proof.
  induction os as [|o os IH]; intro m; cbn [foldl]; [unfold sumZ; cbn; lia|].
  rewrite IH, fold_assets_minus, signed_minus. cbn [map]. unfold sumZ; cbn [foldr]. fold (sumZ (map (quantity_out t) os)).
  unfold quantity_out. destruct (decide (MAIN = t)), (decide (t = MAIN)); try lia; congruence.
Qed.
Lemma utxos_plus_normal us : forall m, all_normal m -> Forall nonneg_in us ->
  all_normal (foldl (fun m u => foldl (fun m a => bal_plus m (a_fp a) (a_qty a))
     (bal_plus m MAIN (u_value u)) (u_assets u)) m us).
Proof.
  induction us as [|u us IH]; intros m H Hl; cbn [foldl]; [exact H|]. apply Forall_cons in Hl as [[Hv Ha] Hl].
  apply IH; [|exact Hl]. apply fold_assets_plus_normal; [apply normal_plus; assumption|exact Ha].
Qed.
Lemma utxos_minus_normal os : forall m, all_normal m -> Forall nonneg_out os ->
  all_normal (foldl (fun m o => foldl (fun m a => bal_minus m (a_fp a) (a_qty a))
     (bal_minus m MAIN (o_value o)) (o_assets o)) m os).
Proof.
  induction os as [|o os IH]; intros m H Hl; cbn [foldl]; [exact H|]. apply Forall_cons in Hl as [[Hv Ha] Hl].
  apply IH; [|exact Hl]. apply fold_assets_minus_normal; [apply normal_minus; assumption|exact Ha].
Qed.

Lemma are_utxos_balanced_spec ord s : fair_t ord ->
  Forall nonneg_in (se_fixed_in s ++ se_chosen s) -> Forall nonneg_out (se_fixed_out s ++ se_changes s) -> 0 <= se_fee s ->
  are_utxos_balanced ord s = true <->
  is_balanced ord s = true /\
  forall t, sumZ (map (quantity t) (se_fixed_in s ++ se_chosen s)) =
            sumZ (map (quantity_out t) (se_fixed_out s ++ se_changes s)) + (if decide (t = MAIN) then se_fee s else 0).
Proof.
  intros Hf Hi Ho He. unfold are_utxos_balanced. destruct (is_balanced ord s).
  - rewrite all_balanced_spec.
    + setoid_rewrite signed_minus. setoid_rewrite utxos_minus. setoid_rewrite utxos_plus. setoid_rewrite signed_empty.
      split.
      * intro H. split; [reflexivity|]. intro t. specialize (H t).
        destruct (decide (MAIN = t)), (decide (t = MAIN)); try lia; congruence.
      * intros [_ H] t. specialize (H t). destruct (decide (MAIN = t)), (decide (t = MAIN)); try lia; congruence.
    + apply normal_minus; [|exact He]. apply utxos_minus_normal; [|exact Ho].
      apply utxos_plus_normal; [apply normal_empty|exact Hi].
  - split; [discriminate|intros [? _]; discriminate].
Qed.

(** ** the two change balancers *)
Section Balancers.
  Context {E : Type} (est : estimator E).

  Lemma fee_balance_spec ord e su : fair_t ord ->
    nonneg_table (su_in_assets su) -> nonneg_table (su_out_assets su) -> 0 <= su_out su -> fees_nonneg est ->
    (exists f, e_min_fee est e = Some f /\ su_out su + f <= su_in su /\
               (forall t, amount t (su_in_assets su) = amount t (su_out_assets su)) /\
       fee_balance est ord e su =
         SDone (e, Selection (su_in su) (su_in_assets su) (su_out su) (su_out_assets su)
                             (su_fixed_in su) (su_fixed_out su) [] [] (su_in su - su_out su))) \/
    (fee_balance est ord e su = SFail e /\
       ~ (exists f, e_min_fee est e = Some f /\ su_out su + f <= su_in su /\
               (forall t, amount t (su_in_assets su) = amount t (su_out_assets su)))).
  Proof.
    intros Hf Hi Hoa Ho Hest. unfold fee_balance.
    destruct (are_assets_balanced ord (su_in_assets su) (su_out_assets su)) eqn:B.
    - assert (B' := B). rewrite are_assets_balanced_spec in B' by assumption.
      destruct (e_min_fee est e) as [f|] eqn:F.
      + assert (Hfee := proj1 (Hest e) f F).
        assert (M := main_balance_spec (su_in su) (su_out su) f Ho Hfee).
        destruct (main_balance_of (su_in su) (su_out su) f) as [d| |x].
        * right. split; [reflexivity|]. intros (g & G & Hg & _). injection G as <-. lia.
        * left. exists f. do 3 (split; [first [reflexivity|lia|assumption]|]).
          replace (su_in su - su_out su) with f by lia. reflexivity.
        * left. exists f. do 3 (split; [first [reflexivity|lia|assumption]|]).
          replace (su_in su - su_out su) with (f + x) by lia. reflexivity.
      + right. split; [reflexivity|]. intros (g & G & _). discriminate.
    - right. split; [reflexivity|]. intros (g & _ & _ & G). apply not_true_iff_false in B. apply B.
      apply are_assets_balanced_spec; assumption.
  Qed.

  (** the assets of the change *)
  Definition blisted (t : token) (l : list (token * (balance Z))) : Z :=
    sumZ (map (fun tb => if decide (tb.1 = t) then zsigned tb.2 else 0) l).

  Lemma excess_assets_spec ins l k : filed ins -> NoDup l.*1 -> (forall tb, tb ∈ l -> znormal tb.2) ->
    excess_assets ins l = Some k ->
    (forall t, held t k = blisted t l) /\ NoDup (map a_fp k) /\ (forall t, t ∈ map a_fp k -> t ∈ l.*1) /\
    Forall (fun a => 0 < a_qty a) k /\ (forall tb, tb ∈ l -> 0 <= zsigned tb.2) /\
    (forall a, a ∈ k -> exists b, ins !! a_fp a = Some b /\ a_policy a = a_policy b /\ a_name a = a_name b).
  Proof.
    intro Hfi. revert k. induction l as [|[t b] l IH]; intros k HN Hn; cbn [excess_assets].
    { intro E0. injection E0 as <-. split; [reflexivity|]. split; [constructor|]. split; [intros t Ht; inversion Ht|].
      split; [constructor|]. split; [intros tb Htb; inversion Htb|intros a Ha; inversion Ha]. }
    cbn [fmap list_fmap fst] in HN. apply NoDup_cons in HN as [Hnot HN].
    assert (Hn' : forall tb, tb ∈ l -> znormal tb.2) by (intros; apply Hn; right; assumption).
    assert (Hb := Hn (t, b) (elem_of_list_here _ _)). cbn [snd] in Hb.
    destruct b as [d| |x]; [discriminate| |].
    - intro Ek. destruct (IH k HN Hn' Ek) as (A & B & C & D & F & G).
      split. { intro t'. unfold blisted. cbn [map sumZ foldr fst snd zsigned]. rewrite (A t'). unfold blisted, sumZ.
               destruct (decide (t = t')); lia. }
      split; [exact B|]. split; [intros t' Ht'; cbn [fmap list_fmap]; right; apply C, Ht'|]. split; [exact D|].
      split; [|exact G]. intros tb Htb. apply elem_of_cons in Htb as [->|Htb]; [cbn; lia|apply F, Htb].
    - destruct (ins !! t) as [a|] eqn:L; [|discriminate]. destruct (excess_assets ins l) as [k'|] eqn:Ek; [|discriminate].
      cbn [fmap option_fmap option_map]. intro E0. injection E0 as <-.
      destruct (IH k' HN Hn' eq_refl) as (A & B & C & D & F & G). assert (Ha := Hfi _ _ L).
      split. { intro t'. rewrite held_cons. unfold blisted. cbn [map sumZ foldr fst snd zsigned a_fp a_qty].
               rewrite (A t'), Ha. reflexivity. }
      split. { cbn [map a_fp]. constructor; [|exact B]. rewrite Ha. intro Hin. apply Hnot, C, Hin. }
      split. { intros t' Ht'. cbn [map a_fp] in Ht'. apply elem_of_cons in Ht' as [->|Ht'];
               [rewrite Ha; cbn [fmap list_fmap]; left|cbn [fmap list_fmap]; right; apply C, Ht']. }
      split; [constructor; [exact Hb|exact D]|].
      split. { intros tb Htb. apply elem_of_cons in Htb as [->|Htb]; [cbn in *; lia|apply F, Htb]. }
      intros c Hc. apply elem_of_cons in Hc as [->|Hc]; [|apply G, Hc]. cbn. rewrite Ha. eauto.
  Qed.

  Lemma blisted_perm t l k : l ≡ₚ k -> blisted t l = blisted t k.
  Proof. intro H. unfold blisted. apply sumZ_perm. rewrite H. reflexivity. Qed.
  Lemma blisted_table t m : blisted t (map_to_list m) = zsigned (bal_of m t).
  Proof.
    induction m as [|k b m Hn IH] using map_ind.
    - rewrite map_to_list_empty, signed_empty. reflexivity.
    - rewrite (blisted_perm t _ _ (map_to_list_insert m k b Hn)). unfold blisted in *. cbn [map sumZ foldr fst snd].
      unfold sumZ in IH. rewrite IH. unfold bal_of. destruct (decide (k = t)) as [<-|n].
      + rewrite lookup_insert. rewrite Hn. cbn. lia.
      + rewrite lookup_insert_ne by exact n. lia.
  Qed.
End Balancers.
