From stdpp Require Import gmap strings sorting list.
From Coq Require Import ZArith Lia.
From Verif Require Import StoreModel StoreSpec.
Open Scope Z_scope.

(** ** sums over maps *)
Definition sumq (q : utxo -> Z) (m : gmap pointer utxo) : Z := map_fold (fun _ u acc => q u + acc) 0 m.

Lemma sumq_insert q m p u : m !! p = None -> sumq q (<[p := u]> m) = q u + sumq q m.
Proof. intro H. unfold sumq. rewrite map_fold_insert_L; [reflexivity| |exact H]. intros; lia. Qed.

Lemma sumq_delete q m p u : m !! p = Some u -> sumq q (delete p m) = sumq q m - q u.
Proof.
  intro H. rewrite <- (insert_delete m p u H) at 2.
  rewrite sumq_insert by apply lookup_delete. lia.
Qed.

Lemma sumq_empty q : sumq q ∅ = 0.
Proof. unfold sumq. apply map_fold_empty. Qed.

Lemma sumZ_app a b : sumZ (a ++ b) = sumZ a + sumZ b.
Proof. unfold sumZ. induction a as [|x a IH]; simpl; [reflexivity|lia]. Qed.

Lemma sumZ_perm a b : a ≡ₚ b -> sumZ a = sumZ b.
Proof. unfold sumZ. induction 1; simpl; lia. Qed.

(** ** one set *)
Definition ord_ok (q : utxo -> Z) (m : gmap pointer utxo) (o : gmap Z (gmap pointer utxo)) : Prop :=
  (forall k p u, (exists inner, o !! k = Some inner /\ inner !! p = Some u) <-> m !! p = Some u /\ q u = k) /\
  (forall k inner, o !! k = Some inner -> inner <> ∅).

Record set_ok (q : utxo -> Z) (m : gmap pointer utxo) (s : uset) : Prop := SetOk {
  so_set : s_set s = m;
  so_bal : s_balance s = sumq q m;
  so_ord : ord_ok q m (s_ord s)
}.

Lemma set_ok_default q : set_ok q ∅ uset_default.
Proof.
  split; simpl; [reflexivity|symmetry; apply sumq_empty|].
  split.
  - intros k p u. split.
    + intros (inner & H & _). rewrite lookup_empty in H. discriminate.
    + intros [H _]. rewrite lookup_empty in H. discriminate.
  - intros k inner H. rewrite lookup_empty in H. discriminate.
Qed.

Lemma add_value_ok q m s t u :
  set_ok q m s -> m !! u_ptr u = None -> set_ok q (<[u_ptr u := u]> m) (add_value s t (q u) u).
Proof.
  intros [Hs Hb [Ho Hne]] Hfresh. split; simpl.
  - rewrite Hs. reflexivity.
  - rewrite Hb, sumq_insert by exact Hfresh. lia.
  - split.
    + intros k p v. destruct (decide (k = q u)) as [->|Hk].
      * destruct (s_ord s !! q u) as [inner|] eqn:E; rewrite lookup_insert.
        -- split.
           ++ intros (inner' & G & L). injection G as <-.
              destruct (decide (p = u_ptr u)) as [->|Hp].
              ** rewrite lookup_insert in L |- *. injection L as <-. auto.
              ** rewrite lookup_insert_ne in L |- * by auto. apply Ho. eauto.
           ++ intros [L Hq]. eexists. split; [reflexivity|].
              destruct (decide (p = u_ptr u)) as [->|Hp].
              ** rewrite lookup_insert in L |- *. exact L.
              ** rewrite lookup_insert_ne in L |- * by auto.
                 destruct (proj2 (Ho (q u) p v) (conj L Hq)) as (i2 & E2 & L2).
                 rewrite E in E2. injection E2 as ->. exact L2.
        -- split.
           ++ intros (inner' & G & L). injection G as <-.
              apply lookup_singleton_Some in L as [<- <-]. rewrite lookup_insert. auto.
           ++ intros [L Hq]. eexists. split; [reflexivity|].
              destruct (decide (p = u_ptr u)) as [->|Hp].
              ** rewrite lookup_insert in L. injection L as ->. apply lookup_singleton.
              ** rewrite lookup_insert_ne in L by auto.
                 destruct (proj2 (Ho (q u) p v) (conj L Hq)) as (i2 & E2 & L2). congruence.
      * assert (Hl : (match s_ord s !! q u with
                     | None => <[q u := {[u_ptr u := u]}]> (s_ord s)
                     | Some inner => <[q u := <[u_ptr u := u]> inner]> (s_ord s) end) !! k = s_ord s !! k).
        { destruct (s_ord s !! q u); rewrite lookup_insert_ne; auto. }
        rewrite Hl, Ho. destruct (decide (p = u_ptr u)) as [->|Hp].
        -- rewrite lookup_insert, Hfresh. split; [intros [? ?]; discriminate|].
           intros [E1 E2]. injection E1 as ->. congruence.
        -- rewrite lookup_insert_ne by auto. reflexivity.
    + intros k inner. destruct (s_ord s !! q u) as [i0|] eqn:E.
      * destruct (decide (k = q u)) as [->|Hk].
        -- rewrite lookup_insert. intro G; injection G as <-. apply insert_non_empty.
        -- rewrite lookup_insert_ne by auto. apply Hne.
      * destruct (decide (k = q u)) as [->|Hk].
        -- rewrite lookup_insert. intro G; injection G as <-. apply map_non_empty_singleton.
        -- rewrite lookup_insert_ne by auto. apply Hne.
Qed.

Lemma finish_remove_ok q m s p u :
  set_ok q m s -> m !! p = Some u ->
  set_ok q (delete p m)
    (finish_remove (USet (s_token s) (s_balance s) (delete p (s_set s)) (s_ord s)) (q u) p).
Proof.
  intros [Hs Hb [Ho Hne]] Hp. split; simpl.
  - rewrite Hs. reflexivity.
  - rewrite Hb, (sumq_delete q m p u Hp). reflexivity.
  - destruct (proj2 (Ho (q u) p u) (conj Hp eq_refl)) as (inner & E & L). rewrite E.
    split.
    + intros k p' v. destruct (decide (k = q u)) as [->|Hk].
      * assert (Hin : (exists i, (if decide (delete p inner = ∅) then delete (q u) (s_ord s)
                           else <[q u := delete p inner]> (s_ord s)) !! q u = Some i /\ i !! p' = Some v)
                      <-> delete p inner !! p' = Some v).
        { destruct (decide (delete p inner = ∅)) as [D|D].
          - rewrite lookup_delete, D, lookup_empty. split; [intros (? & ? & ?)|]; discriminate.
          - rewrite lookup_insert. split; [intros (? & G & ?); injection G as <-; assumption|eauto]. }
        rewrite Hin. destruct (decide (p' = p)) as [->|Hpp].
        -- rewrite !lookup_delete. split; [discriminate|intros [? ?]; discriminate].
        -- rewrite !lookup_delete_ne by auto. rewrite <- Ho. split.
           ++ intro G. exists inner. auto.
           ++ intros (i2 & E2 & L2). rewrite E in E2. injection E2 as ->. exact L2.
      * assert (Hl : (if decide (delete p inner = ∅) then delete (q u) (s_ord s)
                      else <[q u := delete p inner]> (s_ord s)) !! k = s_ord s !! k).
        { destruct (decide (delete p inner = ∅)); [rewrite lookup_delete_ne|rewrite lookup_insert_ne]; auto. }
        rewrite Hl, Ho. destruct (decide (p' = p)) as [->|Hpp].
        -- rewrite lookup_delete, Hp. split; [intros [G1 G2]; injection G1 as ->; congruence|intros [? ?]; discriminate].
        -- rewrite lookup_delete_ne by auto. reflexivity.
    + intros k i. destruct (decide (delete p inner = ∅)) as [D|D].
      * destruct (decide (k = q u)) as [->|Hk]; [rewrite lookup_delete; discriminate|].
        rewrite lookup_delete_ne by auto. apply Hne.
      * destruct (decide (k = q u)) as [->|Hk].
        -- rewrite lookup_insert. intro G; injection G as <-. exact D.
        -- rewrite lookup_insert_ne by auto. apply Hne.
Qed.

Lemma ord_ok_unique q m o1 o2 : ord_ok q m o1 -> ord_ok q m o2 -> o1 = o2.
Proof.
  intros [H1 N1] [H2 N2]. apply map_eq. intro k.
  destruct (o1 !! k) as [i1|] eqn:E1.
  - assert (Hne := N1 _ _ E1). apply map_choose in Hne as (p & u & L).
    assert (M1 : m !! p = Some u /\ q u = k) by (apply H1; eauto).
    apply H2 in M1 as (i2 & E2 & L2). rewrite E2. f_equal. apply map_eq. intro p'.
    apply option_eq. intro v. split; intro L'.
    + assert (M' : m !! p' = Some v /\ q v = k) by (apply H1; eauto).
      apply H2 in M' as (i3 & E3 & L3). congruence.
    + assert (M' : m !! p' = Some v /\ q v = k) by (apply H2; eauto).
      apply H1 in M' as (i3 & E3 & L3). congruence.
  - destruct (o2 !! k) as [i2|] eqn:E2; [|reflexivity].
    assert (Hne := N2 _ _ E2). apply map_choose in Hne as (p & u & L).
    assert (M1 : m !! p = Some u /\ q u = k) by (apply H2; eauto).
    apply H1 in M1 as (i1 & E1' & _). congruence.
Qed.

Lemma set_ok_unique q m s1 s2 : set_ok q m s1 -> set_ok q m s2 -> s_token s1 = s_token s2 -> s1 = s2.
Proof.
  intros [A1 B1 C1] [A2 B2 C2] T. destruct s1, s2; simpl in *. subst.
  f_equal. eapply ord_ok_unique; eauto.
Qed.

(** ** ordered iteration *)
Lemma btree_list_perm {A} (m : gmap Z A) : btree_list m ≡ₚ map_to_list m.
Proof. apply merge_sort_Permutation. Qed.

Global Instance key_le_total {A} : Total (@key_le A).
Proof. intros a b. unfold key_le. lia. Qed.
Global Instance key_le_trans {A} : Transitive (@key_le A).
Proof. intros a b c. unfold key_le. lia. Qed.

Lemma btree_list_sorted {A} (m : gmap Z A) : StronglySorted key_le (btree_list m).
Proof. apply StronglySorted_merge_sort; apply _. Qed.

Lemma StronglySorted_app {A} (R : A -> A -> Prop) l1 l2 :
  StronglySorted R l1 -> StronglySorted R l2 -> (forall x y, x ∈ l1 -> y ∈ l2 -> R x y) ->
  StronglySorted R (l1 ++ l2).
Proof.
  intros H1 H2 H. induction H1 as [|x l1 Hs IH Hx]; simpl; [exact H2|].
  constructor.
  - apply IH. intros a b Ha Hb. apply H; [right; exact Ha|exact Hb].
  - apply Forall_app. split; [exact Hx|]. apply Forall_forall. intros y Hy. apply H; [left|exact Hy].
Qed.

Lemma StronglySorted_rev {A} (R : A -> A -> Prop) l :
  StronglySorted R l -> StronglySorted (fun a b => R b a) (rev l).
Proof.
  induction 1 as [|x l Hs IH Hx]; simpl; [constructor|].
  apply StronglySorted_app; [exact IH|repeat constructor|].
  intros a b Ha Hb. apply elem_of_list_singleton in Hb as ->.
  rewrite Forall_forall in Hx. apply Hx. rewrite elem_of_list_In, <- in_rev, <- elem_of_list_In in Ha. exact Ha.
Qed.

Lemma elem_of_flat_map {A B} (f : A -> list B) l y : y ∈ flat_map f l <-> exists x, x ∈ l /\ y ∈ f x.
Proof.
  rewrite elem_of_list_In, in_flat_map. setoid_rewrite elem_of_list_In. reflexivity.
Qed.

Lemma flat_sorted {A B} (R : Z -> Z -> Prop) (key : B -> Z) (f : Z * A -> list B) L :
  (forall z, R z z) ->
  StronglySorted (fun a b => R a.1 b.1) L ->
  (forall kv, kv ∈ L -> forall x, x ∈ f kv -> key x = kv.1) ->
  StronglySorted (fun x y => R (key x) (key y)) (flat_map f L).
Proof.
  intros Rrefl Hs. induction Hs as [|kv L Hs IH Hx]; intro Hk; simpl; [constructor|].
  apply StronglySorted_app.
  - assert (Hf : forall x, x ∈ f kv -> key x = kv.1) by (apply Hk; left).
    clear -Hf Rrefl. induction (f kv) as [|b l IHl]; constructor.
    + apply IHl. intros x Hx'. apply Hf. right. exact Hx'.
    + apply Forall_forall. intros y Hy. rewrite (Hf b) by left. rewrite (Hf y) by (right; exact Hy). apply Rrefl.
  - apply IH. intros kv' Hkv'. apply Hk. right. exact Hkv'.
  - intros x y Hxin Hyin. apply elem_of_flat_map in Hyin as (kv' & Hin' & Hy).
    rewrite (Hk kv ltac:(left) x Hxin). rewrite (Hk kv' ltac:(right; exact Hin') y Hy).
    rewrite Forall_forall in Hx. apply (Hx kv' Hin').
Qed.

Lemma flat_map_snd (enum : enumeration) (L : list (Z * gmap pointer utxo)) :
  flat_map (fun kv => map snd (enum kv.2)) L = map snd (flat_map (fun kv => enum kv.2) L).
Proof. induction L as [|kv L IH]; simpl; [reflexivity|]. rewrite map_app, IH. reflexivity. Qed.

Lemma flat_enum_NoDup (enum : enumeration) q m o L :
  fair enum -> ord_ok q m o -> (forall kv, kv ∈ L -> o !! kv.1 = Some kv.2) -> NoDup L.*1 ->
  NoDup (flat_map (fun kv => enum kv.2) L).
Proof.
  intros Hf [Ho _]. induction L as [|kv L IH]; intros HL HN; simpl; [constructor|].
  apply NoDup_app. split; [|split].
  - rewrite (Hf kv.2). apply NoDup_map_to_list.
  - intros [p u] Hin Hin2. rewrite (Hf kv.2) in Hin. apply elem_of_map_to_list in Hin.
    apply elem_of_flat_map in Hin2 as (kv' & Hkv' & Hin2). rewrite (Hf kv'.2) in Hin2. apply elem_of_map_to_list in Hin2.
    assert (E1 : m !! p = Some u /\ q u = kv.1) by (apply Ho; exists kv.2; split; [apply HL; left|exact Hin]).
    assert (E2 : m !! p = Some u /\ q u = kv'.1) by (apply Ho; exists kv'.2; split; [apply HL; right; exact Hkv'|exact Hin2]).
    rewrite fmap_cons in HN. apply NoDup_cons in HN as [HN _]. apply HN.
    destruct E1 as [_ <-], E2 as [_ ->]. apply elem_of_list_fmap. exists kv'. auto.
  - apply IH; [intros kv' H'; apply HL; right; exact H'|]. rewrite fmap_cons in HN. apply NoDup_cons in HN as [_ HN]. exact HN.
Qed.

Lemma flat_enum_perm (enum : enumeration) q m o L :
  fair enum -> ord_ok q m o -> L ≡ₚ map_to_list o ->
  flat_map (fun kv => enum kv.2) L ≡ₚ map_to_list m.
Proof.
  intros Hf Ho HL.
  assert (HL' : forall kv, kv ∈ L <-> o !! kv.1 = Some kv.2).
  { intros [k i]. rewrite HL. apply elem_of_map_to_list. }
  apply NoDup_Permutation.
  - apply (flat_enum_NoDup enum q m o); auto.
    + intros kv; apply HL'.
    + rewrite HL. apply NoDup_fst_map_to_list.
  - apply NoDup_map_to_list.
  - intros [p u]. rewrite elem_of_flat_map, elem_of_map_to_list. destruct Ho as [Ho _]. split.
    + intros ([k i] & Hin & Hp). rewrite (Hf i) in Hp. apply elem_of_map_to_list in Hp.
      apply HL' in Hin. simpl in Hin. apply (Ho k p u). eauto.
    + intro Hp. destruct (proj2 (Ho (q u) p u) (conj Hp eq_refl)) as (i & E & L1).
      exists (q u, i). split; [apply HL'; exact E|]. simpl. rewrite (Hf i). apply elem_of_map_to_list. exact L1.
Qed.

Lemma flat_enum_key (enum : enumeration) q m o L :
  fair enum -> ord_ok q m o -> L ≡ₚ map_to_list o ->
  forall kv, kv ∈ L -> forall x, x ∈ map snd (enum kv.2) -> q x = kv.1.
Proof.
  intros Hf [Ho _] HL [k i] Hin x Hx. simpl in *. rewrite HL in Hin. apply elem_of_map_to_list in Hin.
  apply elem_of_list_fmap in Hx as ([p u] & -> & Hx). rewrite (Hf i) in Hx. apply elem_of_map_to_list in Hx.
  simpl. assert (m !! p = Some u /\ q u = k) as [_ G] by (apply Ho; eauto). exact G.
Qed.

Lemma ordered_perm enum q m s : fair enum -> set_ok q m s -> ordered enum s ≡ₚ map snd (map_to_list m).
Proof.
  intros Hf [_ _ Ho]. unfold ordered. rewrite flat_map_snd. apply Permutation_map.
  eapply flat_enum_perm; eauto. apply btree_list_perm.
Qed.

Lemma ordered_rev_perm enum q m s : fair enum -> set_ok q m s -> ordered_rev enum s ≡ₚ map snd (map_to_list m).
Proof.
  intros Hf [_ _ Ho]. unfold ordered_rev. rewrite flat_map_snd. apply Permutation_map.
  eapply flat_enum_perm; eauto. rewrite <- Permutation_rev. apply btree_list_perm.
Qed.

Lemma ordered_sorted enum q m s : fair enum -> set_ok q m s ->
  StronglySorted (fun a b => q a <= q b) (ordered enum s).
Proof.
  intros Hf [_ _ Ho]. unfold ordered. apply (flat_sorted Z.le q); [intro; lia|apply btree_list_sorted|].
  eapply flat_enum_key; eauto. apply btree_list_perm.
Qed.

Lemma ordered_rev_sorted enum q m s : fair enum -> set_ok q m s ->
  StronglySorted (fun a b => q a >= q b) (ordered_rev enum s).
Proof.
  intros Hf [_ _ Ho]. unfold ordered_rev. apply (flat_sorted Z.ge q); [intro; lia| |].
  - generalize (StronglySorted_rev _ _ (btree_list_sorted (s_ord s))).
    generalize (rev (btree_list (s_ord s))). intro l.
    induction 1 as [|x l' Hs IH Hx]; constructor; [exact IH|].
    eapply Forall_impl; [exact Hx|]. intros b. unfold key_le. lia.
  - eapply flat_enum_key; eauto. rewrite <- Permutation_rev. apply btree_list_perm.
Qed.

(** ** all histories: the main set, and no panic *)
Definition weak_by (by_ : gmap token uset) : Prop :=
  forall t s, by_ !! t = Some s ->
    s_token s = t /\ forall p u, s_set s !! p = Some u -> t = MAIN \/ is_Some (find_qty t (u_assets u)).

Definition keyed (M : gmap pointer utxo) : Prop := forall p u, M !! p = Some u -> u_ptr u = p.

Record weak (M : gmap pointer utxo) (st : store) : Prop := Weak {
  w_tok : s_token (st_utxos st) = MAIN;
  w_main : set_ok u_value M (st_utxos st);
  w_by : weak_by (st_by st);
  w_key : keyed M
}.

Definition map_step (M : gmap pointer utxo) (o : store_op) : gmap pointer utxo :=
  match o with
  | Insert u => match M !! u_ptr u with Some _ => M | None => <[u_ptr u := u]> M end
  | Remove p => delete p M
  end.

Lemma find_qty_in t l : t ∈ map a_fp l -> is_Some (find_qty t l).
Proof.
  induction l as [|a l IH]; simpl; [intro H; inversion H|].
  intro H. destruct (decide (a_fp a = t)) as [_|Hn]; [eauto|].
  apply elem_of_cons in H as [->|H]; [congruence|auto].
Qed.

Lemma find_qty_in_inv t l : is_Some (find_qty t l) -> t ∈ map a_fp l.
Proof.
  induction l as [|a l IH]; simpl; [intros [? ?]; discriminate|].
  destruct (decide (a_fp a = t)) as [<-|Hn]; [left|right; auto].
Qed.

Lemma weak_add_token by_ t v u :
  weak_by by_ -> (t = MAIN \/ t ∈ map a_fp (u_assets u)) -> weak_by (add_token by_ t v u).
Proof.
  intros H Ht t' s. unfold add_token. destruct (decide (t' = t)) as [->|Hn].
  - rewrite lookup_insert. intro E; injection E as <-. simpl. split; [reflexivity|].
    intros p w. destruct (decide (p = u_ptr u)) as [->|Hp].
    + rewrite lookup_insert. intro E; injection E as <-. destruct Ht; [auto|right; apply find_qty_in; auto].
    + rewrite lookup_insert_ne by auto. destruct (by_ !! t) as [c|] eqn:E; simpl.
      * apply (proj2 (H t c E)).
      * rewrite lookup_empty. discriminate.
  - rewrite lookup_insert_ne by auto. apply H.
Qed.

Lemma weak_add_assets u l : forall by_,
  weak_by by_ -> (forall a, a ∈ l -> a_fp a ∈ map a_fp (u_assets u)) ->
  weak_by (foldl (fun m a => add_token m (a_fp a) (a_qty a) u) by_ l).
Proof.
  induction l as [|a l IH]; simpl; intros by_ H Hl; [exact H|].
  apply IH; [|intros; apply Hl; right; assumption].
  apply weak_add_token; [exact H|right; apply Hl; left].
Qed.

Lemma remove_from_asset_some by_ t c p :
  weak_by by_ -> by_ !! t = Some c ->
  exists c', remove_from_asset c p = Some c' /\ s_token c' = t /\ s_set c' = delete p (s_set c).
Proof.
  intros H E. destruct (H t c E) as [Ht Hs]. unfold remove_from_asset.
  destruct (s_set c !! p) as [u|] eqn:L.
  - rewrite Ht. destruct (decide (t = MAIN)) as [e|n].
    + eexists. split; [reflexivity|]. auto.
    + destruct (Hs p u L) as [e|[q Hq]]; [contradiction|]. rewrite Hq. eexists. split; [reflexivity|]. auto.
  - exists c. split; [reflexivity|]. split; [exact Ht|]. symmetry. apply delete_notin. exact L.
Qed.

Lemma weak_remove_token by_ p t :
  weak_by by_ -> exists by', remove_token p (Some by_) t = Some by' /\ weak_by by' /\
    (forall t', t' <> t -> by' !! t' = by_ !! t').
Proof.
  intro H. unfold remove_token. destruct (by_ !! t) as [c|] eqn:E; [|eauto 6].
  destruct (remove_from_asset_some by_ t c p H E) as (c' & -> & Ht & Hs).
  destruct (decide (s_set c' = ∅)).
  - eexists. split; [reflexivity|]. split.
    + intros t' s. destruct (decide (t' = t)) as [->|]; [rewrite lookup_delete; discriminate|].
      rewrite lookup_delete_ne by auto. apply H.
    + intros t' Hn. apply lookup_delete_ne. auto.
  - eexists. split; [reflexivity|]. split.
    + intros t' s. destruct (decide (t' = t)) as [->|].
      * rewrite lookup_insert. intro G; injection G as <-. split; [exact Ht|].
        intros p' u. rewrite Hs. intro L. apply lookup_delete_Some in L as [_ L].
        apply (proj2 (H t c E) p' u L).
      * rewrite lookup_insert_ne by auto. apply H.
    + intros t' Hn. apply lookup_insert_ne. auto.
Qed.

Lemma weak_remove_tokens p l : forall by_,
  weak_by by_ -> exists by', foldl (remove_token p) (Some by_) l = Some by' /\ weak_by by'.
Proof.
  induction l as [|t l IH]; intros by_ H; cbn [foldl]; [eauto|].
  destruct (weak_remove_token by_ p t H) as (b' & -> & Hb & _). apply IH. exact Hb.
Qed.

Lemma weak_new : weak ∅ store_new.
Proof.
  split; [reflexivity|apply set_ok_default| |]; intros ? ? H; simpl in H; rewrite lookup_empty in H; discriminate.
Qed.

Lemma weak_step M st o : weak M st ->
  exists st' r, store_step st o = (st', r) /\ r <> OpPanic /\ weak (map_step M o) st' /\
    (r = OpErr <-> match o with Insert u => is_Some (M !! u_ptr u) | Remove p => M !! p = None end) /\
    (r = OpErr -> st' = st).
Proof.
  intros [Ht Hm Hb Hk]. destruct o as [u|p]; simpl.
  - unfold store_insert. rewrite (so_set _ _ _ Hm). destruct (M !! u_ptr u) as [w|] eqn:E.
    + exists st, OpErr. split; [reflexivity|]. split; [discriminate|].
      split; [split; assumption|]. split; [split; eauto|auto].
    + do 2 eexists. split; [reflexivity|]. split; [discriminate|]. split; [split|split]; simpl.
      * reflexivity.
      * apply (add_value_ok u_value M _ MAIN u Hm E).
      * apply weak_add_assets; [apply weak_add_token; auto|]. intros a Ha. apply elem_of_list_fmap. eauto.
      * intros p w. destruct (decide (p = u_ptr u)) as [->|Hp].
        -- rewrite lookup_insert. intro G; injection G as <-. reflexivity.
        -- rewrite lookup_insert_ne by auto. apply Hk.
      * split; [discriminate|intros [? ?]; discriminate].
      * discriminate.
  - unfold store_remove, remove_from_main. rewrite (so_set _ _ _ Hm). destruct (M !! p) as [u|] eqn:E.
    + destruct (weak_remove_tokens p (map a_fp (u_assets u) ++ [MAIN]) (st_by st) Hb) as (b' & -> & Hb').
      do 2 eexists. split; [reflexivity|]. split; [discriminate|]. split; [split|split]; simpl.
      * exact Ht.
      * rewrite <- (so_set _ _ _ Hm). rewrite <- (so_set _ _ _ Hm) in E.
        pose proof (finish_remove_ok u_value M (st_utxos st) p u Hm) as F.
        rewrite (so_set _ _ _ Hm) in E, F |- *. exact (F E).
      * exact Hb'.
      * intros p' w. intro L. apply lookup_delete_Some in L as [_ L]. apply Hk. exact L.
      * split; discriminate.
      * discriminate.
    + exists st, OpErr. split; [reflexivity|]. split; [discriminate|]. rewrite delete_notin by exact E.
      split; [split; assumption|]. split; [split; auto|auto].
Qed.

(** the list specification as a map *)
Definition as_map (l : list utxo) : gmap pointer utxo := list_to_map (map (fun u => (u_ptr u, u)) l).

Lemma as_map_fst l : (map (fun u => (u_ptr u, u)) l).*1 = map u_ptr l.
Proof. induction l; simpl; [reflexivity|]. f_equal. assumption. Qed.

Lemma present_in p l : present p l <-> p ∈ map u_ptr l.
Proof.
  unfold present. rewrite Exists_exists, elem_of_list_fmap. split; intros (u & A & B); exists u; auto.
Qed.

Lemma as_map_None p l : as_map l !! p = None <-> ~ present p l.
Proof. rewrite present_in, <- as_map_fst. symmetry. unfold as_map. split; [apply not_elem_of_list_to_map_1|apply not_elem_of_list_to_map_2]. Qed.

Lemma as_map_Some p u l : NoDup (map u_ptr l) -> as_map l !! p = Some u <-> u ∈ l /\ u_ptr u = p.
Proof.
  intro HN. unfold as_map. rewrite <- elem_of_list_to_map by (rewrite as_map_fst; exact HN).
  rewrite elem_of_list_fmap. split.
  - intros (w & E & Hw). injection E as -> ->. auto.
  - intros [H <-]. eauto.
Qed.

Lemma as_map_list l : NoDup (map u_ptr l) -> map snd (map_to_list (as_map l)) ≡ₚ l.
Proof.
  intro HN. unfold as_map. rewrite map_to_list_to_map by (rewrite as_map_fst; exact HN).
  rewrite map_map. simpl. rewrite map_id. reflexivity.
Qed.

Lemma spec_step_map l o : NoDup (map u_ptr l) ->
  NoDup (map u_ptr (spec_step l o)) /\ as_map (spec_step l o) = map_step (as_map l) o.
Proof.
  intro HN. destruct o as [u|p]; simpl.
  - destruct (decide (present (u_ptr u) l)) as [H|H].
    + split; [exact HN|]. destruct (as_map l !! u_ptr u) eqn:E; [reflexivity|].
      apply as_map_None in E. contradiction.
    + assert (E := proj2 (as_map_None _ _) H). rewrite E.
      assert (HN' : NoDup (map u_ptr (l ++ [u]))).
      { rewrite map_app. apply NoDup_app. split; [exact HN|]. split; [|apply NoDup_singleton].
        intros p Hp Hp'. apply elem_of_list_singleton in Hp'. simpl in Hp'. subst p. apply H, present_in, Hp. }
      split; [exact HN'|]. apply map_eq. intro p. apply option_eq. intro w.
      rewrite as_map_Some by exact HN'. rewrite elem_of_app, elem_of_list_singleton.
      destruct (decide (p = u_ptr u)) as [->|Hp].
      * rewrite lookup_insert. split.
        -- intros [[Hw| -> ] G]; [|reflexivity]. exfalso. apply H, present_in, elem_of_list_fmap. exists w; auto.
        -- intro G; injection G as ->. auto.
      * rewrite lookup_insert_ne by auto. rewrite as_map_Some by exact HN. split.
        -- intros [[Hw| -> ] G]; [auto|congruence].
        -- intros [? ?]; auto.
  - assert (HN' : NoDup (map u_ptr (filter (fun u => u_ptr u <> p) l))).
    { clear -HN. induction l as [|a l IH]; simpl; [constructor|]. simpl in HN. apply NoDup_cons in HN as [Ha HN].
      rewrite filter_cons. destruct (decide (u_ptr a <> p)); [|auto]. simpl. constructor; [|auto].
      intro G. apply Ha. apply elem_of_list_fmap in G as (w & E & G). apply elem_of_list_filter in G as [_ G].
      apply elem_of_list_fmap. eauto. }
    split; [exact HN'|]. apply map_eq. intro p'. apply option_eq. intro w.
    rewrite as_map_Some by exact HN'. rewrite elem_of_list_filter, lookup_delete_Some.
    rewrite as_map_Some by exact HN. split.
    + intros [[H1 H2] <-]. auto.
    + intros [H1 [H2 <-]]. auto.
Qed.

Lemma spec_ok_map l o : NoDup (map u_ptr l) ->
  spec_ok l o = OpErr <-> match o with Insert u => is_Some (as_map l !! u_ptr u) | Remove p => as_map l !! p = None end.
Proof.
  intro HN. destruct o as [u|p]; simpl.
  - destruct (decide (present (u_ptr u) l)) as [H|H].
    + split; [intros _|reflexivity]. apply not_eq_None_Some. rewrite as_map_None. auto.
    + split; [discriminate|]. intros [w E]. rewrite (proj2 (as_map_None _ _) H) in E. discriminate.
  - destruct (decide (present p l)) as [H|H].
    + split; [discriminate|]. rewrite as_map_None. contradiction.
    + split; [|reflexivity]. intros _. apply as_map_None. exact H.
Qed.

Lemma store_run_spec h : forall l st, NoDup (map u_ptr l) -> weak (as_map l) st ->
  exists st', store_run st h = (st', spec_results l h) /\
    NoDup (map u_ptr (foldl spec_step l h)) /\ weak (as_map (foldl spec_step l h)) st'.
Proof.
  induction h as [|o h IH]; intros l st HN HW; [eexists; simpl; auto|].
  cbn [store_run spec_results foldl].
  destruct (weak_step (as_map l) st o HW) as (st1 & r & E & Hp & HW1 & Hr & _). rewrite E.
  destruct (spec_step_map l o HN) as [HN1 E1]. rewrite <- E1 in HW1.
  destruct (IH _ _ HN1 HW1) as (st2 & E2 & HN2 & HW2).
  assert (Hres : r = spec_ok l o).
  { pose proof (spec_ok_map l o HN) as HS. rewrite <- Hr in HS.
    destruct r, (spec_ok l o) eqn:E0; try reflexivity; try congruence.
    - destruct HS as [HS _]. specialize (HS eq_refl). discriminate.
    - exfalso. destruct o; simpl in E0; destruct (decide _) in E0; discriminate.
    - destruct HS as [_ HS]. specialize (HS eq_refl). discriminate.
    - destruct HS as [_ HS]. specialize (HS eq_refl). discriminate. }
  rewrite <- Hres. exists st2. rewrite E2. destruct r; [|  |congruence]; auto.
Qed.

Lemma NoDup_unspent h : NoDup (map u_ptr (unspent h)).
Proof.
  destruct (store_run_spec h [] store_new) as (st & _ & H & _); [constructor|apply weak_new|exact H].
Qed.

Definition final (h : list store_op) : store := fst (store_run store_new h).

Lemma final_spec h : store_run store_new h = (final h, spec_results [] h) /\ weak (as_map (unspent h)) (final h).
Proof.
  destruct (store_run_spec h [] store_new) as (st & E & H & W); [constructor|apply weak_new|].
  unfold final. rewrite E. auto.
Qed.

(** ** histories of well-formed outputs: the per-token sets *)
Definition holders (t : token) (M : gmap pointer utxo) : gmap pointer utxo := filter (fun pu => holds t pu.2) M.

Record by_ok (t : token) (M : gmap pointer utxo) (c : option uset) : Prop := ByOk {
  by_none : c = None <-> holders t M = ∅;
  by_some : forall s, c = Some s -> s_token s = t /\ set_ok (quantity t) (holders t M) s
}.
Definition strong (M : gmap pointer utxo) (st : store) : Prop :=
  weak M st /\ (forall p u, M !! p = Some u -> wf_utxo u) /\ forall t, by_ok t M (st_by st !! t).

Lemma holders_insert_yes t M u : holds t u -> holders t (<[u_ptr u := u]> M) = <[u_ptr u := u]> (holders t M).
Proof. intro H. unfold holders. apply map_filter_insert_True. exact H. Qed.
Lemma holders_insert_no t M u : ~ holds t u -> M !! u_ptr u = None ->
  holders t (<[u_ptr u := u]> M) = holders t M.
Proof.
  intros H E. unfold holders. rewrite map_filter_insert_False by exact H.
  rewrite delete_notin by exact E. reflexivity.
Qed.
Lemma holders_delete t M p : holders t (delete p M) = delete p (holders t M).
Proof. unfold holders. apply map_filter_delete. Qed.
Lemma holders_lookup t M p u : holders t M !! p = Some u <-> M !! p = Some u /\ holds t u.
Proof. unfold holders. rewrite map_filter_lookup_Some. reflexivity. Qed.

Lemma filter_fp_nil t l : t ∉ map a_fp l -> filter (fun a => a_fp a = t) l = [].
Proof.
  induction l as [|a l IH]; intro H; [reflexivity|]. simpl in H. apply not_elem_of_cons in H as [Ha Hl].
  rewrite filter_cons. destruct (decide (a_fp a = t)); [congruence|auto].
Qed.

Lemma quantity_asset u a : wf_utxo u -> a ∈ u_assets u -> quantity (a_fp a) u = a_qty a.
Proof.
  unfold wf_utxo, quantity. intros H Ha. apply NoDup_cons in H as [Hm H].
  destruct (decide (a_fp a = MAIN)) as [e|_].
  { exfalso. apply Hm. rewrite <- e. apply elem_of_list_fmap. eauto. }
  clear Hm. revert H Ha. generalize (u_assets u). intro l. induction l as [|b l IH]; intros HN Ha; [inversion Ha|].
  simpl in HN. apply NoDup_cons in HN as [Hb HN]. rewrite filter_cons.
  apply elem_of_cons in Ha as [->|Ha].
  - destruct (decide (a_fp b = a_fp b)); [|congruence]. simpl. rewrite filter_fp_nil by exact Hb. simpl. lia.
  - destruct (decide (a_fp b = a_fp a)) as [e|_].
    + exfalso. apply Hb. rewrite e. apply elem_of_list_fmap. eauto.
    + apply IH; assumption.
Qed.

Lemma quantity_main u : wf_utxo u -> quantity MAIN u = u_value u.
Proof.
  unfold wf_utxo, quantity. intro H. apply NoDup_cons in H as [Hm H].
  destruct (decide (MAIN = MAIN)); [|congruence]. rewrite filter_fp_nil by exact Hm. simpl. lia.
Qed.

Lemma quantity_find t u : wf_utxo u -> t <> MAIN -> holds t u -> find_qty t (u_assets u) = Some (quantity t u).
Proof.
  intros Hw Hn [H|H]; [contradiction|]. apply elem_of_list_fmap in H as (a & -> & Ha).
  rewrite (quantity_asset u a Hw Ha). unfold wf_utxo in Hw. apply NoDup_cons in Hw as [_ Hw].
  clear Hn. revert Hw Ha. generalize (u_assets u). intro l. induction l as [|b l IH]; intros HN Ha; [inversion Ha|].
  simpl in *. apply NoDup_cons in HN as [Hb HN]. apply elem_of_cons in Ha as [->|Ha].
  - destruct (decide (a_fp b = a_fp b)); [reflexivity|congruence].
  - destruct (decide (a_fp b = a_fp a)) as [e|_]; [|apply IH; assumption].
    exfalso. apply Hb. rewrite e. apply elem_of_list_fmap. eauto.
Qed.

(** inserting *)
Lemma add_assets_lookup u l : forall by_ t, NoDup (map a_fp l) ->
  (t ∉ map a_fp l -> foldl (fun m a => add_token m (a_fp a) (a_qty a) u) by_ l !! t = by_ !! t) /\
  (forall a, a ∈ l -> a_fp a = t -> foldl (fun m a => add_token m (a_fp a) (a_qty a) u) by_ l !! t =
     Some (add_value (default uset_default (by_ !! t)) t (a_qty a) u)).
Proof.
  induction l as [|b l IH]; intros by_ t HN; simpl.
  - split; [reflexivity|]. intros a Ha. inversion Ha.
  - simpl in HN. apply NoDup_cons in HN as [Hb HN]. destruct (IH (add_token by_ (a_fp b) (a_qty b) u) t HN) as [IH1 IH2].
    split.
    + intro Ht. apply not_elem_of_cons in Ht as [H1 H2]. rewrite IH1 by exact H2.
      unfold add_token. apply lookup_insert_ne. auto.
    + intros a Ha E. apply elem_of_cons in Ha as [->|Ha].
      * subst t. rewrite IH1 by exact Hb. unfold add_token. apply lookup_insert.
      * rewrite (IH2 a Ha E). unfold add_token. rewrite lookup_insert_ne; [reflexivity|].
        intro G. apply Hb. rewrite G, <- E. apply elem_of_list_fmap. eauto.
Qed.

Lemma by_add t M c u : by_ok t M c -> M !! u_ptr u = None -> holds t u ->
  by_ok t (<[u_ptr u := u]> M) (Some (add_value (default uset_default c) t (quantity t u) u)).
Proof.
  intros [Hn Hs] E Hh. rewrite <- (insert_insert M (u_ptr u) u u). rewrite insert_insert. split.
  - split; [discriminate|]. rewrite holders_insert_yes by exact Hh. intro G. exfalso. exact (insert_non_empty _ _ _ G).
  - intros s G. injection G as <-. split; [reflexivity|]. rewrite holders_insert_yes by exact Hh.
    apply add_value_ok.
    + destruct c as [c|]; simpl; [apply Hs; reflexivity|].
      rewrite (proj1 Hn eq_refl). apply set_ok_default.
    + destruct (holders t M !! u_ptr u) eqn:G; [|reflexivity]. apply holders_lookup in G as [G _]. congruence.
Qed.

Lemma strong_insert M st u : strong M st -> wf_utxo u -> M !! u_ptr u = None ->
  forall t, by_ok t (<[u_ptr u := u]> M)
    (foldl (fun m a => add_token m (a_fp a) (a_qty a) u) (add_token (st_by st) MAIN (u_value u) u) (u_assets u) !! t).
Proof.
  intros (HW & Hwf & Hby) Hu E t. assert (Hu' := Hu). unfold wf_utxo in Hu'. apply NoDup_cons in Hu' as [Hm HN].
  destruct (add_assets_lookup u (u_assets u) (add_token (st_by st) MAIN (u_value u) u) t HN) as [L1 L2].
  destruct (decide (t ∈ map a_fp (u_assets u))) as [Hin|Hout].
  - apply elem_of_list_fmap in Hin as (a & Ea & Ha). rewrite (L2 a Ha (eq_sym Ea)).
    unfold add_token. rewrite lookup_insert_ne.
    2:{ intro G. apply Hm. rewrite G, Ea. apply elem_of_list_fmap. eauto. }
    subst t. rewrite <- (quantity_asset u a Hu Ha). apply by_add; auto. right. apply elem_of_list_fmap. eauto.
  - rewrite L1 by exact Hout. unfold add_token. destruct (decide (t = MAIN)) as [->|Hn].
    + rewrite lookup_insert. rewrite <- (quantity_main u Hu). apply by_add; auto. left; reflexivity.
    + rewrite lookup_insert_ne by auto. destruct (Hby t) as [A B]. 
      assert (Hno : ~ holds t u) by (intros [?|?]; contradiction).
      split; rewrite (holders_insert_no t M u Hno E); assumption.
Qed.

(** removing *)
Lemma remove_tokens_lookup p l : forall by_ by' t, weak_by by_ -> NoDup l ->
  foldl (remove_token p) (Some by_) l = Some by' ->
  (t ∉ l -> by' !! t = by_ !! t) /\
  (t ∈ l -> by' !! t = match by_ !! t with None => None | Some c =>
      match remove_from_asset c p with Some c' => if decide (s_set c' = ∅) then None else Some c' | None => None end end).
Proof.
  induction l as [|b l IH]; intros by_ by' t HW HN; cbn [foldl].
  - intro E; injection E as <-. split; [reflexivity|]. intro H; inversion H.
  - apply NoDup_cons in HN as [Hb HN]. destruct (weak_remove_token by_ p b HW) as (b1 & E1 & HW1 & Hother).
    rewrite E1. intro E. destruct (IH b1 by' t HW1 HN E) as [I1 I2]. split.
    + intro H. apply not_elem_of_cons in H as [H1 H2]. rewrite I1 by exact H2. apply Hother. exact H1.
    + intro H. apply elem_of_cons in H as [->|H].
      * rewrite I1 by exact Hb. unfold remove_token in E1. destruct (by_ !! b) as [c|] eqn:Ec.
        -- destruct (remove_from_asset c p) as [c'|]; [|discriminate].
           destruct (decide (s_set c' = ∅)); injection E1 as <-; [apply lookup_delete|apply lookup_insert].
        -- injection E1 as <-. exact Ec.
      * rewrite I2 by exact H. rewrite Hother; [reflexivity|]. intro G; subst. contradiction.
Qed.

Lemma remove_from_asset_ok t M c p u :
  by_ok t M (Some c) -> M !! p = Some u -> holds t u -> wf_utxo u ->
  exists c', remove_from_asset c p = Some c' /\ s_token c' = t /\ set_ok (quantity t) (holders t (delete p M)) c'.
Proof.
  intros [_ Hs] HM Hh Hw. destruct (Hs c eq_refl) as [Ht Hok].
  assert (HL : holders t M !! p = Some u) by (apply holders_lookup; auto).
  unfold remove_from_asset. rewrite (so_set _ _ _ Hok), HL, Ht.
  pose proof (finish_remove_ok (quantity t) (holders t M) c p u Hok HL) as F.
  rewrite (so_set _ _ _ Hok), Ht in F. rewrite holders_delete.
  destruct (decide (t = MAIN)) as [->|Hn].
  - rewrite quantity_main in F by exact Hw. eexists. split; [reflexivity|]. split; [reflexivity|exact F].
  - rewrite (quantity_find t u Hw Hn Hh). eexists. split; [reflexivity|]. split; [reflexivity|exact F].
Qed.

Lemma strong_remove M st p u by' : strong M st -> M !! p = Some u ->
  foldl (remove_token p) (Some (st_by st)) (map a_fp (u_assets u) ++ [MAIN]) = Some by' ->
  forall t, by_ok t (delete p M) (by' !! t).
Proof.
  intros (HW & Hwf & Hby) E F t. assert (Hu := Hwf p u E). assert (Hu' := Hu).
  unfold wf_utxo in Hu'. apply NoDup_cons in Hu' as [Hm HN].
  assert (HNl : NoDup (map a_fp (u_assets u) ++ [MAIN])).
  { apply NoDup_app. split; [exact HN|]. split; [|apply NoDup_singleton].
    intros x Hx Hx'. apply elem_of_list_singleton in Hx' as ->. contradiction. }
  destruct (remove_tokens_lookup p _ (st_by st) by' t (w_by _ _ HW) HNl F) as [L1 L2].
  assert (Hiff : t ∈ map a_fp (u_assets u) ++ [MAIN] <-> holds t u).
  { unfold holds. rewrite elem_of_app, elem_of_list_singleton. tauto. }
  destruct (decide (holds t u)) as [Hh|Hh].
  - rewrite L2 by (apply Hiff; exact Hh). destruct (st_by st !! t) as [c|] eqn:Ec.
    + destruct (remove_from_asset_ok t M c p u) as (c' & -> & Ht & Hok); auto.
      { rewrite <- Ec. apply Hby. }
      rewrite (so_set _ _ _ Hok). destruct (decide (holders t (delete p M) = ∅)) as [D|D].
      * split; [split; auto|discriminate].
      * split; [split; [discriminate|contradiction]|]. intros s G; injection G as <-. auto.
    + exfalso. assert (holders t M = ∅) as G.
      { apply (by_none _ _ _ (Hby t)). exact Ec. }
      assert (holders t M !! p = Some u) as G2 by (apply holders_lookup; auto).
      rewrite G, lookup_empty in G2. discriminate.
  - rewrite L1 by (rewrite Hiff; exact Hh).
    assert (G : holders t (delete p M) = holders t M).
    { rewrite holders_delete. apply delete_notin. destruct (holders t M !! p) eqn:G; [|reflexivity].
      apply holders_lookup in G as [G1 G2]. congruence. }
    destruct (Hby t) as [A B]. split; rewrite G; assumption.
Qed.

Lemma strong_new : strong ∅ store_new.
Proof.
  split; [apply weak_new|]. split.
  - intros p u H. rewrite lookup_empty in H. discriminate.
  - intro t. simpl. rewrite lookup_empty. split; [|discriminate]. split; [|reflexivity].
    intros _. apply map_empty. intro p. unfold holders. destruct (filter _ _ !! p) eqn:G; [|reflexivity].
    apply map_filter_lookup_Some in G as [G _]. rewrite lookup_empty in G. discriminate.
Qed.

Lemma strong_step M st o : strong M st -> wf_op o -> strong (map_step M o) (fst (store_step st o)).
Proof.
  intros HS Ho. assert (HS' := HS). destruct HS' as (HW & Hwf & Hby).
  destruct (weak_step M st o HW) as (st' & r & E & Hp & HW' & Hr & Herr). rewrite E. simpl.
  split; [exact HW'|]. destruct o as [u|p]; simpl in *.
  - unfold store_insert in E. rewrite (so_set _ _ _ (w_main _ _ HW)) in E.
    destruct (M !! u_ptr u) as [w|] eqn:EM; injection E as <- <-.
    + auto.
    + split; [|apply strong_insert; auto]. intros p w. destruct (decide (p = u_ptr u)) as [->|Hpp].
      * rewrite lookup_insert. intro G; injection G as <-. exact Ho.
      * rewrite lookup_insert_ne by auto. apply Hwf.
  - split.
    + intros p' w L. apply lookup_delete_Some in L as [_ L]. eapply Hwf; eauto.
    + unfold store_remove, remove_from_main in E. rewrite (so_set _ _ _ (w_main _ _ HW)) in E.
      destruct (M !! p) as [u|] eqn:EM.
      * destruct (foldl (remove_token p) (Some (st_by st)) (map a_fp (u_assets u) ++ [MAIN])) as [b'|] eqn:EF.
        -- injection E as <- <-. simpl. eapply strong_remove; eauto.
        -- injection E as <- <-. congruence.
      * injection E as <- <-. rewrite delete_notin by exact EM. exact Hby.
Qed.

Lemma store_run_strong h : forall l st, NoDup (map u_ptr l) -> strong (as_map l) st -> Forall wf_op h ->
  strong (as_map (foldl spec_step l h)) (fst (store_run st h)).
Proof.
  induction h as [|o h IH]; intros l st HN HS Hwf; [exact HS|].
  apply Forall_cons in Hwf as [Ho Hwf]. cbn [store_run foldl].
  pose proof (strong_step _ _ o HS Ho) as HS1.
  destruct (spec_step_map l o HN) as [HN1 E1]. rewrite <- E1 in HS1.
  destruct (weak_step (as_map l) st o (proj1 HS)) as (st1 & r & E & Hp & HW1 & Hr & _).
  rewrite E in HS1 |- *. simpl in HS1. specialize (IH _ _ HN1 HS1 Hwf).
  destruct r; [| |congruence]; destruct (store_run st1 h); exact IH.
Qed.

Lemma final_strong h : Forall wf_op h -> strong (as_map (unspent h)) (final h).
Proof. intro H. apply store_run_strong; [constructor|apply strong_new|exact H]. Qed.

(** ** from maps to the list of unspent outputs *)
Lemma holders_as_map t l : NoDup (map u_ptr l) -> holders t (as_map l) = as_map (filter (holds t) l).
Proof.
  intro HN.
  assert (HN' : NoDup (map u_ptr (filter (holds t) l))).
  { clear -HN. induction l as [|a l IH]; simpl; [constructor|]. simpl in HN. apply NoDup_cons in HN as [Ha HN].
    rewrite filter_cons. destruct (decide (holds t a)); [|auto]. simpl. constructor; [|auto].
    intro G. apply Ha. apply elem_of_list_fmap in G as (w & E & G). apply elem_of_list_filter in G as [_ G].
    apply elem_of_list_fmap. eauto. }
  apply map_eq. intro p. apply option_eq. intro u. rewrite holders_lookup, as_map_Some by exact HN.
  rewrite as_map_Some by exact HN'. rewrite elem_of_list_filter. tauto.
Qed.

Lemma NoDup_filter_ptr t l : NoDup (map u_ptr l) -> NoDup (map u_ptr (filter (holds t) l)).
Proof.
  induction l as [|a l IH]; simpl; intro HN; [constructor|]. apply NoDup_cons in HN as [Ha HN].
  rewrite filter_cons. destruct (decide (holds t a)); [|auto]. simpl. constructor; [|auto].
  intro G. apply Ha. apply elem_of_list_fmap in G as (w & E & G). apply elem_of_list_filter in G as [_ G].
  apply elem_of_list_fmap. eauto.
Qed.

Lemma sumq_as_map q l : NoDup (map u_ptr l) -> sumq q (as_map l) = sumZ (map q l).
Proof.
  induction l as [|u l IH]; intro HN.
  - apply sumq_empty.
  - simpl in HN. apply NoDup_cons in HN as [Hu HN]. unfold as_map. simpl.
    change (list_to_map (map (fun u => (u_ptr u, u)) l)) with (as_map l).
    rewrite sumq_insert. { rewrite IH by exact HN. reflexivity. }
    apply as_map_None. rewrite present_in. exact Hu.
Qed.

Lemma size_as_map l : NoDup (map u_ptr l) -> size (as_map l) = length l.
Proof.
  intro HN. unfold size, map_size. rewrite <- (map_length snd).
  apply Permutation_length, as_map_list, HN.
Qed.

Lemma as_map_empty l : NoDup (map u_ptr l) -> as_map l = ∅ <-> l = [].
Proof.
  intro HN. rewrite <- map_size_empty_iff, size_as_map by exact HN. destruct l; simpl; split; congruence.
Qed.

Lemma as_map_perm l1 l2 : NoDup (map u_ptr l1) -> l1 ≡ₚ l2 -> as_map l1 = as_map l2.
Proof.
  intros HN HP. apply list_to_map_proper; [rewrite as_map_fst; exact HN|]. apply Permutation_map. exact HP.
Qed.
