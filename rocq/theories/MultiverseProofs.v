(** * Proofs about the block store *)
From Coq Require Import Lia NArith List.
From stdpp Require Import prelude numbers list gmap sorting.
From Verif Require Import MultiverseModel MultiverseSpec.

Local Open Scope N_scope.

(** ** Byte keys *)
Lemma bytes_cmp_refl x : bytes_cmp x x = Eq.
Proof. induction x as [|a x IH]; simpl; [done|]. by rewrite N.compare_refl. Qed.

Lemma bytes_cmp_eq x y : bytes_cmp x y = Eq <-> x = y.
Proof.
  split; [|intros ->; apply bytes_cmp_refl].
  revert y. induction x as [|a x IH]; intros [|b y]; simpl; try done.
  destruct (N.compare_spec a b); try done. intros ?%IH. by subst.
Qed.

Lemma bytes_cmp_antisym x y : bytes_cmp y x = CompOpp (bytes_cmp x y).
Proof.
  revert y. induction x as [|a x IH]; intros [|b y]; simpl; try done.
  rewrite N.compare_antisym. destruct (N.compare a b); simpl; auto.
Qed.

Lemma bytes_cmp_trans x y z :
  bytes_cmp x y = Lt -> bytes_cmp y z = Lt -> bytes_cmp x z = Lt.
Proof.
  revert y z. induction x as [|a x IH]; intros [|b y] [|c z]; simpl; try done.
  destruct (N.compare_spec a b), (N.compare_spec b c), (N.compare_spec a c);
    try done; try (exfalso; lia); try (subst; lia). apply IH.
Qed.

Global Instance bytes_le_trans : Transitive bytes_le.
Proof.
  intros x y z. unfold bytes_le. intros H1 H2 H3.
  destruct (bytes_cmp x y) eqn:E1; [|clear H1|done].
  - apply bytes_cmp_eq in E1 as ->. done.
  - destruct (bytes_cmp y z) eqn:E2; [|clear H2|done].
    + apply bytes_cmp_eq in E2 as ->. congruence.
    + by rewrite (bytes_cmp_trans _ _ _ E1 E2) in H3.
Qed.

Global Instance bytes_le_antisym : AntiSymm (=) bytes_le.
Proof.
  intros x y H1 H2. unfold bytes_le in *. rewrite bytes_cmp_antisym in H2.
  apply bytes_cmp_eq. by destruct (bytes_cmp x y).
Qed.

Global Instance bytes_le_total : Total bytes_le.
Proof.
  intros x y. unfold bytes_le. rewrite (bytes_cmp_antisym x y).
  destruct (bytes_cmp x y); simpl; naive_solver.
Qed.

Lemma be_bytes_length k n : length (be_bytes k n) = k.
Proof. induction k; simpl; congruence. Qed.

Lemma be_bytes_mod k n : be_bytes k (n mod 256 ^ N.of_nat k) = be_bytes k n.
Proof.
  assert (forall j, (j <= k)%nat -> be_bytes j (n mod 256 ^ N.of_nat k) = be_bytes j n) as H.
  { induction j as [|j IH]; intros Hj; [done|]. cbn [be_bytes]. rewrite IH by lia. f_equal.
    replace (256 ^ N.of_nat k)
      with (256 ^ N.of_nat j * (256 * 256 ^ N.of_nat (k - S j))).
    - rewrite N.mod_mul_r by (apply N.neq_mul_0 || (apply N.pow_nonzero; lia);
        try split; try lia; apply N.pow_nonzero; lia).
      rewrite (N.mul_comm (256 ^ N.of_nat j)), N.div_add
        by (apply N.pow_nonzero; lia).
      rewrite N.div_small by (apply N.mod_lt, N.pow_nonzero; lia). rewrite N.add_0_l.
      rewrite N.mod_mul_r by (try lia; apply N.pow_nonzero; lia).
      rewrite (N.mul_comm 256), N.mod_add by lia. rewrite N.mod_mod by lia. done.
    - rewrite <- (N.pow_succ_r' 256 (N.of_nat (k - S j))), <- N.pow_add_r. f_equal. lia. }
  by apply H.
Qed.

Lemma be_bytes_cmp k n n' x y :
  n < 256 ^ N.of_nat k -> n' < 256 ^ N.of_nat k ->
  bytes_cmp (be_bytes k n ++ x) (be_bytes k n' ++ y) =
    match N.compare n n' with Eq => bytes_cmp x y | c => c end.
Proof.
  revert n n'. induction k as [|k IH]; intros n n' Hn Hn'.
  - change (256 ^ N.of_nat 0) with 1 in *. assert (n = 0) as -> by lia.
    assert (n' = 0) as -> by lia. done.
  - cbn [be_bytes app bytes_cmp].
    set (P := 256 ^ N.of_nat k) in *.
    assert (P <> 0) as HP by (apply N.pow_nonzero; lia).
    assert (256 ^ N.of_nat (S k) = 256 * P) as E.
    { unfold P. rewrite Nat2N.inj_succ, N.pow_succ_r'. done. }
    rewrite E in *.
    assert (n / P < 256) by (apply N.div_lt_upper_bound; lia).
    assert (n' / P < 256) by (apply N.div_lt_upper_bound; lia).
    rewrite (N.mod_small (n / P)), (N.mod_small (n' / P)) by done.
    rewrite <- (be_bytes_mod k n), <- (be_bytes_mod k n'). fold P.
    rewrite IH by (apply N.mod_lt; done).
    pose proof (N.div_mod n P HP) as D. pose proof (N.div_mod n' P HP) as D'.
    pose proof (N.mod_lt n P HP). pose proof (N.mod_lt n' P HP).
    set (q := n / P) in *. set (r := n mod P) in *.
    set (q' := n' / P) in *. set (r' := n' mod P) in *.
    destruct (N.compare_spec q q') as [Hq|Hq|Hq].
    + rewrite D, D', Hq.
      destruct (N.compare_spec r r') as [->|?|?].
      * by rewrite N.compare_refl.
      * rewrite (proj2 (N.compare_lt_iff _ _)) by lia. done.
      * rewrite (proj2 (N.compare_gt_iff _ _)) by lia. done.
    + rewrite (proj2 (N.compare_lt_iff _ _)); [done|]. rewrite D, D'. nia.
    + rewrite (proj2 (N.compare_gt_iff _ _)); [done|]. rewrite D, D'. nia.
Qed.

Lemma sled_key_cmp n n' k k' : n < 2 ^ 64 -> n' < 2 ^ 64 ->
  bytes_cmp (mk_sled_key n k) (mk_sled_key n' k') =
    match N.compare n n' with Eq => bytes_cmp k k' | c => c end.
Proof. intros. unfold mk_sled_key. rewrite be_bytes_cmp; done. Qed.

Lemma sled_key_inj n n' k k' : n < 2 ^ 64 -> n' < 2 ^ 64 ->
  mk_sled_key n k = mk_sled_key n' k' -> n = n' /\ k = k'.
Proof.
  intros Hn Hn' E. pose proof (sled_key_cmp n n' k k' Hn Hn') as C.
  rewrite E, bytes_cmp_refl in C. destruct (N.compare_spec n n'); try done.
  split; [done|]. by apply bytes_cmp_eq.
Qed.

Lemma sled_key_le b b' : b_num b < 2 ^ 64 -> b_num b' < 2 ^ 64 ->
  bytes_le (mk_sled_key (b_num b) (b_id b)) (mk_sled_key (b_num b') (b_id b')) <->
  block_le b b'.
Proof.
  intros. unfold bytes_le, block_le. rewrite sled_key_cmp by done. unfold bytes_le.
  destruct (N.compare_spec (b_num b) (b_num b')) as [E|E|E].
  - rewrite E. split; [right; done|intros [?|[_ ?]]; [lia|done]].
  - split; [by left|done].
  - split; [done|intros [?|[? _]]; lia].
Qed.

Lemma ssorted_app {A} (R : A -> A -> Prop) l1 l2 :
  StronglySorted R l1 -> StronglySorted R l2 ->
  (forall x y, x ∈ l1 -> y ∈ l2 -> R x y) -> StronglySorted R (l1 ++ l2).
Proof.
  intros H1 H2 H. induction H1 as [|a l1 H1 IH Hf]; [done|]. cbn. constructor.
  - apply IH. intros. apply H; [by right|done].
  - apply Forall_app. split; [done|]. apply Forall_forall. intros y Hy. apply H; [by left|done].
Qed.

Lemma ssorted_filter {A} (R : A -> A -> Prop) (P : A -> Prop) `{!forall x, Decision (P x)} l :
  StronglySorted R l -> StronglySorted R (filter P l).
Proof.
  intros Hl. induction Hl as [|a l _ IH Hf]; [constructor|]. rewrite filter_cons.
  destruct (decide (P a)); [|done]. constructor; [done|].
  apply Forall_forall. intros y Hy. apply elem_of_list_filter in Hy as [_ Hy].
  by eapply Forall_forall in Hf.
Qed.

Lemma ssorted_unique {A} (R : A -> A -> Prop) l1 l2 :
  StronglySorted R l1 -> StronglySorted R l2 -> l1 ≡ₚ l2 ->
  (forall x y, x ∈ l1 -> y ∈ l1 -> R x y -> R y x -> x = y) -> l1 = l2.
Proof.
  intros H1. revert l2. induction H1 as [|a l1 H1 IH Hf]; intros l2 H2 Hp Ha.
  - by apply Permutation_nil_l in Hp.
  - destruct H2 as [|b l2 H2 Hg]; [by apply Permutation_nil_r in Hp|].
    assert (a = b) as <-.
    { assert (a ∈ b :: l2) as Hab by (rewrite <- Hp; by left).
      assert (b ∈ a :: l1) as Hba by (rewrite Hp; by left).
      apply elem_of_cons in Hab as [->|Hab]; [done|].
      apply elem_of_cons in Hba as [->|Hba]; [done|].
      apply Ha; [by left|by right| |].
      - by eapply Forall_forall in Hf.
      - by eapply Forall_forall in Hg. }
    f_equal. apply Permutation_cons_inv in Hp. apply IH; [done|done|].
    intros. apply Ha; [by right|by right|done|done].
Qed.

(** ** The memory of the store and the list of insertions

    [L] lists the stored blocks with the allocation of their key. *)
Notation ins := (list (nat * block)).

Definition linkL (L : ins) (p c : bytes) : Prop :=
  exists a1 b1 a2 b2, (a1, b1) ∈ L /\ (a2, b2) ∈ L /\ (a1 < a2)%nat /\
    b_id b1 = p /\ b_id b2 = c /\ b_parent b2 = p.

Definition bucket (m : mv) (n : N) : gset bytes := default ∅ (m_ordered m !! n).

Record mem_ok (m : mv) (L : ins) : Prop := {
  mo_sorted : StronglySorted lt L.*1;
  mo_nodup : NoDup (b_id <$> L.*2);
  mo_next : forall a b, (a, b) ∈ L -> (a < m_next m)%nat;
  mo_in : forall a b, (a, b) ∈ L -> exists pf ch, m_all m !! b_id b = Some (Entry a pf ch b) /\
    (forall c, c ∈ ch <-> linkL L (b_id b) c) /\
    (forall p x, pf = Some (p, x) -> p = b_parent b /\ (x < a)%nat) /\
    (forall a' p, (a', p) ∈ L -> (a' < a)%nat -> b_id p = b_parent b ->
       pf = Some (b_parent b, a'));
  mo_all : forall k e, m_all m !! k = Some e -> (e_arc e, e_value e) ∈ L /\ b_id (e_value e) = k;
  mo_ord : forall n k, k ∈ bucket m n <-> exists (a : nat) (b : block), (a, b) ∈ L /\ b_id b = k /\ b_num b = n;
  mo_ne : forall n, m_ordered m !! n <> Some ∅;
  mo_tips : forall k, k ∈ m_tips m <-> exists e, m_all m !! k = Some e /\ e_children e = ∅;
  mo_roots : forall k, k ∈ m_roots m -> is_Some (m_all m !! k) /\ forall p, ~ linkL L p k }.

Lemma ins_inj_id (L : ins) a b a' b' : NoDup (b_id <$> L.*2) ->
  (a, b) ∈ L -> (a', b') ∈ L -> b_id b = b_id b' -> a = a' /\ b = b'.
Proof.
  intros Hn. induction L as [|[x y] L IH]; intros H1 H2 E; [by apply elem_of_nil in H1|].
  cbn in Hn. apply NoDup_cons in Hn as [Hx Hn].
  assert (forall a b, (a, b) ∈ L -> b_id b ∈ b_id <$> L.*2) as Hin.
  { intros a0 b0 H. apply elem_of_list_fmap. exists b0. split; [done|].
    apply elem_of_list_fmap. by exists (a0, b0). }
  apply elem_of_cons in H1 as [H1|H1]; apply elem_of_cons in H2 as [H2|H2].
  - injection H1 as -> ->. injection H2 as -> ->. done.
  - injection H1 as -> ->. exfalso. apply Hx. rewrite E. eauto.
  - injection H2 as -> ->. exfalso. apply Hx. rewrite <- E. eauto.
  - auto.
Qed.

Lemma mo_inj m L a b a' b' : mem_ok m L ->
  (a, b) ∈ L -> (a', b') ∈ L -> b_id b = b_id b' -> a = a' /\ b = b'.
Proof. intros M. apply ins_inj_id, (mo_nodup _ _ M). Qed.

Lemma mo_none m L k : mem_ok m L -> m_all m !! k = None <-> ~ has L.*2 k.
Proof.
  intros M. split.
  - intros H Hk. apply elem_of_list_fmap in Hk as (b & -> & Hb).
    apply elem_of_list_fmap in Hb as ([a b'] & -> & Hb). cbn in H.
    destruct (mo_in _ _ M _ _ Hb) as (? & ? & E & _). congruence.
  - intros H. destruct (m_all m !! k) as [e|] eqn:E; [|done]. exfalso. apply H.
    destruct (mo_all _ _ M _ _ E) as [Hin Hk]. unfold has. rewrite <- Hk.
    apply elem_of_list_fmap. eexists; split; [done|]. apply elem_of_list_fmap.
    eexists; split; [|exact Hin]. done.
Qed.

Lemma linkL_snoc (L : ins) a b p c :
  (forall x y, (x, y) ∈ L -> (x < a)%nat) -> NoDup (b_id <$> (L ++ [(a, b)]).*2) ->
  linkL (L ++ [(a, b)]) p c <->
  linkL L p c \/ (c = b_id b /\ p = b_parent b /\ has L.*2 p).
Proof.
  intros Hlt Hn. split.
  - intros (a1 & b1 & a2 & b2 & H1 & H2 & Hl & <- & <- & Hp).
    rewrite elem_of_app, elem_of_list_singleton in H1, H2.
    destruct H2 as [H2|[= -> ->]]; destruct H1 as [H1|[= -> ->]].
    + left. exists a1, b1, a2, b2. done.
    + apply Hlt in H2. lia.
    + right. split; [done|]. split; [done|]. apply elem_of_list_fmap. exists b1. split; [done|].
      apply elem_of_list_fmap. by exists (a1, b1).
    + lia.
  - intros [(a1 & b1 & a2 & b2 & H1 & H2 & ?)|(-> & -> & Hh)].
    + exists a1, b1, a2, b2. rewrite !elem_of_app. eauto.
    + apply elem_of_list_fmap in Hh as (p & E & Hp).
      apply elem_of_list_fmap in Hp as ([a1 p'] & -> & Hp). cbn in E.
      exists a1, p', a, b. rewrite !elem_of_app, !elem_of_list_singleton.
      split; [by left|]. split; [by right|]. split; [by eapply Hlt|]. split; [by symmetry|done].
Qed.

Lemma has_snoc_nodup (L : ins) a b : NoDup (b_id <$> L.*2) -> ~ has L.*2 (b_id b) ->
  NoDup (b_id <$> (L ++ [(a, b)]).*2).
Proof.
  intros Hn Hh. rewrite !fmap_app. apply NoDup_app. split; [done|]. split.
  - intros x Hx Hx'. cbn in Hx'. apply elem_of_list_singleton in Hx' as ->. by apply Hh.
  - cbn. apply NoDup_singleton.
Qed.

(** The state after the parent was updated, before the new entry is added. *)
Lemma mem_ok_insert m L b : mem_ok m L -> ~ has L.*2 (b_id b) ->
  exists m', mv_insert_in_memory m b = Done m' /\ mem_ok m' (L ++ [(m_next m, b)]) /\
    m_tree m' = m_tree m /\ m_from m' = m_from m.
Proof.
  intros M Hb. pose proof (proj2 (mo_none _ _ _ M) Hb) as Ek.
  set (L' := L ++ [(m_next m, b)]).
  assert (NoDup (b_id <$> L'.*2)) as Hn' by (apply has_snoc_nodup; [apply M|done]).
  assert (forall p c, linkL L' p c <->
            linkL L p c \/ (c = b_id b /\ p = b_parent b /\ has L.*2 p)) as Hlink.
  { intros. apply linkL_snoc; [apply M|done]. }
  assert (forall c, ~ linkL L (b_id b) c) as Hnl.
  { intros c (a1 & b1 & a2 & b2 & H1 & H2 & ? & E & ?). apply Hb. unfold has. rewrite <- E.
    apply elem_of_list_fmap. exists b1. split; [done|]. apply elem_of_list_fmap.
    by exists (a1, b1). }
  assert (forall p, ~ linkL L p (b_id b)) as Hnl'.
  { intros c (a1 & b1 & a2 & b2 & H1 & H2 & ? & ? & E & ?). apply Hb. unfold has. rewrite <- E.
    apply elem_of_list_fmap. exists b2. split; [done|]. apply elem_of_list_fmap.
    by exists (a2, b2). }
  assert (StronglySorted lt L'.*1) as Hs'.
  { unfold L'. rewrite fmap_app. cbn. apply ssorted_app; [apply M|repeat constructor|].
    intros x1 x2 H1 H2. apply elem_of_list_singleton in H2 as ->.
    apply elem_of_list_fmap in H1 as ([a c] & -> & H1). by eapply mo_next in H1. }
  assert (forall a c, (a, c) ∈ L' -> (a < S (m_next m))%nat) as Hnx'.
  { intros a c H. apply elem_of_app in H as [H|H].
    - eapply mo_next in H; [|done]. lia.
    - apply elem_of_list_singleton in H as [= -> ->]. lia. }
  unfold mv_insert_in_memory. destruct (m_all m !! b_parent b) as [pe|] eqn:Ep.
  - (* the parent is stored *)
    assert (b_parent b <> b_id b) as Hpk by congruence.
    destruct (mo_all _ _ M _ _ Ep) as [Hpin Hpid].
    eexists. split; [reflexivity|]. split; [|done].
    unfold mv_link. cbn [m_tree m_all m_ordered m_tips m_roots m_from m_next].
    rewrite lookup_insert_ne, Ek by done.
    split; cbn [m_tree m_all m_ordered m_tips m_roots m_from m_next]; auto.
    + intros a c Hc. apply elem_of_app in Hc as [Hc|Hc].
      * destruct (mo_in _ _ M _ _ Hc) as (pf & ch & E & Hch & Hpf1 & Hpf2).
        assert (b_id c <> b_id b) as Hcb by congruence.
        rewrite lookup_insert_ne by done.
        destruct (decide (b_id c = b_parent b)) as [Ec|Ec].
        -- rewrite Ec, lookup_insert. rewrite Ec, Ep in E. injection E as ->.
           cbn. exists pf, ({[b_id b]} ∪ ch). split; [done|]. split; [|split; [done|]].
           ++ intros x. rewrite Hlink, elem_of_union, elem_of_singleton, Hch, Ec.
              split.
              ** intros [->|H]; [|by left]. right. split; [done|]. split; [done|].
                 apply elem_of_list_fmap. exists c. split; [done|].
                 apply elem_of_list_fmap. by exists (a, c).
              ** intros [H|[-> _]]; [by right|by left].
           ++ intros a' p Hp Hl. apply elem_of_app in Hp as [Hp|Hp]; [by eapply Hpf2|].
              apply elem_of_list_singleton in Hp as [= -> ->].
              apply (mo_next _ _ M) in Hc. lia.
        -- rewrite lookup_insert_ne by done. exists pf, ch. split; [done|].
           split; [|split; [done|]].
           ++ intros x. rewrite Hlink, Hch. split; [by left|].
              intros [H|(_ & ? & _)]; [done|congruence].
           ++ intros a' p Hp Hl. apply elem_of_app in Hp as [Hp|Hp]; [by eapply Hpf2|].
              apply elem_of_list_singleton in Hp as [= -> ->].
              apply (mo_next _ _ M) in Hc. lia.
      * apply elem_of_list_singleton in Hc as [= -> ->]. rewrite lookup_insert.
        eexists _, _. split; [reflexivity|]. split; [|split].
        -- intros x. rewrite Hlink. split; [set_solver|].
           intros [H|(_ & ? & _)]; [by apply Hnl in H|congruence].
        -- intros p x [= <- <-]. split; [done|]. by apply (mo_next _ _ M) in Hpin.
        -- intros a' p Hp Hl E. apply elem_of_app in Hp as [Hp|Hp].
           ++ assert (e_arc pe = a' /\ e_value pe = p) as [<- _]; [|done].
              eapply mo_inj; eauto. congruence.
           ++ apply elem_of_list_singleton in Hp as [= -> ->]. lia.
    + intros k e H. destruct (decide (k = b_id b)) as [->|Hk].
      * rewrite lookup_insert in H. apply (inj Some) in H as <-. cbn. split; [|done].
        apply elem_of_app. right. by apply elem_of_list_singleton.
      * rewrite lookup_insert_ne in H by done.
        destruct (decide (k = b_parent b)) as [->|Hk2].
        -- rewrite lookup_insert in H. apply (inj Some) in H as <-. cbn. split; [|done].
           apply elem_of_app. by left.
        -- rewrite lookup_insert_ne in H by done. apply (mo_all _ _ M) in H as [H ?].
           split; [|done]. apply elem_of_app. by left.
    + intros n k. unfold bucket. cbn. destruct (decide (n = b_num b)) as [->|Hn].
      * rewrite lookup_insert. cbn. rewrite elem_of_union, elem_of_singleton.
        fold (bucket m (b_num b)). rewrite (mo_ord _ _ M). split.
        -- intros [->|(a & c & ? & ?)].
           ++ exists (m_next m), b. split; [|done]. apply elem_of_app. right.
              by apply elem_of_list_singleton.
           ++ exists a, c. split; [|done]. apply elem_of_app. by left.
        -- intros (a & c & H & E1 & E2). apply elem_of_app in H as [H|H].
           ++ right. eauto.
           ++ apply elem_of_list_singleton in H as [= -> ->]. by left.
      * rewrite lookup_insert_ne by done. fold (bucket m n). rewrite (mo_ord _ _ M). split.
        -- intros (a & c & ? & ?). exists a, c. split; [|done]. apply elem_of_app. by left.
        -- intros (a & c & H & E1 & E2). apply elem_of_app in H as [H|H]; [eauto|].
           apply elem_of_list_singleton in H as [= -> ->]. done.
    + intros n. destruct (decide (n = b_num b)) as [->|Hn].
      * rewrite lookup_insert. intros [= H]. set_solver.
      * rewrite lookup_insert_ne by done. apply (mo_ne _ _ M).
    + intros k. rewrite elem_of_union, elem_of_singleton, elem_of_difference,
        elem_of_singleton, (mo_tips _ _ M).
      destruct (decide (k = b_id b)) as [->|Hk].
      * rewrite lookup_insert. split; [|by left]. intros _. eexists. split; [done|]. done.
      * rewrite lookup_insert_ne by done.
        destruct (decide (k = b_parent b)) as [->|Hk2].
        -- rewrite lookup_insert. split; [intros [?|[_ ?]]; done|].
           intros (e & [= <-] & H). cbn in H. set_solver.
        -- rewrite lookup_insert_ne by done. naive_solver.
    + intros k Hk. apply (mo_roots _ _ M) in Hk as [Hk Hno].
      assert (k <> b_id b) by (intros ->; rewrite Ek in Hk; by destruct Hk).
      split.
      * rewrite lookup_insert_ne by done. destruct (decide (k = b_parent b)) as [->|Hk2].
        -- rewrite lookup_insert. done.
        -- by rewrite lookup_insert_ne.
      * intros p. rewrite Hlink. intros [H1|[H1 _]]; [by eapply Hno|done].
  - (* the parent is not stored *)
    pose proof (proj1 (mo_none _ _ _ M) Ep) as Hnp.
    rewrite decide_False.
    2: { intros H. apply (mo_roots _ _ M) in H as [[? H] _]. congruence. }
    assert (forall p c, linkL L' p c <-> linkL L p c) as Hlink2.
    { intros. rewrite Hlink. split; [|by left]. intros [?|(_ & -> & ?)]; done. }
    eexists. split; [reflexivity|]. split; [|done].
    unfold mv_link. cbn [m_tree m_all m_ordered m_tips m_roots m_from m_next].
    rewrite Ek.
    split; cbn [m_tree m_all m_ordered m_tips m_roots m_from m_next]; auto.
    + intros a c Hc. apply elem_of_app in Hc as [Hc|Hc].
      * destruct (mo_in _ _ M _ _ Hc) as (pf & ch & E & Hch & Hpf1 & Hpf2).
        assert (b_id c <> b_id b) as Hcb by congruence.
        rewrite lookup_insert_ne by done. exists pf, ch. split; [done|].
        split; [|split; [done|]].
        -- intros x. by rewrite Hlink2, Hch.
        -- intros a' p Hp Hl. apply elem_of_app in Hp as [Hp|Hp]; [by eapply Hpf2|].
           apply elem_of_list_singleton in Hp as [= -> ->].
           apply (mo_next _ _ M) in Hc. lia.
      * apply elem_of_list_singleton in Hc as [= -> ->]. rewrite lookup_insert.
        eexists _, _. split; [reflexivity|]. split; [|split].
        -- intros x. rewrite Hlink2. split; [set_solver|].
           intros H. by apply Hnl in H.
        -- done.
        -- intros a' p Hp Hl E. apply elem_of_app in Hp as [Hp|Hp].
           ++ exfalso. apply Hnp. unfold has. rewrite <- E. apply elem_of_list_fmap.
              exists p. split; [done|]. apply elem_of_list_fmap. by exists (a', p).
           ++ apply elem_of_list_singleton in Hp as [= -> ->]. lia.
    + intros k e H. destruct (decide (k = b_id b)) as [->|Hk].
      * rewrite lookup_insert in H. apply (inj Some) in H as <-. cbn. split; [|done].
        apply elem_of_app. right. by apply elem_of_list_singleton.
      * rewrite lookup_insert_ne in H by done. apply (mo_all _ _ M) in H as [H ?].
        split; [|done]. apply elem_of_app. by left.
    + intros n k. unfold bucket. cbn. destruct (decide (n = b_num b)) as [->|Hn].
      * rewrite lookup_insert. cbn. rewrite elem_of_union, elem_of_singleton.
        fold (bucket m (b_num b)). rewrite (mo_ord _ _ M). split.
        -- intros [->|(a & c & ? & ?)].
           ++ exists (m_next m), b. split; [|done]. apply elem_of_app. right.
              by apply elem_of_list_singleton.
           ++ exists a, c. split; [|done]. apply elem_of_app. by left.
        -- intros (a & c & H & E1 & E2). apply elem_of_app in H as [H|H].
           ++ right. eauto.
           ++ apply elem_of_list_singleton in H as [= -> ->]. by left.
      * rewrite lookup_insert_ne by done. fold (bucket m n). rewrite (mo_ord _ _ M). split.
        -- intros (a & c & ? & ?). exists a, c. split; [|done]. apply elem_of_app. by left.
        -- intros (a & c & H & E1 & E2). apply elem_of_app in H as [H|H]; [eauto|].
           apply elem_of_list_singleton in H as [= -> ->]. done.
    + intros n. destruct (decide (n = b_num b)) as [->|Hn].
      * rewrite lookup_insert. intros [= H]. set_solver.
      * rewrite lookup_insert_ne by done. apply (mo_ne _ _ M).
    + intros k. rewrite elem_of_union, elem_of_singleton, (mo_tips _ _ M).
      destruct (decide (k = b_id b)) as [->|Hk].
      * rewrite lookup_insert. split; [|by left]. intros _. eexists. split; [done|]. done.
      * rewrite lookup_insert_ne by done. naive_solver.
    + intros k. rewrite elem_of_union, elem_of_singleton. intros [->|Hk].
      * split; [by rewrite lookup_insert|]. intros p. rewrite Hlink2. apply Hnl'.
      * apply (mo_roots _ _ M) in Hk as [Hk Hno].
        assert (k <> b_id b) by (intros ->; rewrite Ek in Hk; by destruct Hk).
        split; [by rewrite lookup_insert_ne|]. intros p. rewrite Hlink2. apply Hno.
Qed.

(** ** Removal *)
Definition drop_id (k : bytes) (L : ins) : ins := filter (fun x => b_id x.2 <> k) L.

Definition strip (k : bytes) (e : entry) : entry :=
  Entry (e_arc e) (e_parent e) (e_children e ∖ {[k]}) (e_value e).

Lemma strip_id k e : k ∉ e_children e -> strip k e = e.
Proof.
  intros H. destruct e as [a p ch v]. unfold strip. cbn in *. f_equal. set_solver.
Qed.

Lemma linkL_drop k L p c : linkL (drop_id k L) p c <-> linkL L p c /\ p <> k /\ c <> k.
Proof.
  unfold linkL, drop_id. split.
  - intros (a1 & b1 & a2 & b2 & H1 & H2 & ? & <- & <- & ?).
    apply elem_of_list_filter in H1 as [? H1], H2 as [? H2]. cbn in *.
    split; [|done]. exists a1, b1, a2, b2. done.
  - intros [(a1 & b1 & a2 & b2 & H1 & H2 & ? & <- & <- & ?) [? ?]].
    exists a1, b1, a2, b2. rewrite !elem_of_list_filter. done.
Qed.

Lemma linkL_entry m L p c : mem_ok m L -> linkL L p c ->
  exists pe ce, m_all m !! p = Some pe /\ m_all m !! c = Some ce /\
    e_parent ce = Some (p, e_arc pe) /\ (e_arc pe < e_arc ce)%nat /\ p <> c /\
    c ∈ e_children pe /\ b_parent (e_value ce) = p.
Proof.
  intros M (a1 & b1 & a2 & b2 & H1 & H2 & Hl & <- & <- & Hp).
  destruct (mo_in _ _ M _ _ H1) as (pf1 & ch1 & E1 & Hch1 & _ & _).
  destruct (mo_in _ _ M _ _ H2) as (pf2 & ch2 & E2 & Hch2 & Hpf & Hpf2).
  eexists _, _. split; [exact E1|]. split; [exact E2|]. cbn.
  split; [rewrite <- Hp; eapply Hpf2; eauto|]. split; [done|]. split; [|split; [|done]].
  - intros E. rewrite E, E2 in E1. injection E1. intros; subst. lia.
  - apply Hch1. exists a1, b1, a2, b2. done.
Qed.

Lemma unlink_ok m L m1 held k e : mem_ok m L -> current_refs m held ->
  m_all m !! k = Some e -> m_all m1 = delete k (m_all m) -> m_tips m1 = m_tips m ->
  exists m3, mv_unlink m1 held (e_parent e) k = Done m3 /\
    m_tree m3 = m_tree m1 /\ m_ordered m3 = m_ordered m1 /\ m_roots m3 = m_roots m1 /\
    m_from m3 = m_from m1 /\ m_next m3 = m_next m1 /\
    (forall q, m_all m3 !! q = if decide (q = k) then None else strip k <$> m_all m !! q) /\
    (forall q, q <> k -> q ∈ m_tips m3 <-> exists e, m_all m3 !! q = Some e /\ e_children e = ∅).
Proof.
  intros M Hh Ek Eall Etips.
  assert (forall q qe, m_all m !! q = Some qe -> k ∈ e_children qe -> linkL L q k) as Hlk.
  { intros q qe Eq Hq. destruct (mo_all _ _ M _ _ Eq) as [Hin Hid].
    destruct (mo_in _ _ M _ _ Hin) as (pf & ch & E & Hch & _).
    rewrite Hid, Eq in E. injection E as E. rewrite E in Hq. cbn in Hq. rewrite <- Hid.
    by apply Hch. }
  assert ((forall q, ~ linkL L q k) ->
    (forall q, m_all m1 !! q = if decide (q = k) then None else strip k <$> m_all m !! q)) as Hsame.
  { intros Hno q. rewrite Eall. destruct (decide (q = k)) as [->|Hq]; [by rewrite lookup_delete|].
    rewrite lookup_delete_ne by done. destruct (m_all m !! q) as [qe|] eqn:Eq; [|done].
    cbn. rewrite strip_id; [done|]. intros H. by eapply Hno, Hlk. }
  assert ((forall q, ~ linkL L q k) -> forall q, q <> k ->
    q ∈ m_tips m1 <-> exists e, m_all m1 !! q = Some e /\ e_children e = ∅) as Htsame.
  { intros Hno q Hq. rewrite Etips, (mo_tips _ _ M), Eall. by rewrite lookup_delete_ne. }
  unfold mv_unlink. destruct (mv_upgrade m1 held (e_parent e)) as [[p x]|] eqn:Eup.
  - assert (e_parent e = Some (p, x) /\ (e_arc <$> m_all m1 !! p = Some x \/ (p, x) ∈ held))
      as [Epf Hal].
    { unfold mv_upgrade in Eup. destruct (e_parent e) as [[p' x']|]; [|done].
      destruct (bool_decide (e_arc <$> m_all m1 !! p' = Some x')) eqn:D1.
      - cbn in Eup. injection Eup as -> ->. split; [done|]. left.
        by apply bool_decide_eq_true in D1.
      - destruct (bool_decide ((p', x') ∈ held)) eqn:D2; cbn in Eup; [|done].
        injection Eup as -> ->. split; [done|]. right. by apply bool_decide_eq_true in D2. }
    destruct (mo_all _ _ M _ _ Ek) as [Hkin Hkid].
    destruct (mo_in _ _ M _ _ Hkin) as (pf & ch & E & Hch & Hpf1 & Hpf2).
    rewrite Hkid, Ek in E. injection E as E. rewrite E in Epf. cbn in Epf. subst pf.
    destruct (Hpf1 _ _ eq_refl) as [Hpp Hlt].
    destruct (m_all m1 !! p) as [pe|] eqn:Ep.
    + assert (p <> k) as Hpk by (intros ->; rewrite Eall, lookup_delete in Ep; done).
      assert (m_all m !! p = Some pe) as Ep0
        by (rewrite Eall, lookup_delete_ne in Ep by done; done).
      assert (e_arc pe = x) as Earc.
      { destruct Hal as [Hal|Hal]; [by injection Hal|]. by eapply Hh. }
      destruct (mo_all _ _ M _ _ Ep0) as [Hpin Hpid].
      assert (linkL L p k) as Hl.
      { exists (e_arc pe), (e_value pe), (e_arc e), (e_value e).
        split; [done|]. split; [done|]. split; [lia|]. done. }
      destruct (linkL_entry _ _ _ _ M Hl) as (pe' & ce & E1 & _ & _ & _ & _ & Hmem & _).
      rewrite Ep0 in E1. injection E1 as <-.
      rewrite decide_True by done. cbv zeta.
      assert (forall q, <[p := strip k pe]> (m_all m1) !! q =
                if decide (q = k) then None else strip k <$> m_all m !! q) as Hall.
      { intros q. rewrite Eall. destruct (decide (q = k)) as [->|Hq].
        - rewrite lookup_insert_ne, lookup_delete by done. done.
        - destruct (decide (q = p)) as [->|Hqp].
          + by rewrite lookup_insert, Ep0.
          + rewrite lookup_insert_ne, lookup_delete_ne by done.
            destruct (m_all m !! q) as [qe|] eqn:Eq; [|done]. cbn. rewrite strip_id; [done|].
            intros H. apply (Hlk _ _ Eq) in H.
            destruct H as (a1 & b1 & a2 & b2 & G1 & G2 & _ & <- & G3 & G4).
            apply Hqp. rewrite <- G4.
            assert (a2 = e_arc e /\ b2 = e_value e) as [-> ->].
            { eapply mo_inj; eauto. congruence. }
            by rewrite Hpp. }
      destruct (decide (e_children pe ∖ {[k]} = ∅)) as [Hemp|Hemp].
      * rewrite decide_False.
        2: { rewrite Etips, (mo_tips _ _ M). intros (e' & E' & Hc). rewrite Ep0 in E'.
             injection E' as <-. set_solver. }
        eexists. split; [reflexivity|]. cbn. do 5 (split; [done|]). split; [exact Hall|].
        intros q Hq. fold (strip k pe). rewrite elem_of_union, elem_of_singleton.
        destruct (decide (q = p)) as [->|Hqp].
        -- rewrite lookup_insert. split; [|by left]. intros _. eexists; split; [done|]. done.
        -- rewrite lookup_insert_ne by done. rewrite Etips, (mo_tips _ _ M), Eall.
           rewrite lookup_delete_ne by done. naive_solver.
      * eexists. split; [reflexivity|]. cbn. do 5 (split; [done|]). split; [exact Hall|].
        intros q Hq. fold (strip k pe). rewrite Etips, (mo_tips _ _ M).
        destruct (decide (q = p)) as [->|Hqp].
        -- rewrite lookup_insert, Ep0. split.
           ++ intros (e' & [= <-] & H). set_solver.
           ++ intros (e' & [= <-] & H). done.
        -- rewrite lookup_insert_ne, Eall, lookup_delete_ne by done. done.
    + assert (forall q, ~ linkL L q k) as Hno.
      { intros q Hl. destruct (linkL_entry _ _ _ _ M Hl) as (pe & ce & E1 & E2 & _ & _ & Hne & _ & E3).
        rewrite Ek in E2. injection E2 as <-. rewrite <- Hpp in E3.
        subst q. rewrite Eall, lookup_delete_ne in Ep by done. congruence. }
      eexists. split; [reflexivity|]. do 5 (split; [done|]). split; auto.
  - assert (forall q, ~ linkL L q k) as Hno.
    { intros q Hl. destruct (linkL_entry _ _ _ _ M Hl) as (pe & ce & E1 & E2 & E3 & _ & Hne & _).
      rewrite Ek in E2. injection E2 as <-. unfold mv_upgrade in Eup. rewrite E3 in Eup.
      rewrite Eall, lookup_delete_ne, E1 in Eup by done. cbn in Eup.
      rewrite bool_decide_true in Eup by done. done. }
    eexists. split; [reflexivity|]. do 5 (split; [done|]). split; auto.
Qed.

Lemma mem_ok_remove m L held k e : mem_ok m L -> current_refs m held ->
  m_all m !! k = Some e ->
  exists m', mv_remove held m k = Done (m', e_value e) /\ mem_ok m' (drop_id k L) /\
    m_tree m' = delete (mk_sled_key (b_num (e_value e)) k) (m_tree m) /\ m_from m' = m_from m.
Proof.
  intros M Hh Ek. unfold mv_remove. rewrite Ek. cbv zeta.
  set (m1 := Mv (m_tree m) (delete k (m_all m)) (m_ordered m) (m_tips m) (m_roots m ∖ {[k]})
                (m_from m) (m_next m)).
  destruct (mo_all _ _ M _ _ Ek) as [Hkin Hkid].
  assert (forall c, c ∈ e_children e <-> linkL L k c) as Hch.
  { destruct (mo_in _ _ M _ _ Hkin) as (pf & ch & E & Hch & _).
    rewrite Hkid, Ek in E. injection E as E. rewrite E. cbn. by rewrite <- Hkid. }
  assert (exists m2, (if decide (k ∈ m_roots m) then
          if decide (e_children e ## m_roots m1) then
            Done (Mv (m_tree m1) (m_all m1) (m_ordered m1) (m_tips m1)
                     (e_children e ∪ m_roots m1) (m_from m1) (m_next m1))
          else Panic
        else Done m1) = Done m2 /\ m_tree m2 = m_tree m /\ m_all m2 = delete k (m_all m) /\
        m_ordered m2 = m_ordered m /\ m_tips m2 = m_tips m /\ m_from m2 = m_from m /\
        m_next m2 = m_next m /\
        (forall c, c ∈ m_roots m2 -> c <> k /\ (c ∈ m_roots m \/ linkL L k c))) as
    (m2 & -> & Et & Ea & Eo & Ep & Ef & En & Hr).
  { destruct (decide (k ∈ m_roots m)) as [Hk|Hk].
    - rewrite decide_True.
      + eexists. split; [reflexivity|]. cbn. repeat (split; [done|]).
        intros c. rewrite elem_of_union, elem_of_difference, elem_of_singleton, Hch.
        intros [Hc|[Hc1 Hc2]]; [|by auto]. split; [|by right]. intros ->.
        apply (mo_roots _ _ M) in Hk as [_ Hk]. by eapply Hk.
      + cbn. intros c Hc Hc2. apply Hch in Hc. apply elem_of_difference in Hc2 as [Hc2 _].
        apply (mo_roots _ _ M) in Hc2 as [_ Hno]. by eapply Hno.
    - exists m1. split; [done|]. cbn. repeat (split; [done|]). intros c Hc.
      apply elem_of_difference in Hc as [Hc Hc2]. split; [set_solver|by left]. }
  destruct (unlink_ok m L m2 held k e M Hh Ek Ea Ep)
    as (m3 & -> & Et3 & Eo3 & Er3 & Ef3 & En3 & Hall & Htips).
  eexists. split; [reflexivity|]. unfold mv_db_remove.
  cbn [m_tree m_all m_ordered m_tips m_roots m_from m_next].
  split; [|by rewrite Et3, Et, Ef3, Ef].
  set (n0 := b_num (e_value e)).
  assert (forall n, bucket m n ∖ {[k]} = default ∅ (match m_ordered m3 !! n0 with
      | Some s => if decide (s ∖ {[k]} = ∅) then delete n0 (m_ordered m3)
                  else <[n0:=s ∖ {[k]}]> (m_ordered m3)
      | None => m_ordered m3 end !! n)) as Hbk.
  { intros n. rewrite Eo3, Eo. unfold bucket.
    destruct (decide (n = n0)) as [->|Hn].
    - destruct (m_ordered m !! n0) as [s|] eqn:Es.
      + cbn. destruct (decide (s ∖ {[k]} = ∅)) as [Hs|Hs].
        * rewrite lookup_delete. cbn. done.
        * rewrite lookup_insert. done.
      + rewrite Es. cbn. set_solver.
    - assert (k ∉ default ∅ (m_ordered m !! n)) as Hk.
      { fold (bucket m n). rewrite (mo_ord _ _ M). intros (a & b & Hin & Hid & Hnum).
        assert (a = e_arc e /\ b = e_value e) as [-> ->] by (eapply mo_inj; eauto; congruence).
        done. }
      assert (default ∅ (m_ordered m !! n) ∖ {[k]} = default ∅ (m_ordered m !! n)) as ->
        by set_solver.
      destruct (m_ordered m !! n0) as [s|] eqn:Es; [|done].
      destruct (decide (s ∖ {[k]} = ∅)); [rewrite lookup_delete_ne by done; done|].
      rewrite lookup_insert_ne by done. done. }
  split; cbn [m_tree m_all m_ordered m_tips m_roots m_from m_next].
  - (* sorted *)
    assert (forall l : ins, StronglySorted lt l.*1 -> StronglySorted lt (drop_id k l).*1) as H.
    { intros l. induction l as [|[a b] l IH]; intros H; [constructor|].
      cbn in H. apply StronglySorted_inv in H as [H1 H2]. unfold drop_id.
      rewrite filter_cons. destruct (decide _); [|by apply IH]. cbn. constructor; [by apply IH|].
      apply Forall_forall. intros y Hy. apply elem_of_list_fmap in Hy as ([y' c] & -> & Hy).
      apply elem_of_list_filter in Hy as [_ Hy]. eapply Forall_forall in H2; [exact H2|].
      apply elem_of_list_fmap. by exists (y', c). }
    apply H, M.
  - assert (forall l : ins, NoDup (b_id <$> l.*2) -> NoDup (b_id <$> (drop_id k l).*2)) as H.
    { intros l. induction l as [|[a b] l IH]; intros H; [constructor|].
      cbn in H. apply NoDup_cons in H as [H1 H2]. unfold drop_id.
      rewrite filter_cons. destruct (decide _); [|by apply IH]. cbn. constructor; [|by apply IH].
      intros Hy. apply H1. apply elem_of_list_fmap in Hy as (c & E & Hy).
      apply elem_of_list_fmap in Hy as ([y' c'] & -> & Hy).
      apply elem_of_list_filter in Hy as [_ Hy]. rewrite E. apply elem_of_list_fmap.
      exists c'. split; [done|]. apply elem_of_list_fmap. by exists (y', c'). }
    apply H, M.
  - intros a b H. apply elem_of_list_filter in H as [_ H]. rewrite En3, En. by eapply M.
  - intros a b H. apply elem_of_list_filter in H as [Hne H]. cbn in Hne.
    destruct (mo_in _ _ M _ _ H) as (pf & ch & E & Hc & Hpf1 & Hpf2).
    rewrite Hall, decide_False, E by done. cbn. unfold strip. cbn.
    exists pf, (ch ∖ {[k]}). split; [done|]. split; [|split; [done|]].
    + intros c. rewrite elem_of_difference, elem_of_singleton, Hc, linkL_drop. naive_solver.
    + intros a' p Hp. apply elem_of_list_filter in Hp as [_ Hp]. by eapply Hpf2.
  - intros q qe. rewrite Hall. destruct (decide (q = k)) as [|Hq]; [done|].
    destruct (m_all m !! q) as [qe'|] eqn:Eq; [|done]. cbn. intros [= <-]. cbn.
    destruct (mo_all _ _ M _ _ Eq) as [H Hid]. split; [|done]. apply elem_of_list_filter.
    split; [|done]. cbn. congruence.
  - intros n q. unfold bucket. cbn [m_ordered]. rewrite <- Hbk.
    rewrite elem_of_difference, elem_of_singleton, (mo_ord _ _ M). split.
    + intros [(a & b & H & <- & <-) Hne]. exists a, b. split; [|done].
      apply elem_of_list_filter. done.
    + intros (a & b & H & <- & <-). apply elem_of_list_filter in H as [Hne H]. split; [|done].
      eauto.
  - intros n. rewrite Eo3, Eo. destruct (m_ordered m !! n0) as [s|] eqn:Es; [|apply M].
    destruct (decide (s ∖ {[k]} = ∅)) as [Hs|Hs].
    + destruct (decide (n = n0)) as [->|Hn]; [by rewrite lookup_delete|].
      rewrite lookup_delete_ne by done. apply M.
    + destruct (decide (n = n0)) as [->|Hn]; [rewrite lookup_insert; congruence|].
      rewrite lookup_insert_ne by done. apply M.
  - intros q. rewrite elem_of_difference, elem_of_singleton.
    destruct (decide (q = k)) as [->|Hq].
    + rewrite Hall, decide_True by done. naive_solver.
    + rewrite (Htips q Hq). naive_solver.
  - intros q Hq. rewrite Er3 in Hq. apply Hr in Hq as [Hne Hq].
    assert (is_Some (m_all m !! q) /\ (forall p, p <> k -> ~ linkL L p q)) as [Hs Hno].
    { destruct Hq as [Hq|Hq].
      - apply (mo_roots _ _ M) in Hq as [? Hq]. auto.
      - destruct (linkL_entry _ _ _ _ M Hq) as (pe & ce & _ & E2 & E3 & _ & _ & _ & E4).
        split; [by exists ce|]. intros p Hp Hl.
        destruct (linkL_entry _ _ _ _ M Hl) as (pe' & ce' & _ & E2' & E3' & _ & _ & _ & E4').
        rewrite E2 in E2'. injection E2' as <-. congruence. }
    split.
    + rewrite Hall, decide_False by done. destruct Hs as [? ->]. done.
    + intros p. rewrite linkL_drop. intros (Hl & Hp & _). by eapply Hno.
Qed.

(** ** The store and its specification *)
Definition sled_key (b : block) : bytes := mk_sled_key (b_num b) (b_id b).

Record rel (m : mv) (s : store) : Prop := {
  r_mem : exists L, mem_ok m L /\ L.*2 = s_blocks s;
  r_from : m_from m = s_from s;
  r_tree : forall kk b, m_tree m !! kk = Some b <-> b ∈ s_disk s /\ kk = sled_key b;
  r_disk : forall b, b ∈ s_disk s -> b ∈ s_blocks s;
  r_dnodup : NoDup (b_id <$> s_disk s);
  r_kept : forall b, b ∈ s_blocks s -> s_from s <= b_num b -> b ∈ s_disk s;
  r_small : forall b, b ∈ s_blocks s -> b_num b < 2 ^ 64 }.

Lemma mem_ok_ext m m' L : m_all m' = m_all m -> m_ordered m' = m_ordered m ->
  m_tips m' = m_tips m -> m_roots m' = m_roots m -> m_next m' = m_next m ->
  mem_ok m L -> mem_ok m' L.
Proof.
  intros E1 E2 E3 E4 E5 [H1 H2 H3 H4 H5 H6 H7 H8 H9].
  split; unfold bucket; rewrite ?E1, ?E2, ?E3, ?E4, ?E5; auto.
Qed.

Lemma mem_ok_empty t f : mem_ok (mv_new_with t f) [].
Proof.
  split.
  - constructor.
  - constructor.
  - intros a b H. by apply elem_of_nil in H.
  - intros a b H. by apply elem_of_nil in H.
  - cbn. intros k e H. by rewrite lookup_empty in H.
  - intros n k. unfold bucket. cbn. rewrite lookup_empty. cbn. split; [set_solver|].
    intros (a & b & H & _). by apply elem_of_nil in H.
  - cbn. intros n. by rewrite lookup_empty.
  - cbn. intros k. rewrite lookup_empty. split; [set_solver|]. by intros (e & H & _).
  - cbn. set_solver.
Qed.

Lemma mem_ok_clear m L : mem_ok m L -> mem_ok (mv_clear m) [].
Proof.
  intros M. pose proof (mem_ok_empty ∅ (m_from m)) as [H1 H2 H3 H4 H5 H6 H7 H8 H9].
  split; auto. intros a b H. by apply elem_of_nil in H.
Qed.

Lemma has_elem S k : has S k <-> exists b, b ∈ S /\ b_id b = k.
Proof. unfold has. rewrite elem_of_list_fmap. naive_solver. Qed.

Lemma nodup_id_inj S b b' : NoDup (b_id <$> S) -> b ∈ S -> b' ∈ S -> b_id b = b_id b' -> b = b'.
Proof.
  intros Hn. induction S as [|x S IH]; intros H1 H2 E; [by apply elem_of_nil in H1|].
  cbn in Hn. apply NoDup_cons in Hn as [Hx Hn].
  apply elem_of_cons in H1 as [->|H1]; apply elem_of_cons in H2 as [->|H2]; auto;
    exfalso; apply Hx; apply elem_of_list_fmap; eauto.
Qed.

Lemma lookup_block_some S k b : NoDup (b_id <$> S) ->
  lookup_block S k = Some b <-> b ∈ S /\ b_id b = k.
Proof.
  intros Hn. unfold lookup_block. destruct (list_find _ S) as [[i b']|] eqn:E; cbn.
  - apply list_find_Some in E as (E1 & E2 & E3). apply elem_of_list_lookup_2 in E1. split.
    + intros [= <-]. done.
    + intros [Hb Hk]. f_equal. eapply nodup_id_inj; eauto. congruence.
  - apply list_find_None in E. split; [done|]. intros [Hb Hk].
    eapply Forall_forall in E; [|exact Hb]. done.
Qed.

Lemma lookup_block_none S k : lookup_block S k = None <-> ~ has S k.
Proof.
  unfold lookup_block. destruct (list_find _ S) as [[i b']|] eqn:E; cbn.
  - apply list_find_Some in E as (E1 & E2 & E3). apply elem_of_list_lookup_2 in E1.
    split; [done|]. intros H. exfalso. apply H, has_elem. eauto.
  - apply list_find_None in E. split; [|done]. intros _ H. apply has_elem in H as (b & Hb & <-).
    eapply Forall_forall in E; [|exact Hb]. done.
Qed.

Lemma mo_lookup m L k : mem_ok m L -> e_value <$> m_all m !! k = lookup_block L.*2 k.
Proof.
  intros M. destruct (m_all m !! k) as [e|] eqn:E; cbn.
  - symmetry. apply lookup_block_some; [apply M|]. destruct (mo_all _ _ M _ _ E) as [H ?].
    split; [|done]. apply elem_of_list_fmap. by eexists (_, _).
  - symmetry. apply lookup_block_none. by apply (mo_none _ _ _ M).
Qed.

Lemma drop_id_blocks k L : (drop_id k L).*2 = without L.*2 k.
Proof.
  unfold drop_id, without. induction L as [|[a b] L IH]; [done|].
  rewrite filter_cons. cbn [fmap list_fmap snd]. rewrite filter_cons. cbn [snd].
  destruct (decide (b_id b <> k)); cbn; rewrite <- IH; done.
Qed.

Lemma elem_of_without S k b : b ∈ without S k <-> b ∈ S /\ b_id b <> k.
Proof. unfold without. rewrite elem_of_list_filter. naive_solver. Qed.

Lemma nodup_without S k : NoDup (b_id <$> S) -> NoDup (b_id <$> without S k).
Proof.
  unfold without. induction S as [|b S IH]; intros H; [constructor|].
  cbn in H. apply NoDup_cons in H as [H1 H2]. rewrite filter_cons.
  destruct (decide _); [|by apply IH]. cbn. constructor; [|by apply IH].
  intros Hy. apply H1. apply elem_of_list_fmap in Hy as (c & E & Hy).
  apply elem_of_list_filter in Hy as [_ Hy]. apply elem_of_list_fmap. eauto.
Qed.

Lemma rel_nodup m s : rel m s -> NoDup (b_id <$> s_blocks s).
Proof. intros R. destruct (r_mem _ _ R) as (L & M & <-). apply M. Qed.

Lemma sled_key_inj' b b' : b_num b < 2 ^ 64 -> b_num b' < 2 ^ 64 ->
  sled_key b = sled_key b' -> b_id b = b_id b'.
Proof. intros H1 H2 H. by apply sled_key_inj in H as [_ ?]. Qed.

Lemma rel_insert m s b : rel m s -> b_num b < 2 ^ 64 ->
  (forall b', b' ∈ s_blocks s -> b_id b' = b_id b -> b' = b) ->
  exists m', mv_insert m b = Done m' /\ rel m' (spec_step s (OInsert b)).1.
Proof.
  intros R Hb Hsame. destruct (r_mem _ _ R) as (L & M & EL).
  unfold mv_insert, mv_db_insert. fold (sled_key b). cbn [spec_step fst].
  destruct (decide (has (s_blocks s) (b_id b))) as [Hh|Hh].
  - (* already stored *)
    apply has_elem in Hh as (b' & Hb' & E). assert (b' = b) as -> by auto.
    assert (is_Some (m_all m !! b_id b)) as Hall.
    { destruct (m_all m !! b_id b) eqn:Ea; [done|]. exfalso.
      apply (mo_none _ _ _ M) in Ea. apply Ea. rewrite EL. apply has_elem. eauto. }
    assert (m_from m <= b_num b -> m_tree m !! sled_key b = Some b) as Htree.
    { intros Hf. rewrite (r_from _ _ R) in Hf. apply R. split; [|done]. by apply R. }
    exists m. split.
    + destruct (N.leb_spec (m_from m) (b_num b)) as [Hf|Hf].
      * rewrite Htree, insert_id by auto. cbn. rewrite bool_decide_true by done.
        destruct m; done.
      * cbn. rewrite bool_decide_true by done. done.
    + rewrite decide_False; [destruct s; done|].
      intros [Hf Hnd]. apply Hnd, has_elem. exists b. split; [|done]. by apply R.
  - (* new *)
    assert (m_all m !! b_id b = None) as Hall by (apply (mo_none _ _ _ M); by rewrite EL).
    assert (~ has (s_disk s) (b_id b)) as Hd.
    { intros H. apply Hh. apply has_elem in H as (b' & ? & ?). apply has_elem. exists b'.
      split; [by apply R|done]. }
    set (m1 := if N.leb (m_from m) (b_num b) then
      Mv (<[sled_key b := b]> (m_tree m)) (m_all m) (m_ordered m) (m_tips m) (m_roots m)
        (m_from m) (m_next m) else m).
    assert (m_all m1 = m_all m /\ m_ordered m1 = m_ordered m /\ m_tips m1 = m_tips m /\
            m_roots m1 = m_roots m /\ m_next m1 = m_next m /\ m_from m1 = m_from m /\
            m_tree m1 = if decide (m_from m <= b_num b) then <[sled_key b := b]> (m_tree m)
                        else m_tree m) as (E1 & E2 & E3 & E4 & E5 & E6 & E7).
    { unfold m1. destruct (N.leb_spec (m_from m) (b_num b)) as [Hf|Hf].
      - rewrite decide_True by done. done.
      - rewrite decide_False by lia. done. }
    assert (mem_ok m1 L) as M1 by (eapply mem_ok_ext; eauto).
    destruct (mem_ok_insert m1 L b M1) as (m' & Em & M' & Et & Ef); [by rewrite EL|].
    exists m'. split.
    + unfold m1 in Em.
      destruct (N.leb (m_from m) (b_num b)).
      * cbn [m_all]. rewrite Hall. rewrite bool_decide_false by apply is_Some_None.
        rewrite andb_false_r. exact Em.
      * rewrite Hall. rewrite bool_decide_false by apply is_Some_None. cbn. exact Em.
    + assert (forall x, x ∈ s_disk s -> sled_key x <> sled_key b) as Hkey.
      { intros x Hx E. apply Hd, has_elem. exists x. split; [done|].
        apply sled_key_inj' in E; auto. apply R. by apply R. }
      split; cbn [s_blocks s_disk s_from].
      * eexists. split; [exact M'|]. rewrite fmap_app, EL. done.
      * rewrite Ef, E6. apply R.
      * intros kk x. rewrite Et, E7, (r_from _ _ R).
        destruct (decide (s_from s <= b_num b)) as [Hf|Hf].
        -- rewrite decide_True by done. rewrite elem_of_app, elem_of_list_singleton.
           destruct (decide (kk = sled_key b)) as [->|Hk].
           ++ rewrite lookup_insert. split.
              ** intros [= <-]. split; [by right|done].
              ** intros [[Hx| -> ] E]; [|done]. exfalso. by eapply Hkey.
           ++ rewrite lookup_insert_ne, (r_tree _ _ R) by done. naive_solver.
        -- rewrite decide_False by (intros [? ?]; lia). apply R.
      * intros x. rewrite elem_of_app, elem_of_list_singleton.
        destruct (decide (s_from s <= b_num b /\ ~ has (s_disk s) (b_id b))) as [[Hf _]|Hf]; [rewrite elem_of_app, elem_of_list_singleton|];
          pose proof (r_disk _ _ R); naive_solver.
      * destruct (decide (s_from s <= b_num b /\ ~ has (s_disk s) (b_id b))) as [[Hf _]|Hf]; [|apply R]. rewrite fmap_app. apply NoDup_app.
        split; [apply R|]. split; [|apply NoDup_singleton]. intros x Hx Hx2.
        cbn in Hx2. apply elem_of_list_singleton in Hx2 as ->. done.
      * intros x. rewrite elem_of_app, elem_of_list_singleton. intros [Hx| -> ] Hf.
        -- destruct (decide (s_from s <= b_num b /\ ~ has (s_disk s) (b_id b))); [apply elem_of_app; left|]; by apply R.
        -- rewrite decide_True by done. apply elem_of_app. right. by apply elem_of_list_singleton.
      * intros x. rewrite elem_of_app, elem_of_list_singleton. intros [Hx| -> ]; [by apply R|done].
Qed.

Lemma rel_remove m s k held : rel m s -> current_refs m held ->
  match lookup_block (s_blocks s) k with
  | Some b => exists m', mv_remove held m k = Done (m', b) /\
      rel m' (Store (without (s_blocks s) k) (without (s_disk s) k) (s_from s))
  | None => mv_remove held m k = NotFound
  end.
Proof.
  intros R Hh. destruct (r_mem _ _ R) as (L & M & EL).
  rewrite <- EL, <- (mo_lookup _ _ _ M). destruct (m_all m !! k) as [e|] eqn:E; cbn.
  - destruct (mem_ok_remove _ _ _ _ _ M Hh E) as (m' & Em & M' & Et & Ef).
    exists m'. split; [done|].
    destruct (mo_all _ _ M _ _ E) as [Hin Hid].
    assert (e_value e ∈ s_blocks s) as Hb.
    { rewrite <- EL. apply elem_of_list_fmap. by eexists (_, _). }
    assert (mk_sled_key (b_num (e_value e)) k = sled_key (e_value e)) as Ekey
      by (unfold sled_key; by rewrite Hid).
    rewrite Ekey in Et.
    split; cbn [s_blocks s_disk s_from].
    + eexists. split; [exact M'|]. by rewrite drop_id_blocks.
    + rewrite Ef. apply R.
    + intros kk b. rewrite Et, elem_of_without.
      destruct (decide (kk = sled_key (e_value e))) as [->|Hk].
      * rewrite lookup_delete. split; [done|]. intros [[Hd Hne] Ek]. exfalso. apply Hne.
        apply sled_key_inj' in Ek; [congruence|by apply R|by apply R, R].
      * rewrite lookup_delete_ne, (r_tree _ _ R) by done. split; [|naive_solver].
        intros [Hd ->]. split; [|done]. split; [done|]. intros Hbk. apply Hk. f_equal.
        eapply nodup_id_inj; [by eapply rel_nodup|by apply R|done|congruence].
    + intros b. rewrite EL, !elem_of_without. intros [? ?]. split; [by apply R|done].
    + by apply nodup_without, R.
    + intros b. rewrite EL, !elem_of_without. intros [? ?] ?. split; [by apply R|done].
    + intros b. rewrite EL, !elem_of_without. intros [? ?]. by apply R.
  - unfold mv_remove. by rewrite E.
Qed.
