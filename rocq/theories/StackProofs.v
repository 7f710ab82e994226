(** Proofs for C49, first part: whatever a node with shallow forks sends after points it was asked with grows as the confirming and
    the fork-handling source need it. Chains are lists of blocks here. *)
From Coq Require Import Lia NArith List.
From stdpp Require Import prelude numbers list gmap sorting.
From Verif Require Import MultiverseModel MultiverseSpec MultiverseProofs MultiverseHistProofs
  MultiverseQueryProofs SourceModel SourceSpec SourceProofs SourceRunProofs SourceProps.
Local Open Scope N_scope.

Section chains.
  Context (sl : block -> N) (d : nat) (H : list (list block)) (pre : list block) (b0 b1 : block).
  Notation n0 := (length pre).
  Hypothesis H_start : forall C, C ∈ H -> C !! n0 = Some b0 /\ C !! S n0 = Some b1.
  Hypothesis H_linked : forall C, C ∈ H -> linked C.
  Hypothesis H_small : forall C b, C ∈ H -> b ∈ C -> b_num b < 2 ^ 64.
  Hypothesis H_slots : forall C i j x y, C ∈ H -> C !! i = Some x -> C !! j = Some y -> (i < j)%nat -> sl x < sl y.
  Hypothesis H_ids : forall C C' x y, C ∈ H -> C' ∈ H -> x ∈ C -> y ∈ C' -> b_id x = b_id y -> x = y.
  Hypothesis H_prefix : forall i j C C', H !! i = Some C -> H !! j = Some C' -> (i < j)%nat -> take (length C - d) C `prefix_of` C'.

  Lemma idx C i x : C ∈ H -> C !! i = Some x -> b_num x + N.of_nat n0 = b_num b0 + N.of_nat i.
  Proof.
    intros HC Hx. pose proof (H_linked C HC) as L. destruct (H_start C HC) as [S0 _]. destruct C as [|h C]; [done|].
    pose proof (linked_nums _ L i x h Hx eq_refl). pose proof (linked_nums _ L n0 b0 h S0 eq_refl). lia.
  Qed.
  Lemma same_idx C C' i j x : C ∈ H -> C' ∈ H -> C !! i = Some x -> C' !! j = Some x -> i = j.
  Proof. intros HC HC' Hi Hj. pose proof (idx _ _ _ HC Hi). pose proof (idx _ _ _ HC' Hj). lia. Qed.
  Lemma link_at C i x y : C ∈ H -> C !! i = Some x -> C !! S i = Some y -> b_parent y = b_id x /\ b_num y = b_num x + 1.
  Proof.
    intros HC Hx Hy. pose proof (H_linked C HC) as L. clear HC. revert i Hx Hy. induction C as [|z C IH]; [done|]. intros i Hx Hy.
    destruct C as [|z' C]; [by destruct i|]. destruct L as (L1 & L2 & L). destruct i as [|i]; [cbn in Hx, Hy; injection Hx as <-; injection Hy as <-; done|].
    apply (IH L i Hx Hy).
  Qed.

  (** the blocks received are of the chains the node had, after the start *)
  Definition prov (k : nat) (x : block) : Prop := exists j C i, (j <= k)%nat /\ H !! j = Some C /\ (n0 < i)%nat /\ C !! i = Some x.
  Lemma prov_idx k x C i : prov k x -> C ∈ H -> C !! i = Some x -> (n0 < i)%nat.
  Proof. intros (j & C' & i' & _ & Hj & Hi & Hx) HC HCx. assert (i = i') as -> by (eapply same_idx; [exact HC| |done|done]; by eapply elem_of_list_lookup_2). done. Qed.
  Lemma prov_mono k k' x : (k <= k')%nat -> prov k x -> prov k' x.
  Proof. intros Hk (j & C & i & ? & ?). exists j, C, i. split; [lia|done]. Qed.

  Lemma back_on_chain R k : (forall x, x ∈ R -> prov k x) -> forall n t x, back R n t x -> forall C i, C ∈ H -> C !! i = Some t ->
    (n <= i)%nat /\ C !! (i - n)%nat = Some x.
  Proof.
    intros HP n t x Hb. induction Hb as [t Ht|n t p x Ht Hl Hp IH]; intros C i HC Hi.
    - rewrite Nat.sub_0_r. split; [lia|done].
    - pose proof (prov_idx _ _ _ _ (HP t Ht) HC Hi) as Hi0. destruct i as [|i]; [lia|].
      destruct (lookup_lt_is_Some_2 C i) as [q Hq]. { apply lookup_lt_Some in Hi. lia. }
      destruct (link_at C i q t HC Hq Hi) as [Lq _].
      assert (q = p) as ->.
      { destruct (back_in _ _ _ _ Hp) as [Hpr _]. destruct (HP p Hpr) as (j & C' & i' & _ & Hj & _ & Hx).
        eapply (H_ids C C'); [done|by eapply elem_of_list_lookup_2|by eapply elem_of_list_lookup_2|by eapply elem_of_list_lookup_2|congruence]. }
      destruct (IH C i HC Hq) as [Hn Hx]. split; [lia|]. by replace (S i - S n)%nat with (i - n)%nat by lia.
  Qed.

  (** a block with d blocks after it stays *)
  Lemma deep_stays R k t x j C : (forall x, x ∈ R -> prov k x) -> t ∈ R -> back R d t x -> H !! j = Some C ->
    (exists j' C' i, (j' <= j)%nat /\ H !! j' = Some C' /\ C' !! i = Some t) -> exists i, C !! i = Some x /\ b_num t = b_num x + N.of_nat d.
  Proof.
    intros HP Ht Hb Hj (j' & C' & i & Hjj & Hj' & Hi). assert (HC' : C' ∈ H) by (by eapply elem_of_list_lookup_2).
    destruct (back_on_chain R k HP d t x Hb C' i HC' Hi) as [Hd Hx]. exists (i - d)%nat.
    pose proof (idx _ _ _ HC' Hi). pose proof (idx _ _ _ HC' Hx). split; [|lia].
    destruct (decide (j' = j)) as [-> |Hne]; [congruence|].
    assert (Hlt := lookup_lt_Some _ _ _ Hi). eapply prefix_lookup; [|apply (H_prefix j' j); [done|done|lia]].
    rewrite lookup_take; [done|lia].
  Qed.

  Lemma back_closed R1 Q n t x f : tree (R1 ++ Q) -> tree R1 -> head R1 = Some f -> t ∈ R1 -> back (R1 ++ Q) n t x -> back R1 n t x.
  Proof.
    intros T T1 Hf Ht Hb. induction Hb as [t _|n t p x Ht' Hl Hp IH]; [by constructor|].
    destruct (t_first _ T1 f Hf) as [_ J]. destruct (J t Ht) as [_ [-> |(q & Hq & Hlq)]].
    - exfalso. destruct (t_first _ T f) as [J' _]; [destruct R1; done|]. apply (J' p); [|done]. apply (back_in _ _ _ _ Hp).
    - assert (q = p) as ->. { apply (t_id _ T); [apply elem_of_app; by left|apply (back_in _ _ _ _ Hp)|congruence]. }
      econstructor; [done|exact Hl|]. by apply IH.
  Qed.

  Lemma back_along R C k : tree R -> (head R = Some b1) -> (forall x, x ∈ R -> prov k x) -> C ∈ H -> forall n i p x, p ∈ R -> x ∈ R ->
    C !! i = Some p -> (n <= i)%nat -> C !! (i - n)%nat = Some x -> back R n p x.
  Proof.
    intros T Hf HP HC. destruct (t_first _ T b1 Hf) as [_ J]. induction n as [|n IH]; intros i p x Hp Hx Hi Hn Hix.
    - rewrite Nat.sub_0_r in Hix. assert (p = x) as -> by congruence. by constructor.
    - destruct i as [|i]; [lia|]. pose proof (prov_idx _ _ _ _ (HP x Hx) HC Hix) as Hi0.
      destruct (lookup_lt_is_Some_2 C i) as [q Hq]. { apply lookup_lt_Some in Hi. lia. }
      destruct (link_at C i q p HC Hq Hi) as [Lq _].
      destruct (J p Hp) as [_ [-> |(q' & Hq' & Hlq)]].
      { destruct (H_start C HC) as [_ S1]. pose proof (same_idx _ _ _ _ _ HC HC Hi S1). lia. }
      assert (q = q') as <-.
      { destruct (HP q' Hq') as (j & C' & i' & _ & Hj & _ & Hx').
        eapply (H_ids C C'); [done|by eapply elem_of_list_lookup_2|by eapply elem_of_list_lookup_2|by eapply elem_of_list_lookup_2|congruence]. }
      econstructor; [done|exact Lq|]. apply (IH i); [done|done|done|lia|]. by replace (i - n)%nat with (S i - S n)%nat by lia.
  Qed.

  Lemma abs_step k1 k2 C1 C2 R1 del bp b P Q :
    (k1 <= k2)%nat -> H !! k1 = Some C1 -> H !! k2 = Some C2 ->
    grows d (R1 ++ del) -> (R1 ++ del = [] \/ head (R1 ++ del) = Some b1) ->
    (forall x, x ∈ R1 -> prov k1 x) ->
    C2 = P ++ bp :: del ++ b :: Q -> bp ∈ R1 \/ bp = b0 ->
    (forall x, settled d R1 x -> x ∈ C1 -> sl x <= sl bp) ->
    grows d ((R1 ++ del) ++ [b]) /\ head ((R1 ++ del) ++ [b]) = Some b1 /\ (forall x, x ∈ R1 ++ del -> prov k2 x) /\ prov k2 b /\
    (forall x, settled d (R1 ++ del) x -> b_num x < b_num b).
  Proof.
    intros Hk E1 E2 G Hd HP1 EC Hbp Hset.
    assert (HC1 : C1 ∈ H) by (by eapply elem_of_list_lookup_2). assert (HC2 : C2 ∈ H) by (by eapply elem_of_list_lookup_2).
    assert (Ibp : C2 !! length P = Some bp) by (rewrite EC; by apply list_lookup_middle).
    set (ib := (length P + 1 + length del)%nat).
    assert (Ib : C2 !! ib = Some b).
    { rewrite EC. change (P ++ bp :: del ++ b :: Q) with (P ++ (bp :: del) ++ b :: Q). rewrite app_assoc. apply list_lookup_middle.
      rewrite app_length. cbn [length]. unfold ib. lia. }
    assert (HbpP : (n0 <= length P)%nat).
    { destruct Hbp as [Hbp| ->]; [pose proof (prov_idx _ _ _ _ (HP1 _ Hbp) HC2 Ibp); lia|].
      destruct (H_start C2 HC2) as [S0 _]. rewrite (same_idx _ _ _ _ _ HC2 HC2 Ibp S0). lia. }
    assert (Idel : forall i x, del !! i = Some x -> C2 !! (length P + 1 + i)%nat = Some x).
    { intros i x Hi. rewrite EC. rewrite lookup_app_r by lia. replace (length P + 1 + i - length P)%nat with (S i) by lia. cbn [lookup list_lookup].
      change ((del ++ b :: Q) !! i = Some x). by apply lookup_app_l_Some. }
    assert (HPd : forall x, x ∈ del -> prov k2 x).
    { intros x Hx. apply elem_of_list_lookup in Hx as [i Hi]. exists k2, C2, (length P + 1 + i)%nat. split; [lia|]. split; [done|]. split; [lia|]. by apply Idel. }
    assert (HP : forall x, x ∈ R1 ++ del -> prov k2 x).
    { intros x Hx. apply elem_of_app in Hx as [Hx|Hx]; [|by apply HPd]. apply (prov_mono k1); [done|]. by apply HP1. }
    assert (Pb : prov k2 b). { exists k2, C2, ib. split; [lia|]. split; [done|]. split; [unfold ib; lia|done]. }
    pose proof (grows_tree _ _ G) as T.
    destruct (lookup_lt_is_Some_2 C2 (ib - 1)%nat) as [p' Ip]. { apply lookup_lt_Some in Ib. lia. }
    assert (Hlink : b_parent b = b_id p' /\ b_num b = b_num p' + 1).
    { apply (link_at C2 (ib - 1)); [done|done|]. replace (S (ib - 1)) with ib by (unfold ib; lia). done. }
    assert (Hp' : p' ∈ R1 ++ del \/ (del = [] /\ bp = b0 /\ p' = b0)).
    { destruct del as [|z del'] eqn:Edel using rev_ind.
      - assert (p' = bp) as ->. { replace (ib - 1)%nat with (length P) in Ip by (unfold ib; cbn; lia). congruence. }
        destruct Hbp as [Hbp| ->]; [left; apply elem_of_app; by left|by right].
      - left. assert (p' = z) as ->; [|apply elem_of_app; right; apply elem_of_app; right; by left].
        assert (C2 !! (ib - 1)%nat = Some z); [|congruence]. rewrite <- (Idel (length del') z).
        + f_equal. unfold ib. rewrite app_length. cbn. lia.
        + by apply list_lookup_middle. }
    (* settled blocks are not after p' *)
    assert (Hsx : forall x, settled d (R1 ++ del) x -> exists ix, C2 !! ix = Some x /\ (ix <= ib - 1)%nat).
    { intros x (t & [Ht Hmax] & Hback). pose proof (back_num _ _ _ _ T Hback) as Hnum.
      destruct (elem_of_app R1 del t) as [Htc _]. destruct (Htc Ht) as [Ht1|Htd].
      - (* t was received before *)
        assert (exists f, head R1 = Some f) as [f Hf]. { destruct R1; [by apply elem_of_nil in Ht1|]. by eexists. }
        pose proof (grows_prefix _ _ _ G) as G1. pose proof (grows_tree _ _ G1) as T1.
        assert (Hb1 : back R1 d t x) by (by eapply back_closed).
        assert (Hs1 : settled d R1 x). { exists t. split; [|done]. split; [done|]. intros y Hy. apply Hmax. apply elem_of_app. by left. }
        assert (Hex : exists j' C' i, (j' <= k1)%nat /\ H !! j' = Some C' /\ C' !! i = Some t).
        { destruct (HP1 t Ht1) as (j & C & i & ? & ? & ? & ?). by exists j, C, i. }
        destruct (deep_stays R1 k1 t x k1 C1 HP1 Ht1 Hb1 E1 Hex) as (i1 & Hi1 & _).
        assert (Hex2 : exists j' C' i, (j' <= k2)%nat /\ H !! j' = Some C' /\ C' !! i = Some t).
        { destruct Hex as (j & C & i & ? & ? & ?). exists j, C, i. split; [lia|done]. }
        destruct (deep_stays R1 k1 t x k2 C2 HP1 Ht1 Hb1 E2 Hex2) as (i2 & Hi2 & _).
        exists i2. split; [done|].
        assert (sl x <= sl bp) as Hsl. { apply Hset; [done|]. by eapply elem_of_list_lookup_2. }
        destruct (decide (i2 <= length P)%nat) as [?|Hgt]; [unfold ib; lia|].
        pose proof (H_slots C2 (length P) i2 bp x HC2 Ibp Hi2 ltac:(lia)). lia.
      - apply elem_of_list_lookup in Htd as [i Hi]. assert (It := Idel i t Hi).
        destruct (back_on_chain _ k2 HP d t x Hback C2 _ HC2 It) as [Hle Hx].
        exists (length P + 1 + i - d)%nat. split; [done|]. apply lookup_lt_Some in Hi. unfold ib. lia. }
    assert (Hsn : forall x, settled d (R1 ++ del) x -> b_num x < b_num b).
    { intros x Hx. destruct (Hsx x Hx) as (ix & Hix & Hle). pose proof (idx _ _ _ HC2 Hix). pose proof (idx _ _ _ HC2 Ib). unfold ib in *. lia. }
    split; [|split; [|done]].
    - destruct (decide (b ∈ R1 ++ del)) as [Hin|Hout]; [by apply grows_again|].
      assert (Hne : R1 ++ del <> [] -> head (R1 ++ del) = Some b1) by (intros ?; by destruct Hd).
      destruct Hp' as [Hp'|(Edel & Ebp & Ep)].
      + assert (Hf : head (R1 ++ del) = Some b1). { apply Hne. intros E0. rewrite E0 in Hp'. by apply elem_of_nil in Hp'. }
        apply (grows_child _ _ p'); [done|done|apply Hlink|apply Hlink|eapply (H_small C2); [done|by eapply elem_of_list_lookup_2]| |].
        * intros x Hx. assert (Hid : forall y, y ∈ R1 ++ del -> b_id y <> b_id b).
          { intros y Hy Eid. apply Hout. destruct (HP y Hy) as (j & C' & i' & _ & Hj & _ & Hx').
            rewrite <- (H_ids C' C2 y b); [done|by eapply elem_of_list_lookup_2|done|by eapply elem_of_list_lookup_2|by eapply elem_of_list_lookup_2|done]. }
          split; [by apply Hid|]. intros Epar. destruct (t_first _ T b1 Hf) as [_ J].
          destruct (J x Hx) as [_ [-> |(y & Hy & Hly)]]; [|apply (Hid y Hy); congruence].
          destruct (H_start C2 HC2) as [S0 S1]. destruct (link_at C2 n0 b0 b1 HC2 S0 S1) as [L0 _].
          assert (b0 = b) as Eb. { eapply (H_ids C2 C2); [done|done|by eapply elem_of_list_lookup_2|by eapply elem_of_list_lookup_2|congruence]. }
          rewrite <- Eb in Ib. pose proof (same_idx _ _ _ _ _ HC2 HC2 Ib S0). pose proof (prov_idx _ _ _ _ (HP p' Hp') HC2 Ip). lia.
        * intros x Hx. destruct (Hsx x Hx) as (ix & Hix & Hle). exists (ib - 1 - ix)%nat.
          apply (back_along (R1 ++ del) C2 k2 T Hf HP HC2 (ib - 1 - ix) (ib - 1)); [done| |done|lia|by replace (ib - 1 - (ib - 1 - ix))%nat with ix by lia].
          destruct Hx as (t & _ & Hb). apply (back_in _ _ _ _ Hb).
      + subst del. rewrite app_nil_r in *. destruct (H_start C2 HC2) as [S0 S1]. rewrite Ep in Ip.
        pose proof (same_idx _ _ _ _ _ HC2 HC2 Ip S0) as Eix. assert (b = b1) as ->.
        { replace ib with (S n0) in Ib by (unfold ib in *; lia). congruence. }
        destruct R1 as [|z R1]; [|exfalso; apply Hout; destruct Hd as [?|Hd]; [done|]; injection Hd as ->; by left].
        cbn. apply grows_first; [eapply (H_small C2); [done|by eapply elem_of_list_lookup_2]|].
        destruct (link_at C2 n0 b0 b1 HC2 S0 S1) as [L0 Ln]. intros Eid.
        assert (b0 = b1) as Eb. { eapply (H_ids C2 C2); [done|done|by eapply elem_of_list_lookup_2|by eapply elem_of_list_lookup_2|congruence]. }
        rewrite Eb in Ln. lia.
    - destruct Hd as [Hd|Hd]; [|by destruct (R1 ++ del)]. rewrite Hd. cbn.
      destruct Hp' as [Hp'|(Edel & Ebp & Ep)]; [rewrite Hd in Hp'; by apply elem_of_nil in Hp'|].
      destruct (H_start C2 HC2) as [S0 S1]. rewrite Ep in Ip. pose proof (same_idx _ _ _ _ _ HC2 HC2 Ip S0).
      replace ib with (S n0) in Ib by (unfold ib in *; lia). congruence.
  Qed.
  (** a run of blocks, each the parent of the next, is a stretch of any chain that has the last of them *)
  Lemma stretch_of k C i t L : C ∈ H -> C !! i = Some t -> parent_linked L -> (forall x, x ∈ L -> prov k x) -> last L = Some t ->
    exists P Q, C = P ++ L ++ Q /\ (length P + length L = S i)%nat.
  Proof.
    intros HC Hi. induction L as [|x L IH]; [discriminate|]. intros Hl HP Ht. destruct L as [|y L].
    - injection Ht as ->. exists (take i C), (drop (S i) C). split; [symmetry; by apply take_drop_middle|]. rewrite take_length. apply lookup_lt_Some in Hi. cbn. lia.
    - destruct Hl as [Hxy Hl]. destruct IH as (P & Q & E & Hlen); [done|intros z Hz; apply HP; by right|done|].
      assert (Hy : C !! length P = Some y) by (rewrite E; by apply list_lookup_middle).
      pose proof (prov_idx k y C (length P) (HP y ltac:(right; left)) HC Hy) as Hpos.
      destruct P as [|z P _] using rev_ind; [cbn in Hpos; lia|]. rewrite app_length in Hy, Hlen. cbn [length] in *. rewrite Nat.add_1_r in Hy.
      assert (Hz : C !! length P = Some z) by (rewrite E, <- app_assoc; by apply list_lookup_middle).
      destruct (link_at C (length P) z y HC Hz Hy) as [Lz _].
      destruct (HP x ltac:(left)) as (j & C' & i' & _ & Hj & _ & Hx).
      assert (z = x) as ->. { apply (H_ids C C'); [done|by eapply elem_of_list_lookup_2|by eapply elem_of_list_lookup_2|by eapply elem_of_list_lookup_2|congruence]. }
      exists P, Q. split; [|cbn in *; lia]. rewrite E, <- app_assoc. reflexivity.
  Qed.
End chains.
