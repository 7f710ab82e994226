(** Proofs for C49, second part: the stack of sources. *)
From Coq Require Import Lia NArith Ascii List.
From stdpp Require Import prelude numbers gmap sorting strings countable list.
From Verif Require Import TimeModel UtilModel CardanoModel CardanoSpec CardanoProofs CardanoProps MultiverseModel MultiverseSpec MultiverseProofs
  MultiverseHistProofs MultiverseQueryProofs SourceModel SourceSpec SourceProofs SourceRunProofs SourceForkProofs SourceForkGrowProofs SourceProps
  StackModel StackSpec StackProofs.
Local Open Scope N_scope.

(** ** conversions *)
Lemma string_of_bytes_of s : string_of (bytes_of s) = s.
Proof.
  unfold string_of, bytes_of. rewrite List.map_map. rewrite <- (String.string_of_list_ascii_of_string s) at 2. f_equal.
  rewrite <- (List.map_id (String.list_ascii_of_string s)) at 2. apply List.map_ext. intro a. apply ascii_N_embedding.
Qed.
Lemma bytes_of_inj s t : bytes_of s = bytes_of t -> s = t.
Proof. intro E. rewrite <- (string_of_bytes_of s), E. apply string_of_bytes_of. Qed.
Lemma slot_of_event e : slot_of (of_event e) = be_slot e.
Proof. unfold slot_of, of_event, pack. cbn [b_data]. rewrite decode_encode. reflexivity. Qed.
Lemma points_ok_point_of : points_ok point_of.
Proof. split; [intro b; eexists; reflexivity|]. intros b b' E. injection E as _ E. exact E. Qed.

Section Run.
  Context (read_id : string -> option string) (decode_block : string -> option mblock) (cfg : config) (chk : bool).
  Context (d : nat) (c0 : list nblock) (pre : list nblock) (b0 b1 : nblock) (post : list nblock) (anchored : bool).
  Hypothesis E_c0 : c0 = pre ++ b0 :: b1 :: post.
  Hypothesis L_post : (d <= length post)%nat.
  Notation event_of := (from_serialized_block decode_block cfg chk).
  Notation good_chain := (good_chain read_id decode_block cfg chk).
  Notation good_node := (good_node read_id decode_block cfg chk).
  Notation run := (CardanoModel.run read_id decode_block cfg chk).
  Notation step := (CardanoModel.step read_id decode_block cfg chk).
  Notation start := (start_of b0).

  Definition blk (b : nblock) : block := match event_of (nb_raw b) with Some (MBlock e) => of_event e | _ => Block [] [] 0 0 end.
  Definition num (b : nblock) : N := match decode_block (nb_raw b) with Some m => m_number m | None => 0 end.

  Lemma event_all raw e : event_of raw = Some (MBlock e) -> exists m, decode_block raw = Some m /\ be_id e = hex_encode (m_hash m) /\ be_slot e = m_slot m /\
    be_number e = m_number m /\ be_parent e = get_parent_id m.
  Proof.
    unfold from_serialized_block. destruct (decode_block raw) as [m|]; [|discriminate]. intro H. exists m. split; [reflexivity|].
    destruct (m_kind m); [injection H as <-; auto|injection H as <-; auto|]. destruct (absolute_slot_to_epoch _ _ _) as [[k|]|]; try discriminate. injection H as <-. auto.
  Qed.
  Lemma blk_facts c b : good_chain c -> b ∈ c -> exists m e, event_of (nb_raw b) = Some (MBlock e) /\ blk b = of_event e /\ decode_block (nb_raw b) = Some m /\
    b_id (blk b) = bytes_of (hex_encode (nb_hash b)) /\ slot_of (blk b) = nb_slot b /\ b_num (blk b) = m_number m /\ b_parent (blk b) = bytes_of (get_parent_id m) /\
    m_number m < 2 ^ 64 /\ read_id (hex_encode (nb_hash b)) = Some (nb_hash b) /\ hex_encode (nb_hash b) <> cf_genesis_parent cfg.
  Proof.
    intros G Hb. destruct (gc_block _ _ _ _ _ G b Hb) as (Hr & Hg & m & e & Hm & Hh & Hs & Hn & He). exists m, e.
    destruct (event_all _ _ He) as (m' & Hm' & E1 & E2 & E3 & E4). assert (m' = m) as -> by congruence.
    assert (Eb : blk b = of_event e) by (unfold blk; rewrite He; reflexivity). rewrite Eb. cbn [of_event b_id b_num b_parent]. rewrite slot_of_event.
    repeat split; congruence.
  Qed.
  (** the point of a block, asked of the node *)
  Lemma blk_node c b : good_chain c -> b ∈ c -> point_of (blk b) = Some (start_of b) /\ point_to_node read_id (to_point (start_of b)) = Some (nb_point b) /\
    to_point (start_of b) <> BlockHeader 0 (cf_genesis_parent cfg).
  Proof.
    intros G Hb. destruct (blk_facts c b G Hb) as (m & e & _ & _ & _ & E1 & E2 & _ & _ & _ & Hr & Hg).
    split; [unfold point_of, start_of; rewrite E1, E2; reflexivity|]. unfold to_point, start_of. cbn [fst snd]. rewrite string_of_bytes_of. split.
    - cbn [point_to_node]. rewrite Hr. reflexivity.
    - intro X. injection X as _ X. contradiction.
  Qed.

  (** ** the chains of the node, as chains of blocks *)
  Definition node_ok (cs : list (list nblock)) : Prop := good_node d cs /\ head cs = Some c0.
  Notation H_of cs := (map blk <$> cs).

  Lemma node_ok_prefix cs cs' : cs <> [] -> node_ok (cs ++ cs') -> node_ok cs.
  Proof.
    intros Hne [[G1 G2 G3] Hh]. split; [|by destruct cs]. split.
    - intros c Hc. apply G1. apply elem_of_app. by left.
    - intros c c' b b' Hc Hc'. apply (G2 c c' b b'); apply elem_of_app; by left.
    - intros i j c c' Hi Hj. apply (G3 i j); by apply lookup_app_l_Some.
  Qed.

  Section node.
    Context (cs : list (list nblock)).
    Hypothesis Ok : node_ok cs.

    Lemma n_good c : c ∈ cs -> good_chain c.
    Proof. apply (gn_chain _ _ _ _ _ _ (proj1 Ok)). Qed.
    Lemma n_elem C : C ∈ H_of cs <-> exists c, c ∈ cs /\ C = map blk c.
    Proof. rewrite elem_of_list_fmap. split; intros (c & ? & ?); eauto. Qed.
    Lemma n_prefix c : c ∈ cs -> (pre ++ [b0; b1]) `prefix_of` c.
    Proof.
      intro Hc. assert (Z : cs !! 0%nat = Some c0) by (rewrite <- head_lookup; apply Ok).
      assert (P : (pre ++ [b0; b1]) `prefix_of` take (length c0 - d) c0).
      { rewrite E_c0. exists (take (length post - d) post). rewrite app_length. cbn [length].
        replace (pre ++ b0 :: b1 :: post) with ((pre ++ [b0; b1]) ++ post) by (rewrite <- app_assoc; reflexivity).
        rewrite take_app_ge by (rewrite app_length; cbn [length]; lia). f_equal. f_equal. rewrite app_length. cbn [length]. lia. }
      apply elem_of_list_lookup in Hc as [i Hi]. destruct i as [|i].
      - assert (c = c0) as -> by congruence. etransitivity; [exact P|]. exists (drop (length c0 - d) c0). by rewrite take_drop.
      - etransitivity; [exact P|]. apply (gn_prefix _ _ _ _ _ _ (proj1 Ok) 0%nat (S i)); [done|done|lia].
    Qed.
    Notation n0 := (length (map blk pre)).
    Lemma n_start C : C ∈ H_of cs -> C !! n0 = Some (blk b0) /\ C !! S n0 = Some (blk b1).
    Proof.
      intros (c & Hc & ->)%n_elem. destruct (n_prefix c Hc) as [k ->]. rewrite <- app_assoc. cbn [app]. rewrite List.map_app. cbn [map].
      split; [by apply list_lookup_middle|].
      replace (map blk pre ++ blk b0 :: blk b1 :: map blk k) with ((map blk pre ++ [blk b0]) ++ blk b1 :: map blk k) by (rewrite <- app_assoc; reflexivity).
      apply list_lookup_middle. rewrite app_length. cbn [length]. lia.
    Qed.
    Lemma n_lookup c i x : map blk c !! i = Some x -> exists b, c !! i = Some b /\ x = blk b.
    Proof. rewrite list_lookup_fmap. intros (b & ? & ->)%fmap_Some. eauto. Qed.
    Lemma n_mem c x : x ∈ map blk c -> exists b, b ∈ c /\ x = blk b.
    Proof. intros (b & ? & ?)%elem_of_list_fmap. eauto. Qed.
    Lemma n_link c i a b : c ∈ cs -> c !! i = Some a -> c !! S i = Some b ->
      b_parent (blk b) = b_id (blk a) /\ b_num (blk b) = b_num (blk a) + 1 /\ slot_of (blk a) < slot_of (blk b).
    Proof.
      intros Hc Ha Hb. destruct (gc_link _ _ _ _ _ (n_good c Hc) i a b Ha Hb) as (ma & mb & Ea & Eb & Ep & En & Es).
      destruct (blk_facts c a (n_good c Hc)) as (ma' & ea & _ & _ & Ea' & Ia & Sa & Na & _); [by eapply elem_of_list_lookup_2|].
      destruct (blk_facts c b (n_good c Hc)) as (mb' & eb & _ & _ & Eb' & Ib & Sb & Nb & Pb & _); [by eapply elem_of_list_lookup_2|].
      assert (ma' = ma) as -> by congruence. assert (mb' = mb) as -> by congruence.
      rewrite Pb, Ia, Nb, Na, Sa, Sb. unfold get_parent_id. rewrite Ep. auto.
    Qed.
    Lemma n_linked C : C ∈ H_of cs -> linked C.
    Proof.
      intros (c & Hc & ->)%n_elem. assert (L := fun i a b => n_link c i a b Hc). clear Hc. induction c as [|a c IH]; [done|].
      cbn [map linked]. destruct c as [|b c]; [done|]. cbn [map]. destruct (L 0%nat a b eq_refl eq_refl) as (L1 & L2 & _).
      split; [done|]. split; [done|]. apply IH. intros i a' b' Ha Hb. apply (L (S i)); [exact Ha|exact Hb].
    Qed.
    Lemma n_small C x : C ∈ H_of cs -> x ∈ C -> b_num x < 2 ^ 64.
    Proof.
      intros (c & Hc & ->)%n_elem (b & Hb & ->)%n_mem. destruct (blk_facts c b (n_good c Hc) Hb) as (m & e & _ & _ & _ & _ & _ & En & _ & Hn & _). lia.
    Qed.
    Lemma n_slots C i j x y : C ∈ H_of cs -> C !! i = Some x -> C !! j = Some y -> (i < j)%nat -> slot_of x < slot_of y.
    Proof.
      intros (c & Hc & ->)%n_elem Hx Hy. apply n_lookup in Hx as (a & Ha & ->). revert y Hy. induction j as [|j IH]; intros y Hy Hij; [lia|].
      apply n_lookup in Hy as (b & Hb & ->). destruct (lookup_lt_is_Some_2 c j) as [z Hz]. { apply lookup_lt_Some in Hb. lia. }
      destruct (n_link c j z b Hc Hz Hb) as (_ & _ & Hs). destruct (decide (i = j)) as [-> |]; [congruence|].
      assert (slot_of (blk a) < slot_of (blk z)); [|lia]. apply IH; [|lia]. by rewrite list_lookup_fmap, Hz.
    Qed.
    Lemma n_hash c c' b b' : c ∈ cs -> c' ∈ cs -> b ∈ c -> b' ∈ c' -> b_id (blk b) = b_id (blk b') -> b = b'.
    Proof.
      intros Hc Hc' Hb Hb' E. apply (gn_hash _ _ _ _ _ _ (proj1 Ok) c c'); try done.
      destruct (blk_facts c b (n_good c Hc) Hb) as (m & e & _ & _ & _ & E1 & _ & _ & _ & _ & R1 & _).
      destruct (blk_facts c' b' (n_good c' Hc') Hb') as (m' & e' & _ & _ & _ & E2 & _ & _ & _ & _ & R2 & _).
      rewrite E1, E2 in E. apply bytes_of_inj in E. congruence.
    Qed.
    Lemma n_ids C C' x y : C ∈ H_of cs -> C' ∈ H_of cs -> x ∈ C -> y ∈ C' -> b_id x = b_id y -> x = y.
    Proof. intros (c & Hc & ->)%n_elem (c' & Hc' & ->)%n_elem (b & Hb & ->)%n_mem (b' & Hb' & ->)%n_mem E. f_equal. by apply (n_hash c c'). Qed.
    Lemma n_common i j C C' : H_of cs !! i = Some C -> H_of cs !! j = Some C' -> (i < j)%nat -> take (length C - d) C `prefix_of` C'.
    Proof.
      rewrite !list_lookup_fmap. intros (c & Hi & ->)%fmap_Some (c' & Hj & ->)%fmap_Some Hij.
      destruct (gn_prefix _ _ _ _ _ _ (proj1 Ok) i j c c' Hi Hj Hij) as [k ->]. rewrite List.map_length, List.map_app. exists (map blk k).
      f_equal. rewrite <- (fmap_take blk). reflexivity.
    Qed.
    Definition n_step := abs_step slot_of d (H_of cs) (map blk pre) (blk b0) (blk b1) n_start n_linked n_small n_slots n_ids n_common.
  End node.
  Notation prov cs := (prov (H_of cs) (map blk pre)).

  Lemma prov_app cs cs' k x : prov cs k x -> prov (cs ++ cs') k x.
  Proof. intros (j & C & i & Hj & HC & Hi & Hx). exists j, C, i. split; [done|]. split; [|done]. rewrite fmap_app. by apply lookup_app_l_Some. Qed.
  Lemma prov_block cs k x : prov cs k x -> exists c b, c ∈ cs /\ b ∈ c /\ x = blk b.
  Proof.
    intros (j & C & i & Hj & HC & Hi & Hx). rewrite list_lookup_fmap in HC. apply fmap_Some in HC as (c & Hc & ->).
    apply n_lookup in Hx as (b & Hb & ->). exists c, b. split; [by eapply elem_of_list_lookup_2|]. split; [by eapply elem_of_list_lookup_2|done].
  Qed.

  (** ** one session of the Cardano source *)
  Definition well_asked (R : list block) (f : list point) : Prop :=
    (forall q, q ∈ f -> exists p, q = to_point p /\ (p = start \/ exists x, x ∈ R /\ point_of x = Some p)) /\
    (forall x, settled d R x -> exists p, point_of x = Some p /\ to_point p ∈ f) /\
    (anchored = true -> (exists x, settled d R x) \/ to_point start ∈ f).

  Section session.
    Context (past : list (list nblock)) (cs : list nblock) (Rp : list block).
    Definition had (tr : list seen) : list (list nblock) := past ++ cs :: chains tr.
    Definition R_of (tr : list seen) : list block := Rp ++ (of_event <$> blocks tr).
    Record sinv (tr : list seen) : Prop := {
      si_grows : grows d (R_of tr);
      si_head : R_of tr = [] \/ head (R_of tr) = Some (blk b1);
      si_prov : forall t1 t2, tr = t1 ++ t2 -> forall x, x ∈ R_of t1 -> prov (had tr) (length past + length (chains t1)) x;
      si_asked : forall t1 f t2, tr = t1 ++ Asked f :: t2 -> well_asked (R_of t1) f }.

    Lemma had_app a b : had (a ++ b) = had a ++ chains b.
    Proof. unfold had. rewrite chains_app, <- app_assoc. reflexivity. Qed.
    Lemma R_of_app a b : R_of (a ++ b) = R_of a ++ (of_event <$> blocks b).
    Proof. unfold R_of. rewrite blocks_app, fmap_app. apply app_assoc. Qed.

    Lemma in_force_at t1 t2 : had (t1 ++ t2) !! (length past + length (chains t1))%nat = Some (in_force cs t1).
    Proof.
      unfold had, in_force. rewrite lookup_app_r by lia. replace (length past + length (chains t1) - length past)%nat with (length (chains t1)) by lia.
      rewrite chains_app. generalize (chains t1) (chains t2). clear. intros l l'. revert cs. induction l as [|c l IH]; intro c'; [reflexivity|].
      cbn [length app]. rewrite (last_cons_default (c :: l) c' c'). cbn [List.last]. change (((c :: l ++ l') : list _) !! length l = Some (List.last (c :: l) c')).
      rewrite <- last_cons_default. apply IH.
    Qed.
    Lemma after_at t1 f t2 c1 c2 : after (in_force cs t1 :: chains t2) c1 c2 -> exists k1 k2, (length past + length (chains t1) <= k1)%nat /\ (k1 <= k2)%nat /\
      had (t1 ++ Asked f :: t2) !! k1 = Some c1 /\ had (t1 ++ Asked f :: t2) !! k2 = Some c2.
    Proof.
      intros (a & b & E & H2). set (n := (length past + length (chains t1))%nat).
      assert (K : forall i c, (in_force cs t1 :: chains t2) !! i = Some c -> had (t1 ++ Asked f :: t2) !! (n + i)%nat = Some c).
      { intros i c Hi. destruct i as [|i].
        - injection Hi as <-. rewrite Nat.add_0_r. apply (in_force_at t1 (Asked f :: t2)).
        - cbn in Hi. change (chains t2 !! i = Some c) in Hi. unfold had. rewrite chains_app. change (chains (Asked f :: t2)) with (chains t2).
          rewrite app_comm_cons, app_assoc. rewrite lookup_app_r; rewrite app_length; cbn [length]; [|unfold n; lia].
          replace (n + S i - (length past + S (length (chains t1))))%nat with i by (unfold n; lia). exact Hi. }
      apply elem_of_list_lookup in H2 as [j Hj]. exists (n + length a)%nat, (n + (length a + j))%nat. split; [lia|]. split; [lia|]. split.
      - apply K. rewrite E. by apply list_lookup_middle.
      - apply K. rewrite E, lookup_app_r by lia. replace (length a + j - length a)%nat with j by lia. exact Hj.
    Qed.

    Lemma points_to_node_in f ps : points_to_node read_id f = Some ps -> (forall p, p ∈ ps <-> exists q, q ∈ f /\ point_to_node read_id q = Some p).
    Proof.
      revert ps. induction f as [|q f IH]; intros ps E p; cbn in E.
      - injection E as <-. split; [intro X; inversion X|intros (q & Hq & _); inversion Hq].
      - destruct (point_to_node read_id q) as [p'|] eqn:Eq; [|discriminate]. destruct (points_to_node read_id f) as [ps'|]; [|discriminate]. injection E as <-.
        rewrite elem_of_cons, (IH ps' eq_refl). split.
        + intros [-> |(q' & Hq & E)]; [exists q; split; [left|done]|exists q'; split; [by right|done]].
        + intros (q' & Hq & E). apply elem_of_cons in Hq as [-> |Hq]; [left; congruence|right; eauto].
    Qed.

    Lemma got_step l tr0 e : snd (run (initial cs) l) = tr0 ++ [Got (MBlock e)] -> node_ok (had (tr0 ++ [Got (MBlock e)])) -> sinv tr0 ->
      let R := R_of tr0 in let b := of_event e in
      grows d (R ++ [b]) /\ head (R ++ [b]) = Some (blk b1) /\ prov (had tr0) (length past + length (chains tr0)) b /\ (forall x, settled d R x -> b_num x < b_num b).
    Proof.
      intros E Ok I R b. rewrite had_app in Ok. change (chains [Got (MBlock e)]) with (@nil (list nblock)) in Ok. rewrite app_nil_r in Ok.
      destruct (split_asked (tr0 ++ [Got (MBlock e)])) as [Np|(t1 & f & t2 & E2 & Nt)].
      { pose proof (C38_asks_first _ _ _ _ cs l _ [] ltac:(by rewrite app_nil_r) Np) as G. rewrite got_app in G. by destruct (got tr0). }
      destruct t2 as [|y t2 _] using rev_ind. { rewrite E2 in E. apply app_inj_tail in E2 as [_ E2]. discriminate. }
      rewrite app_comm_cons, app_assoc in E2. apply app_inj_tail in E2 as [E2 <-]. rewrite E2 in E. rewrite <- app_assoc in E. cbn [app] in E.
      assert (Sv := C38_served _ _ _ _ cs l t1 f (t2 ++ [Got (MBlock e)]) [] ltac:(rewrite app_nil_r; exact E) Nt).
      rewrite got_app, chains_app in Sv. change (got [Got (MBlock e)]) with [MBlock e] in Sv. change (chains [Got (MBlock e)]) with (@nil (list nblock)) in Sv.
      rewrite app_nil_r in Sv.
      destruct (si_asked _ I t1 f t2 E2) as (W1 & W2 & _).
      assert (HPall : forall x, x ∈ R_of t1 -> prov (had tr0) (length past + length (chains t1)) x) by (apply (si_prov _ I t1 (Asked f :: t2) E2)).
      assert (Hs0 : b0 ∈ cs -> True) by done. clear Hs0.
      (* the points asked are of blocks of the node *)
      assert (B0 : exists c, c ∈ had tr0 /\ b0 ∈ c).
      { exists c0. split; [|rewrite E_c0; apply elem_of_app; right; left]. destruct Ok as [_ Hh]. destruct (had tr0); [done|]. injection Hh as ->. left. }
      assert (Wn : forall q, q ∈ f -> exists c y, c ∈ had tr0 /\ y ∈ c /\ q = to_point (start_of y) /\ (y = b0 \/ blk y ∈ R_of t1)).
      { intros q Hq. destruct (W1 q Hq) as (p & -> & [-> |(x & Hx & Hp)]).
        - destruct B0 as (c & Hc & Hb). exists c, b0. auto.
        - destruct (prov_block _ _ _ (HPall x Hx)) as (c & y & Hc & Hy & ->). exists c, y. split; [done|]. split; [done|].
          destruct (blk_node c y (n_good _ Ok c Hc) Hy) as (Ey & _). rewrite Ey in Hp. injection Hp as <-. auto. }
      assert (Ef : effective cfg f = (f, true)).
      { unfold effective. rewrite bool_decide_eq_false_2; [reflexivity|]. intros ->.
        destruct (Wn _ ltac:(left)) as (c & y & Hc & Hy & Eq & _). destruct (blk_node c y (n_good _ Ok c Hc) Hy) as (_ & _ & X). congruence. }
      inversion Sv as [S0|c1 ps p _ _ _ _ S0|c1 c2 ps p tips seg del ms Af Eps Bst Tn Ht St Pf F2 S0].
      { symmetry in S0. by apply app_eq_nil in S0 as [_ ?]. }
      { destruct (got t2) as [|? [|]]; discriminate. }
      rewrite Ef in *. cbn [fst snd] in *.
      destruct ms as [|m ms _] using rev_ind.
      { rewrite app_nil_r in S0. exfalso. destruct Ht as [-> | ->]; destruct (got t2) as [|? [|]]; discriminate. }
      rewrite app_assoc in S0. apply app_inj_tail in S0 as [S0 ->].
      apply Forall2_app_inv_r in F2 as (del' & last & F2 & F1 & ->). inversion F1 as [|b' ? ? ? He Fnil]; subst. inversion Fnil; subst. clear F1 Fnil.
      destruct St as (pre2 & bp & rest & post2 & Ec2 & -> & Ebp & _). cbn [tail] in Pf. destruct Pf as [more ->].
      rewrite <- app_assoc in Ec2. cbn [app] in Ec2. rewrite <- app_assoc in Ec2. cbn [app] in Ec2.
      destruct (after_at t1 f t2 c1 c2 Af) as (k1 & k2 & Hk0 & Hk & Hk1 & Hk2).
      assert (Hc1 : c1 ∈ had (t1 ++ Asked f :: t2)) by (by eapply elem_of_list_lookup_2).
      assert (Hc2 : c2 ∈ had (t1 ++ Asked f :: t2)) by (by eapply elem_of_list_lookup_2).
      assert (Hin : forall z, z ∈ bp :: del' ++ b' :: more -> z ∈ c2).
      { intros z Hz. rewrite Ec2. apply elem_of_app. right. change (z ∈ (bp :: del' ++ b' :: more ++ post2)). apply elem_of_cons in Hz as [-> |Hz]; [left|]. right.
        apply elem_of_app in Hz as [Hz|Hz]; apply elem_of_app; [by left|]. right. apply elem_of_cons in Hz as [-> |Hz]; [left|]. right. apply elem_of_app. by left. }
      assert (Eb : blk b' = b) by (unfold blk; rewrite He; reflexivity).
      assert (Edel : of_event <$> blocks t2 = map blk del').
      { unfold blocks. rewrite <- S0, bind_app. change (tips ≫= blocks_of) with (msgs_blocks tips). rewrite (tips_blocks _ _ Ht). cbn [app].
        assert (Hd : forall z, z ∈ del' -> z ∈ c2) by (intros z Hz; apply Hin; right; apply elem_of_app; by left).
        clear - F2 Hd Hc2 Ok. induction F2 as [|z m del' ms Hz F2 IH]; [reflexivity|].
        destruct (blk_facts c2 z (n_good _ Ok c2 Hc2) (Hd z ltac:(left))) as (mz & ez & Ez & Bz & _). rewrite Ez in Hz. injection Hz as <-.
        cbn [mbind list_bind blocks_of app map fmap list_fmap]. rewrite Bz. f_equal. apply IH. intros y Hy. apply Hd. by right. }
      assert (ER : R = R_of t1 ++ map blk del').
      { unfold R. rewrite R_of_app. change (blocks (Asked f :: t2)) with (blocks t2). by rewrite Edel. }
      destruct Bst as (Bin & Bon & Bmax).
      pose proof (points_to_node_in f ps Eps) as Hps.
      assert (Hbp : blk bp ∈ R_of t1 \/ blk bp = blk b0).
      { apply Hps in Bin as (q & Hq & Eq). destruct (Wn q Hq) as (c & y & Hc & Hy & -> & Hor).
        destruct (blk_node c y (n_good _ Ok c Hc) Hy) as (_ & En & _). rewrite En in Eq. injection Eq as Eq.
        assert (bp = y) as ->. { apply (gn_hash _ _ _ _ _ _ (proj1 Ok) c2 c); [done|done|apply Hin; left|done|]. unfold nb_point in *. congruence. }
        destruct Hor as [-> |]; auto. }
      destruct (n_step _ Ok k1 k2 (map blk c1) (map blk c2) (R_of t1) (map blk del') (blk bp) (blk b') (map blk pre2) (map blk (more ++ post2)))
        as (G & Hh & HP & HPb & Hnum).
      - done.
      - by rewrite list_lookup_fmap, Hk1.
      - by rewrite list_lookup_fmap, Hk2.
      - rewrite <- ER. apply (si_grows _ I).
      - rewrite <- ER. apply (si_head _ I).
      - intros x Hx. eapply prov_mono; [|by apply HPall]. done.
      - rewrite Ec2. rewrite !List.map_app. cbn [map]. rewrite List.map_app. cbn [map]. rewrite List.map_app. reflexivity.
      - done.
      - intros x Hx Hxc. apply n_mem in Hxc as (y & Hy & ->). destruct (W2 _ Hx) as (p' & Ep & Hp').
        destruct (blk_node c1 y (n_good _ Ok c1 Hc1) Hy) as (Ey & En & _). rewrite Ey in Ep. injection Ep as <-.
        destruct (blk_facts c1 y (n_good _ Ok c1 Hc1) Hy) as (_ & _ & _ & _ & _ & _ & Sy & _).
        destruct (blk_facts c2 bp (n_good _ Ok c2 Hc2) (Hin bp ltac:(left))) as (_ & _ & _ & _ & _ & _ & Sb & _). rewrite Sy, Sb.
        assert (nb_point y ∈ ps) as Yin by (apply Hps; eauto).
        specialize (Bmax (nb_point y) Yin). rewrite <- Ebp in Bmax. cbn [npoint_slot nb_point] in Bmax. apply Bmax.
        apply on_chain_spec. right. eauto.
      - rewrite Eb, <- ER in *. split; [done|]. split; [done|]. split; [|done]. eapply prov_mono; [|exact HPb].
        apply lookup_lt_Some in Hk2. unfold had in Hk2. rewrite app_length in Hk2. cbn [length] in Hk2. lia.
    Qed.

    Lemma sinv_snoc l tr x : snd (run (initial cs) l) = tr ++ [x] -> node_ok (had (tr ++ [x])) -> (forall f, x = Asked f -> well_asked (R_of tr) f) ->
      sinv tr -> sinv (tr ++ [x]).
    Proof.
      intros E Ok Ha I.
      assert (K : (R_of (tr ++ [x]) = R_of tr \/ exists e, x = Got (MBlock e) /\ R_of (tr ++ [x]) = R_of tr ++ [of_event e])).
      { rewrite R_of_app. destruct x as [| |m| | | |]; try (left; apply app_nil_r). destruct m as [|e|]; try (left; apply app_nil_r). right. eauto. }
      assert (P : forall t1 t2, tr ++ [x] = t1 ++ t2 -> (t2 = [] /\ t1 = tr ++ [x]) \/ exists t2', t2 = t2' ++ [x] /\ tr = t1 ++ t2').
      { intros t1 t2 E'. destruct t2 as [|y t2 _] using rev_ind; [left; rewrite app_nil_r in E'; auto|]. rewrite app_assoc in E'. apply app_inj_tail in E' as [-> ->]. right. eauto. }
      assert (Hd : had (tr ++ [x]) = had tr ++ chains [x]) by apply had_app.
      assert (Asks : forall t1 f t2, tr ++ [x] = t1 ++ Asked f :: t2 -> well_asked (R_of t1) f).
      { intros t1 f t2 E'. destruct (P _ _ E') as [[X _]|(t2' & X & Y)]; [discriminate|]. destruct t2' as [|y t2']; cbn [app] in X.
        - injection X as <- ->. rewrite app_nil_r in Y. subst t1. auto.
        - injection X as <- ->. apply (si_asked _ I t1 f t2' Y). }
      destruct K as [K|(e & -> & K)].
      - split; [by rewrite K; apply (si_grows _ I)|by rewrite K; apply (si_head _ I)| |done].
        intros t1 t2 E' y Hy. rewrite Hd. apply prov_app. destruct (P _ _ E') as [[-> ->]|(t2' & -> & Y)].
        + rewrite K in Hy. eapply prov_mono; [|apply (si_prov _ I tr [] ltac:(by rewrite app_nil_r) y Hy)]. rewrite chains_app, app_length. lia.
        + apply (si_prov _ I t1 t2' Y y Hy).
      - destruct (got_step l tr e E Ok I) as (G & Hh & Pb & _). split; [by rewrite K|by rewrite K; right| |done].
        intros t1 t2 E' y Hy. rewrite Hd. apply prov_app. destruct (P _ _ E') as [[-> ->]|(t2' & -> & Y)].
        + rewrite chains_app. change (chains [Got (MBlock e)]) with (@nil (list nblock)). rewrite app_nil_r.
          rewrite K in Hy. apply elem_of_app in Hy as [Hy|Hy]; [apply (si_prov _ I tr [] ltac:(by rewrite app_nil_r) y Hy)|].
          apply elem_of_list_singleton in Hy as ->. exact Pb.
        + apply (si_prov _ I t1 t2' Y y Hy).
    Qed.

    (** ** where a block comes from *)
    Lemma got_from l tr0 e : snd (run (initial cs) l) = tr0 ++ [Got (MBlock e)] -> node_ok (had tr0) -> sinv tr0 ->
      exists t1 f t2 del c2 k2 b', tr0 = t1 ++ Asked f :: t2 /\ (length past + length (chains t1) <= k2)%nat /\ had tr0 !! k2 = Some c2 /\
        (forall z, z ∈ del -> z ∈ c2) /\ of_event <$> blocks t2 = map blk del /\ b' ∈ c2 /\ blk b' = of_event e.
    Proof.
      intros E Ok I.
      destruct (split_asked (tr0 ++ [Got (MBlock e)])) as [Np|(t1 & f & t2 & E2 & Nt)].
      { pose proof (C38_asks_first _ _ _ _ cs l _ [] ltac:(by rewrite app_nil_r) Np) as G. rewrite got_app in G. by destruct (got tr0). }
      destruct t2 as [|y t2 _] using rev_ind. { rewrite E2 in E. apply app_inj_tail in E2 as [_ E2]. discriminate. }
      rewrite app_comm_cons, app_assoc in E2. apply app_inj_tail in E2 as [E2 <-]. rewrite E2 in E. rewrite <- app_assoc in E. cbn [app] in E.
      assert (Sv := C38_served _ _ _ _ cs l t1 f (t2 ++ [Got (MBlock e)]) [] ltac:(rewrite app_nil_r; exact E) Nt).
      rewrite got_app, chains_app in Sv. change (got [Got (MBlock e)]) with [MBlock e] in Sv. change (chains [Got (MBlock e)]) with (@nil (list nblock)) in Sv.
      rewrite app_nil_r in Sv.
      inversion Sv as [S0|c1 ps p _ _ _ _ S0|c1 c2 ps p tips seg del ms Af Eps Bst Tn Ht St Pf F2 S0].
      { symmetry in S0. by apply app_eq_nil in S0 as [_ ?]. }
      { destruct (got t2) as [|? [|]]; discriminate. }
      destruct ms as [|m ms _] using rev_ind.
      { rewrite app_nil_r in S0. exfalso. destruct Ht as [-> | ->]; destruct (got t2) as [|? [|]]; discriminate. }
      rewrite app_assoc in S0. apply app_inj_tail in S0 as [S0 ->].
      apply Forall2_app_inv_r in F2 as (del' & last & F2 & F1 & ->). inversion F1 as [|b' ? ? ? He Fnil]; subst. inversion Fnil; subst. clear F1 Fnil.
      assert (Hseg : forall z, z ∈ del' ++ [b'] -> z ∈ c2).
      { destruct St as (pre2 & bp & rest & post2 & -> & -> & _). intros z Hz. destruct Pf as [more Em].
        assert (z ∈ bp :: rest). { destruct (snd (effective cfg f)); cbn [tail] in Em; rewrite Em; [right|]; apply elem_of_app; by left. }
        apply elem_of_app. right. apply elem_of_app. by left. }
      destruct (after_at t1 f t2 c1 c2 Af) as (k1 & k2 & Hk0 & Hk & Hk1 & Hk2).
      assert (Hc2 : c2 ∈ had (t1 ++ Asked f :: t2)) by (by eapply elem_of_list_lookup_2).
      exists t1, f, t2, del', c2, k2, b'. split; [reflexivity|]. split; [lia|]. split; [exact Hk2|].
      assert (Hd : forall z, z ∈ del' -> z ∈ c2) by (intros z Hz; apply Hseg, elem_of_app; by left).
      split; [exact Hd|]. split; [|split; [apply Hseg, elem_of_app; right; left|unfold blk; rewrite He; reflexivity]].
      unfold blocks. rewrite <- S0, bind_app. change (tips ≫= blocks_of) with (msgs_blocks tips). rewrite (tips_blocks _ _ Ht). cbn [app].
      clear - F2 Hd Hc2 Ok. induction F2 as [|z m del' ms Hz F2 IH]; [reflexivity|].
      destruct (blk_facts c2 z (n_good _ Ok c2 Hc2) (Hd z ltac:(left))) as (mz & ez & Ez & Bz & _). rewrite Ez in Hz. injection Hz as <-.
      cbn [mbind list_bind blocks_of app map fmap list_fmap]. rewrite Bz. f_equal. apply IH. intros y Hy. apply Hd. by right.
    Qed.
    (** once a block has come that only the present chain of the node has, all blocks come from that chain *)
    Lemma got_on l tr0 e cs1 c x : snd (run (initial cs) l) = tr0 ++ [Got (MBlock e)] -> node_ok (had tr0) -> sinv tr0 ->
      had tr0 = cs1 ++ [c] -> x ∈ c -> (forall c', c' ∈ cs1 -> x ∉ c') -> blk x ∈ R_of tr0 -> exists b', b' ∈ c /\ blk b' = of_event e.
    Proof.
      intros E Ok I Eh Hx Hno HR. destruct (got_from l tr0 e E Ok I) as (t1 & f & t2 & del & c2 & k2 & b' & E1 & Hk & Hk2 & Hd & Hb & Hb' & Ee).
      exists b'. split; [|exact Ee]. enough (c2 = c) as <- by done.
      assert (Hc : c ∈ had tr0) by (rewrite Eh; apply elem_of_app; right; left).
      assert (Last : forall j c', had tr0 !! j = Some c' -> x ∈ c' -> j = length cs1 /\ c' = c).
      { intros j c' Hj Hx'. rewrite Eh in Hj. destruct (lookup_lt_is_Some_2 (cs1 ++ [c]) j) as [z Hz]; [by eapply lookup_lt_Some|].
        apply lookup_app_Some in Hj as [Hj|[Hj1 Hj2]]; [by destruct (Hno c'); [eapply elem_of_list_lookup_2|]|].
        apply list_lookup_singleton_Some in Hj2 as [Hj2 ->]. split; [lia|done]. }
      rewrite E1, R_of_app in HR. apply elem_of_app in HR as [HR|HR].
      - destruct (si_prov _ I t1 (Asked f :: t2) E1 _ HR) as (j & C & i & Hj & HC & _ & Hi). rewrite list_lookup_fmap in HC. apply fmap_Some in HC as (c' & Hc' & ->).
        apply n_lookup in Hi as (y & Hy & Exy).
        assert (y = x) as ->. { apply (n_hash _ Ok c' c); [by eapply elem_of_list_lookup_2|done|by eapply elem_of_list_lookup_2|done|by rewrite Exy]. }
        destruct (Last j c' Hc') as [-> _]; [by eapply elem_of_list_lookup_2|].
        assert (k2 = length cs1) as ->. { apply lookup_lt_Some in Hk2. rewrite Eh, app_length in Hk2. cbn in Hk2. lia. }
        rewrite Eh, list_lookup_middle in Hk2 by done. by injection Hk2.
      - change (blocks (Asked f :: t2)) with (blocks t2) in HR. rewrite Hb in HR. apply n_mem in HR as (y & Hy & Exy). specialize (Hd _ Hy).
        assert (y = x) as ->. { apply (n_hash _ Ok c2 c); [by eapply elem_of_list_lookup_2|done|done|done|by rewrite Exy]. }
        by destruct (Last k2 c2 Hk2 Hd).
    Qed.

    (** ** a request that ended *)
    Lemma had_more t1 t2 k c : had t1 !! k = Some c -> had (t1 ++ t2) !! k = Some c.
    Proof. intro E. rewrite had_app. by apply lookup_app_l_Some. Qed.
    (** a point that was asked for is on every chain *)
    Lemma asked_on t1 f t2 : let tr := t1 ++ Asked f :: t2 in node_ok (had tr) -> sinv tr -> (exists x, settled d (R_of t1) x) \/ to_point start ∈ f ->
      forall c1 k1, (length past + length (chains t1) <= k1)%nat -> had tr !! k1 = Some c1 -> exists y, y ∈ c1 /\ to_point (start_of y) ∈ f.
    Proof.
      intros tr Ok I W3 c1 k1 Hk Hk1. destruct (si_asked _ I t1 f t2 eq_refl) as (_ & W2 & _).
      assert (HPall : forall x, x ∈ R_of t1 -> prov (had tr) (length past + length (chains t1)) x) by (apply (si_prov _ I t1 (Asked f :: t2) eq_refl)).
      assert (Mem : forall k c, had tr !! k = Some c -> c ∈ had tr) by (intros; by eapply elem_of_list_lookup_2).
      destruct W3 as [[x Hx]|Hs].
      - destruct Hx as (t & [Ht Hm] & Hb).
        destruct (deep_stays d (H_of (had tr)) (map blk pre) (blk b0) (blk b1) (n_start _ Ok) (n_linked _ Ok) (n_ids _ Ok) (n_common _ Ok) (R_of t1) k1 t x k1 (map blk c1)) as (i & Hi & _).
        + intros y Hy. eapply prov_mono; [|by apply HPall]. done.
        + done.
        + done.
        + by rewrite list_lookup_fmap, Hk1.
        + destruct (HPall t Ht) as (j & C & i & Hj & HC & _ & Hi). exists j, C, i. split; [lia|done].
        + apply n_lookup in Hi as (y & Hy & ->). exists y. split; [by eapply elem_of_list_lookup_2|].
          destruct (W2 (blk y)) as (p & Hp & Hin); [by exists t|]. destruct (blk_node c1 y (n_good _ Ok c1 (Mem _ _ Hk1))) as (Ey & _); [by eapply elem_of_list_lookup_2|].
          rewrite Ey in Hp. by injection Hp as <-.
      - exists b0. split; [|done]. destruct (n_prefix _ Ok c1 (Mem _ _ Hk1)) as [z ->]. apply elem_of_app. left. apply elem_of_app. right. left.
    Qed.

    Lemma ended_tip l t1 f t2 e t3 : (forall c1 k1, c1 ∈ in_force cs t1 :: chains t2 -> (length past + length (chains t1) <= k1)%nat -> had (t1 ++ Asked f :: t2 ++ e :: t3) !! k1 = Some c1 ->
        exists y, y ∈ c1 /\ to_point (start_of y) ∈ f) -> snd (run (initial cs) l) = t1 ++ Asked f :: t2 ++ e :: t3 -> Forall not_asked t2 -> e = Ended \/ e = GotNone ->
      Forall (good decode_block cfg chk) cs -> Forall (clean decode_block cfg chk) l -> let tr := t1 ++ Asked f :: t2 ++ e :: t3 in node_ok (had tr) -> sinv tr ->
      (exists c1 c2, after (in_force cs t1 :: chains t2) c1 c2 /\ ~ c1 `prefix_of` c2) \/
      (exists c1 k x, c1 ∈ in_force cs t1 :: chains t2 /\ had tr !! k = Some c1 /\ last c1 = Some x /\ blk x ∈ R_of tr).
    Proof.
      intros An E Nt He Hgd Hcl tr Ok I. pose proof (C38_ended _ _ _ _ cs l t1 f t2 e t3 E Nt He Hgd Hcl) as En.
      assert (Etr : tr = (t1 ++ Asked f :: t2) ++ e :: t3) by (unfold tr; rewrite <- app_assoc; reflexivity).
      destruct (si_asked _ I t1 f (t2 ++ e :: t3) eq_refl) as (W1 & W2 & W3).
      assert (HPall : forall x, x ∈ R_of t1 -> prov (had tr) (length past + length (chains t1)) x) by (apply (si_prov _ I t1 (Asked f :: t2 ++ e :: t3) eq_refl)).
      assert (B0 : exists c, c ∈ had tr /\ b0 ∈ c).
      { exists c0. split; [|rewrite E_c0; apply elem_of_app; right; left]. destruct Ok as [_ Hh]. destruct (had tr); [done|]. injection Hh as ->. left. }
      assert (Wn : forall q, q ∈ f -> exists c y, c ∈ had tr /\ y ∈ c /\ q = to_point (start_of y) /\ (y = b0 \/ blk y ∈ R_of t1)).
      { intros q Hq. destruct (W1 q Hq) as (p & -> & [-> |(x & Hx & Hp)]).
        - destruct B0 as (c & Hc & Hb). exists c, b0. auto.
        - destruct (prov_block _ _ _ (HPall x Hx)) as (c & y & Hc & Hy & ->). exists c, y. split; [done|]. split; [done|].
          destruct (blk_node c y (n_good _ Ok c Hc) Hy) as (Ey & _). rewrite Ey in Hp. injection Hp as <-. auto. }
      assert (Ef : effective cfg f = (f, true)).
      { unfold effective. rewrite bool_decide_eq_false_2; [reflexivity|]. intros ->.
        destruct (Wn _ ltac:(left)) as (c & y & Hc & Hy & Eq & _). destruct (blk_node c y (n_good _ Ok c Hc) Hy) as (_ & _ & X). congruence. }
      assert (Hread : points_to_node read_id f <> None).
      { assert (Gn : forall f', (forall q, q ∈ f' -> q ∈ f) -> points_to_node read_id f' <> None); [|by apply Gn].
        induction f' as [|q f' IH]; intro Sub; [discriminate|]. cbn [points_to_node]. destruct (Wn q (Sub q ltac:(left))) as (c & y & Hc & Hy & -> & _).
        destruct (blk_node c y (n_good _ Ok c Hc) Hy) as (_ & -> & _). destruct (points_to_node read_id f') eqn:Epn; [discriminate|]. exfalso. apply IH; [|done]. intros q Hq. apply Sub. by right. }
      assert (At : forall c1 c2, after (in_force cs t1 :: chains t2) c1 c2 -> exists k1 k2, (length past + length (chains t1) <= k1)%nat /\ (k1 <= k2)%nat /\ had tr !! k1 = Some c1 /\ had tr !! k2 = Some c2).
      { intros c1 c2 Af. destruct (after_at t1 f t2 c1 c2 Af) as (k1 & k2 & A1 & A2 & A3 & A4). exists k1, k2. rewrite Etr. split; [done|]. split; [done|]. split; by apply had_more. }
      assert (Self : forall c, c ∈ in_force cs t1 :: chains t2 -> after (in_force cs t1 :: chains t2) c c).
      { intros c Hc. apply elem_of_list_split in Hc as (a & b & ->). exists a, b. split; [done|left]. }
      (* the block of the tip *)
      assert (Tip : forall c k, had tr !! k = Some c -> exists x q, c = q ++ [x] /\ last c = Some x /\ tip_of c = nb_point x /\ x <> b0).
      { intros c k Hc. assert (Hin : c ∈ had tr) by (by eapply elem_of_list_lookup_2). destruct (n_prefix _ Ok c Hin) as [z Ez].
        destruct c as [|x q _] using rev_ind. { symmetry in Ez. apply app_eq_nil in Ez as [Ez _]. destruct pre; discriminate. }
        assert (last (q ++ [x]) = Some x) as Hl by apply last_snoc.
        exists x, q. split; [done|]. split; [done|]. split; [unfold tip_of; by rewrite Hl|]. intros ->.
        assert ((q ++ [b0]) !! length pre = Some b0) as L1. { rewrite Ez, <- app_assoc. by apply list_lookup_middle. }
        assert ((q ++ [b0]) !! length q = Some b0) as L2 by (by apply list_lookup_middle).
        assert (X1 : map blk (q ++ [b0]) ∈ H_of (had tr)) by (apply n_elem; eauto).
        pose proof (same_idx (H_of (had tr)) (map blk pre) (blk b0) (blk b1) (n_start _ Ok) (n_linked _ Ok) _ _ (length pre) (length q) (blk b0) X1 X1) as X.
        rewrite !list_lookup_fmap, L1, L2 in X. specialize (X eq_refl eq_refl).
        apply (f_equal length) in Ez. rewrite !app_length in Ez. cbn [length] in Ez. lia. }
      assert (Ids : forall c c' y z, c ∈ had tr -> c' ∈ had tr -> y ∈ c -> z ∈ c' -> nb_point y = nb_point z -> y = z).
      { intros c c' y z Hc Hc' Hy Hz X. apply (gn_hash _ _ _ _ _ _ (proj1 Ok) c c'); try done. unfold nb_point in X. congruence. }
      assert (Mem : forall k c, had tr !! k = Some c -> c ∈ had tr) by (intros; by eapply elem_of_list_lookup_2).
      inversion En as [U S0|c1 ps Hc1 Eps Un S0|c1 ps Hc1 Eps Bst S0|c1 c2 ps p tips Af Eps Bst Tn Ht Rg S0|c1 c2 ps p tips seg ms Af Eps Bst Tn Ht St F2 S0];
        rewrite Ef in *; cbn [fst snd] in *.
      - by destruct Hread.
      - (* a point that was asked for is on every chain *)
        exfalso. destruct (At _ _ (Self c1 Hc1)) as (k1 & _ & Hk & _ & Hk1 & _).
        pose proof (An c1 k1 Hc1 Hk Hk1) as Y.
        destruct Y as (y & Hy & Hin). destruct (blk_node c1 y (n_good _ Ok c1 (Mem _ _ Hk1)) Hy) as (_ & Ep & _).
        assert (nb_point y ∈ ps) as Hps by (apply (points_to_node_in f ps Eps); eauto).
        specialize (Un _ Hps). rewrite (proj2 (on_chain_spec c1 (nb_point y))) in Un; [discriminate|]. eauto.
      - right. destruct (At _ _ (Self c1 Hc1)) as (k1 & _ & Hk & _ & Hk1 & _). destruct (Tip c1 k1 Hk1) as (x & q & Ec1 & Hl & Htip & Hx).
        exists c1, k1, x. split; [done|]. split; [done|]. split; [done|].
        destruct Bst as (Bin & _). rewrite Htip in Bin. apply (points_to_node_in f ps Eps) in Bin as (q' & Hq & Eq). destruct (Wn q' Hq) as (c & y & Hc & Hy & -> & Hor).
        destruct (blk_node c y (n_good _ Ok c Hc) Hy) as (_ & En' & _). rewrite En' in Eq. injection Eq as Eq1 Eq2.
        assert (y = x) as ->. { apply (Ids c c1); [done|by apply (Mem k1)|done|rewrite Ec1; apply elem_of_app; right; left|]. unfold nb_point. congruence. }
        destruct Hor as [?|Hor]; [done|]. unfold tr. rewrite R_of_app. apply elem_of_app. by left.
      - left. exists c1, c2. split; [done|]. intro Pf. destruct (At _ _ Af) as (k1 & k2 & Hk & _ & Hk1 & Hk2). destruct (Tip c1 k1 Hk1) as (x & q & Ec1 & Hl & Htip & Hx).
        destruct Bst as (Bin & Bon & _). apply on_chain_spec in Bon as [-> |(y & Hy & <-)].
        { apply (points_to_node_in f ps Eps) in Bin as (q' & Hq & Eq). destruct (Wn q' Hq) as (c & y & Hc & Hy & -> & Hor).
          destruct (blk_node c y (n_good _ Ok c Hc) Hy) as (_ & En' & _). rewrite En' in Eq. discriminate. }
        destruct Pf as [z ->]. apply elem_of_list_split in Hy as (u & v & Ev).
        assert (X : is_Some (range (u ++ y :: (v ++ z)) (nb_point y) (tip_of c1))).
        { apply range_some.
          - rewrite Htip. apply elem_of_list_fmap_1. rewrite app_comm_cons. apply elem_of_app. left.
            rewrite Ec1 in Ev. destruct v as [|v0 v _] using rev_ind.
            + apply app_inj_tail in Ev as [_ ->]. left.
            + rewrite app_comm_cons, app_assoc in Ev. apply app_inj_tail in Ev as [_ ->]. right. apply elem_of_app. right. left.
          - intros (y' & Ey & Hy')%elem_of_list_fmap.
            assert (y = y') as <-. { apply (Ids c1 c1); [by apply (Mem k1)|by apply (Mem k1)|rewrite Ev; apply elem_of_app; right; left|rewrite Ev; apply elem_of_app; by left|done]. }
            apply elem_of_list_lookup in Hy' as [i Hi].
            assert (X1 : map blk c1 ∈ H_of (had tr)) by (apply n_elem; exists c1; split; [by apply (Mem k1)|done]).
            pose proof (same_idx (H_of (had tr)) (map blk pre) (blk b0) (blk b1) (n_start _ Ok) (n_linked _ Ok) _ _ i (length u) (blk y) X1 X1) as X.
            rewrite !list_lookup_fmap in X. rewrite Ev in X. rewrite lookup_app_l in X by (by eapply lookup_lt_Some). rewrite Hi in X. rewrite list_lookup_middle in X by done.
            specialize (X eq_refl eq_refl). apply lookup_lt_Some in Hi. lia. }
        rewrite Ev in Rg. rewrite <- app_assoc in Rg. cbn [app] in Rg. rewrite <- Ev in Rg. rewrite Rg in X. by destruct X.
      - right. destruct (At _ _ Af) as (k1 & k2 & Hk & _ & Hk1 & Hk2). destruct (Tip c1 k1 Hk1) as (x & q & Ec1 & Hl & Htip & Hx).
        exists c1, k1, x. split. { destruct Af as (a & b & -> & _). apply elem_of_app. right. left. } split; [done|]. split; [done|].
        destruct St as (pre2 & bp & rest & post2 & Ec2 & -> & Ebp & Etip). cbn [tail] in F2.
        destruct rest as [|z rest _] using rev_ind. { unfold tip_of at 1 in Etip. cbn in Etip. congruence. }
        unfold tip_of at 1 in Etip. rewrite app_comm_cons, last_snoc in Etip.
        assert (z = x) as ->. { apply (Ids c2 c1); [by apply (Mem k2)|by apply (Mem k1)| |rewrite Ec1; apply elem_of_app; right; left|congruence].
          rewrite Ec2. apply elem_of_app. right. apply elem_of_app. left. right. apply elem_of_app. right. left. }
        apply Forall2_app_inv_l in F2 as (ms1 & ms2 & _ & F2 & ->). apply Forall2_cons_inv_l in F2 as (m & ms3 & Hm & Fn & ->). apply Forall2_nil_inv_l in Fn as ->.
        destruct (blk_facts c2 x (n_good _ Ok c2 (Mem _ _ Hk2))) as (mz & ez & Ez & Bz & _).
        { rewrite Ec2. apply elem_of_app. right. apply elem_of_app. left. right. apply elem_of_app. right. left. }
        rewrite Ez in Hm. injection Hm as <-. rewrite Bz. unfold tr. rewrite R_of_app. apply elem_of_app. right. apply elem_of_list_fmap_1.
        change (blocks (Asked f :: t2 ++ e :: t3)) with (blocks (t2 ++ e :: t3)). rewrite blocks_app. apply elem_of_app. left.
        unfold blocks. rewrite <- S0. rewrite !bind_app. apply elem_of_app. right. apply elem_of_app. right. cbn. left.
    Qed.
  End session.

  (** ** moves of the Cardano source *)
  Definition block_of_answer (a : answer) : list block := match a with AEvent (EvBlock b) => [b] | _ => [] end.

  Lemma recv_c s ch m s' : recv s ch = RMsg m s' -> s_c s' = s_c s.
  Proof. unfold recv. destruct (c_queue _); [destruct (c_tx _); discriminate|]. intro H. injection H as _ <-. reflexivity. Qed.
  Lemma answer_got m : exists ans, answer_of [Got m] = Some ans /\ of_event <$> blocks [Got m] = block_of_answer ans.
  Proof. destruct m as [p|e|]; eexists; split; reflexivity. Qed.
  Lemma caller_cases s s' o : caller cfg s = Some (s', o) ->
    (exists f, s_c s = CRecv f /\ s_c s' = CSend f /\ (o = [] \/ o = [Ended])) \/
    (exists f, s_c s = CSend f /\ s_c s' = CWait /\ o = [Asked (match f with [] => [cf_from cfg] | _ => f end)]) \/
    (s_c s <> CIdle /\ s_c s' = CIdle /\ exists x ans, o = [x] /\ (forall f, x <> Asked f) /\ chains [x] = [] /\ answer_of [x] = Some ans /\ of_event <$> blocks [x] = block_of_answer ans).
  Proof.
    unfold caller. destruct (s_c s) as [|f|f|] eqn:Ec; [discriminate| | |].
    - destruct (s_current s) as [ch|]; [|intro H; injection H as <- <-; left; exists f; auto].
      destruct (recv s ch) as [m s1| |] eqn:Er; [| |discriminate]; intro H; injection H as <- <-; [|left; exists f; auto].
      right. right. split; [discriminate|]. split; [reflexivity|]. destruct (answer_got m) as (ans & ? & ?). exists (Got m), ans. repeat split; auto; discriminate.
    - assert (K : match s_requests s with [] => Some (let s0 := drop_rx s (s_current s) in St (s_node s0) CWait (Some (s_next s)) (s_open s0) [(match f with [] => [cf_from cfg] | _ => f end, s_next s)] (s_h s0) (s_handle s0)
                 (<[s_next s := Chan [] true true]> (s_chans s0)) (S (s_next s)), [Asked (match f with [] => [cf_from cfg] | _ => f end)]) | _ => None end = Some (s', o) ->
        s_c s' = CWait /\ o = [Asked (match f with [] => [cf_from cfg] | _ => f end)]).
      { destruct (s_requests s); [|discriminate]. intro H. injection H as <- <-. auto. }
      destruct (s_h s); intro H; first [apply K in H as [H1 H2]; right; left; exists f; auto|idtac].
      all: injection H as <- <-; right; right; split; [discriminate|]; split; [reflexivity|]; exists GotErr, AErr; repeat split; auto; discriminate.
    - destruct (s_current s) as [ch|]; [|discriminate]. destruct (recv s ch) as [m s1| |] eqn:Er; [| |discriminate]; intro H; injection H as <- <-.
      + right. right. split; [discriminate|]. split; [reflexivity|]. destruct (answer_got m) as (ans & ? & ?). exists (Got m), ans. repeat split; auto; discriminate.
      + right. right. split; [discriminate|]. split; [reflexivity|]. exists GotNone, ANone. repeat split; auto; discriminate.
  Qed.
  Lemma send_c s ch m s' : send s ch m = SSent s' -> s_c s' = s_c s.
  Proof. unfold send. destruct (c_rx _); [|discriminate]. destruct (_ <? _); [|discriminate]. intro H. injection H as <-. reflexivity. Qed.
  Lemma die_c s ch : s_c (die s ch) = s_c s.
  Proof.
    unfold die. cbn [s_c]. transitivity (s_c (close_tx s ch)); [|reflexivity].
    generalize (close_tx s ch). induction (s_requests s) as [|r l IH]; intro s0; [reflexivity|]. cbn [foldl]. rewrite IH. reflexivity.
  Qed.
  Lemma handler_c s ok late s' : handler read_id decode_block cfg chk s ok late = Some s' -> s_c s' = s_c s.
  Proof.
    unfold handler. intro H.
    repeat match type of H with
           | context [match send ?a ?b ?c with _ => _ end] => let E := fresh in destruct (send a b c) eqn:E; [apply send_c in E| |]
           | Some (die _ _) = _ => injection H as <-; apply die_c
           | Some _ = Some _ => injection H as <-; first [assumption|reflexivity]
           | None = Some _ => discriminate
           | context [match ?x with _ => _ end] => destruct x
           end.
  Qed.
  Lemma run_snoc s l a s1 o1 s2 o2 : run s l = (s1, o1) -> step s1 a = Some (s2, o2) -> run s (l ++ [a]) = (s2, o1 ++ o2).
  Proof.
    revert s o1. induction l as [|b l IH]; intros s o1 E1 E2; cbn [CardanoModel.run app] in *.
    - injection E1 as -> <-. rewrite E2. reflexivity || (rewrite app_nil_r; reflexivity).
    - destruct (step s b) as [[s' o]|]; [|by apply IH]. destruct (run s' l) as [s3 o3] eqn:E3. injection E1 as -> <-.
      rewrite (IH s' o3 E3 E2). rewrite <- app_assoc. reflexivity.
  Qed.

  (** ** the confirming source over the Cardano source *)
  Notation winv := (SourceRunProofs.winv d (Some start)).
  Notation resume w := (resume_point point_of (Some start) (w_accepted w)).
  Definition ok_action (a : action) : Prop := match a with Handler ok _ => ok = true | _ => True end.
  Definition kinvh (h g : bool) (k : stack) : Prop :=
    (exists l, run (initial (k_base k)) l = (k_in k, k_seen k) /\ (g = true -> Forall ok_action l)) /\
    (exists s D, winv (k_world k) s D /\ (h = true -> w_accepted (k_world k) = D)) /\
    (exists Rp, w_received (k_world k) = R_of Rp (k_seen k) /\ sinv (k_past k) (k_base k) Rp (k_seen k)) /\
    match k_wait k with
    | None => s_c (k_in k) = CIdle
    | Some enum => fair enum /\ exists cps, ms_checkpoints point_of enum (w_source (k_world k)) (resume (k_world k)) = inr cps /\
        (s_c (k_in k) = CRecv (to_point <$> cps) \/ s_c (k_in k) = CSend (to_point <$> cps) \/ s_c (k_in k) = CWait)
    end.

  Definition kinv (g : bool) (k : stack) : Prop := kinvh true g k.

  Lemma k_chains_had k : k_chains k = had (k_past k) (k_base k) (k_seen k).
  Proof. reflexivity. Qed.

  (** the points with which the confirming source asks *)
  Lemma ms_asks enum w s D cps : fair enum -> winv w s D -> ms_checkpoints point_of enum (w_source w) (resume w) = inr cps ->
    cps <> [] /\ well_asked (w_received w) (to_point <$> cps).
  Proof.
    intros Hf W E. pose proof (checkpoints_ok point_of points_ok_point_of enum d (Some start) w s D Hf W) as Hcp. cbv zeta in Hcp.
    destruct Hcp as [[Ha Hcp]|(x & _ & Hcp)]; rewrite Hcp in E; [injection E as <-|discriminate].
    assert (Hr : exists p, resume w = Some p /\ (p = start \/ exists x, x ∈ w_received w /\ point_of x = Some p)).
    { unfold resume_point. destruct (last (w_accepted w)) as [x|] eqn:El; [|eauto]. exists (slot_of x, b_id x). split; [reflexivity|]. right. exists x. split; [|reflexivity].
      destruct W as (_ & _ & I & _). apply (sc_received _ _ _ _ (i_chain _ _ _ _ I)). rewrite <- Ha. apply last_Some in El as [q ->]. apply elem_of_app. right. left. }
    destruct Hr as (p & Hr & Hp). rewrite Hr. cbn [option_list].
    split; [intro X; by apply app_eq_nil in X as [_ ?]|]. split; [|split].
    - intros q Hq. apply elem_of_list_fmap in Hq as (p' & -> & Hq). exists p'. split; [reflexivity|]. apply elem_of_app in Hq as [Hq|Hq].
      + right. apply elem_of_list_omap in Hq as (key & _ & Hk). destruct (mv_get (ms_mv (w_source w)) key) as [x|] eqn:Eg; [|discriminate]. cbn in Hk.
        destruct W as (Rl & _ & I & _). apply (rel_get_some _ _ _ _ Rl) in Eg as [Eg _]. exists x. split; [|exact Hk]. by apply (i_elem _ _ _ _ I) in Eg.
      + apply elem_of_list_singleton in Hq as ->. exact Hp.
    - intros x Hx. destruct W as (_ & _ & I & _). apply (inv_settled _ _ _ _ x I) in Hx. exists (slot_of x, b_id x). split; [reflexivity|].
      apply elem_of_list_fmap_1. apply elem_of_app. right. unfold resume_point in Hr. rewrite Ha, Hx in Hr. injection Hr as <-. left.
    - intros _. unfold resume_point in Hr. rewrite Ha in Hr. destruct (last D) as [x|] eqn:El.
      + left. exists x. destruct W as (_ & _ & I & _). by apply (inv_settled _ _ _ _ x I).
      + right. injection Hr as <-. apply elem_of_list_fmap_1. apply elem_of_app. right. left.
  Qed.

  Lemma kinvh_start h g : kinvh h g (k_start d c0).
  Proof.
    split; [exists []; split; [reflexivity|constructor]|]. split; [exists (empty_store 0), []; split; [apply winv_start|reflexivity]|]. split; [|reflexivity].
    exists []. split; [reflexivity|]. split; [constructor|left; reflexivity| |].
    - intros t1 t2 E x Hx. symmetry in E. apply app_eq_nil in E as [-> ->]. inversion Hx.
    - intros t1 f t2 E. destruct t1; discriminate.
  Qed.

  Lemma sinv_restart past cs Rp tr c : sinv past cs Rp tr -> node_ok (had past cs tr) -> sinv (had past cs tr) c (R_of Rp tr) [].
  Proof.
    intros I Ok. assert (E : R_of (R_of Rp tr) [] = R_of Rp tr) by apply app_nil_r. split.
    - rewrite E. apply (si_grows _ _ _ _ I).
    - rewrite E. apply (si_head _ _ _ _ I).
    - intros t1 t2 X x Hx. symmetry in X. apply app_eq_nil in X as [-> ->]. rewrite E in Hx. unfold had at 1. apply prov_app.
      eapply prov_mono; [|apply (si_prov _ _ _ _ I tr [] ltac:(by rewrite app_nil_r) x Hx)]. unfold had. rewrite app_length. cbn [length]. lia.
    - intros t1 f t2 X. destruct t1; discriminate.
  Qed.

  (** the same with the node's present chain counted once *)
  Lemma sinv_resume past cs Rp tr past' c : sinv past cs Rp tr -> had past cs tr = past' ++ [c] -> sinv past' c (R_of Rp tr) [].
  Proof.
    intros I E. assert (ER : R_of (R_of Rp tr) [] = R_of Rp tr) by apply app_nil_r. split.
    - rewrite ER. apply (si_grows _ _ _ _ I).
    - rewrite ER. apply (si_head _ _ _ _ I).
    - intros t1 t2 X x Hx. symmetry in X. apply app_eq_nil in X as [-> ->]. rewrite ER in Hx.
      pose proof (si_prov _ _ _ _ I tr [] ltac:(by rewrite app_nil_r) x Hx) as P. unfold had at 1. cbn [chains mbind list_bind]. rewrite E in P.
      eapply prov_mono; [|exact P]. apply (f_equal length) in E. unfold had in E. rewrite !app_length in E. cbn [length] in *. lia.
    - intros t1 f t2 X. destruct t1; discriminate.
  Qed.

  Lemma kinvh_inner h g k a k' : kinvh h g k -> (g = true -> ok_action a) -> a = Caller \/ (exists ok late, a = Handler ok late) \/ (exists c, a = Node c) ->
    k_inner read_id decode_block cfg chk (Some start) k a = Some k' -> node_ok (k_chains k') -> kinvh h g k'.
  Proof.
    intros ((l & Hl & Hg) & (s & D & W & Ha) & (Rp & HR & I) & Hw) Hga Hact E Ok. unfold k_inner in E.
    destruct (step (k_in k) a) as [[s' o]|] eqn:Es; [|discriminate]. pose proof (run_snoc _ _ _ _ _ _ _ Hl Es) as Hl'.
    assert (Hg' : g = true -> Forall ok_action (l ++ [a])) by (intro X; apply Forall_app; split; [auto|constructor; [auto|constructor]]).
    assert (Quiet : forall w', k' = Stack (k_world k) w' s' (k_seen k ++ o) (k_past k) (k_base k) -> blocks o = [] ->
      (forall f, o = [Asked f] -> well_asked (R_of Rp (k_seen k)) f) ->
      match w' with
      | None => s_c s' = CIdle
      | Some enum => fair enum /\ exists cps, ms_checkpoints point_of enum (w_source (k_world k)) (resume (k_world k)) = inr cps /\
        (s_c s' = CRecv (to_point <$> cps) \/ s_c s' = CSend (to_point <$> cps) \/ s_c s' = CWait)
      end -> kinvh h g k').
    { intros w' -> Hb Hk Hw'. split; [exists (l ++ [a]); auto|]. split; [exists s, D; auto|]. split; [|exact Hw'].
      exists Rp. cbn [k_world k_seen k_past k_base]. split; [rewrite R_of_app, Hb; cbn; by rewrite app_nil_r|].
      destruct (step_seen _ _ _ _ _ _ _ _ Es) as [-> |[x ->]]; [by rewrite app_nil_r|].
      apply (sinv_snoc _ _ _ (l ++ [a])); [by rewrite Hl'|exact Ok| |exact I]. intros f ->. by apply Hk. }
    destruct Hact as [-> |[(ok & late & ->)|(c & ->)]]; cbn [CardanoModel.step] in Es.
    - destruct (caller_cases _ _ _ Es) as [(f & C1 & C2 & Ho)|[(f & C1 & C2 & Ho)|(C1 & C2 & x & ans & Ho & Hx & Hc & Hans & Hb)]].
      + destruct (k_wait k) as [enum|] eqn:Ew; [|congruence]. destruct Hw as (Hf & cps & Hcp & Hcc).
        assert (f = to_point <$> cps) as -> by (rewrite C1 in Hcc; destruct Hcc as [X|[X|X]]; congruence).
        assert (An : answer_of o = None) by (destruct Ho as [-> | ->]; reflexivity). rewrite An in E. injection E as <-.
        eapply Quiet; [reflexivity|destruct Ho as [-> | ->]; reflexivity|intros f ->; destruct Ho; discriminate|].
        split; [exact Hf|]. exists cps. auto.
      + destruct (k_wait k) as [enum|] eqn:Ew; [|congruence]. destruct Hw as (Hf & cps & Hcp & Hcc).
        assert (f = to_point <$> cps) as -> by (rewrite C1 in Hcc; destruct Hcc as [X|[X|X]]; congruence).
        destruct (ms_asks enum _ s D cps Hf W Hcp) as [Hne Hwa].
        assert (Ef : match to_point <$> cps with [] => [cf_from cfg] | _ => to_point <$> cps end = to_point <$> cps) by (destruct cps; [done|reflexivity]).
        rewrite Ef in Ho. subst o. cbn [answer_of] in E. injection E as <-.
        eapply Quiet; [reflexivity|reflexivity|intros f X; injection X as <-; rewrite <- HR; exact Hwa|].
        split; [exact Hf|]. exists cps. auto.
      + subst o. rewrite Hans in E. destruct (k_wait k) as [enum|] eqn:Ew; [|congruence]. destruct Hw as (Hf & cps & Hcp & Hcc).
        destruct (w_step point_of (Some start) (k_world k) (SourceSpec.Pull enum ans true)) as [w'|] eqn:Ews; [|discriminate]. injection E as <-.
        assert (ER : w_received w' = w_received (k_world k) ++ block_of_answer ans).
        { cbn in Ews. unfold ms_pull in Ews. rewrite Hcp in Ews. clear - Ews.
          repeat match type of Ews with
                 | (let '(_, _) := match ?x with _ => _ end in _) = _ => destruct x
                 | Some _ = Some _ => injection Ews as <-; reflexivity
                 end. }
        assert (ER' : w_received w' = R_of Rp (k_seen k ++ [x])) by (rewrite ER, R_of_app, HR, Hb; reflexivity).
        assert (I' : sinv (k_past k) (k_base k) Rp (k_seen k ++ [x])).
        { apply (sinv_snoc _ _ _ (l ++ [Caller])); [by rewrite Hl'|exact Ok| |exact I]. intros f X. by destruct (Hx f). }
        destruct (w_step_ok point_of points_ok_point_of d (Some start) (k_world k) s D (SourceSpec.Pull enum ans true) w') as (s1 & D1 & W1 & Ha1).
        * exact Hf.
        * right. reflexivity.
        * exact W.
        * exact Ews.
        * rewrite ER'. apply (si_grows _ _ _ _ I').
        * split; [exists (l ++ [Caller]); auto|]. split; [exists s1, D1; split; [exact W1|intro Hh; apply Ha1; [reflexivity|exact (Ha Hh)]]|]. split; [|exact C2].
          exists Rp. auto.
    - destruct (handler read_id decode_block cfg chk (k_in k) ok late) as [s1|] eqn:Eh; [|discriminate]. injection Es as -> <-. apply handler_c in Eh.
      destruct (k_wait k) as [enum|]; cbn [answer_of] in E; injection E as <-; (eapply Quiet; [reflexivity|reflexivity|discriminate|]); rewrite Eh; exact Hw.
    - injection Es as <- <-. destruct (k_wait k) as [enum|]; cbn [answer_of] in E; injection E as <-; (eapply Quiet; [reflexivity|reflexivity|discriminate|]); exact Hw.
  Qed.

  Notation k_step := (k_step read_id decode_block cfg chk (Some start)).
  Notation k_run := (k_run read_id decode_block cfg chk (Some start)).

  Lemma k_step_chains k a k' : k_step k a = Some k' -> exists more, k_chains k' = k_chains k ++ more.
  Proof.
    intro E. assert (K : forall w wt s o, exists more, k_chains (Stack w wt s (k_seen k ++ o) (k_past k) (k_base k)) = k_chains k ++ more).
    { intros. rewrite !k_chains_had. cbn [k_past k_base k_seen]. rewrite had_app. eauto. }
    assert (Ki : forall a, k_inner read_id decode_block cfg chk (Some start) k a = Some k' -> exists more, k_chains k' = k_chains k ++ more).
    { intros a' E'. unfold k_inner in E'. destruct (step (k_in k) a') as [[s' o]|]; [|discriminate].
      destruct (k_wait k) as [enum|], (answer_of o) as [ans|]; try (injection E' as <-; apply K).
      destruct (w_step _ _ _ _); [|discriminate]. injection E' as <-. apply K. }
    destruct a as [enum| |ok late|c| |enum]; cbn [StackModel.k_step] in E; [|by apply Ki in E..| |].
    - destruct (k_wait k); [discriminate|]. destruct (ms_checkpoints _ _ _ _) as [r|cps].
      + destruct (w_step _ _ _ _); [|discriminate]. injection E as <-. exists []. by rewrite app_nil_r.
      + destruct (step (k_in k) _) as [[s' o]|]; [|discriminate]. injection E as <-. apply K.
    - destruct (k_wait k); [|discriminate]. destruct (step (k_in k) _) as [[s' o]|]; [|discriminate]. injection E as <-. apply K.
    - destruct (w_step _ _ _ _); [|discriminate]. injection E as <-. eexists. reflexivity.
  Qed.
  Lemma k_chains_nonempty k : k_chains k <> [].
  Proof. unfold k_chains. by destruct (k_past k). Qed.

  Definition ok_kact (a : kact) : Prop := match a with KHandler ok _ => ok = true | _ => True end.
  Lemma kinvh_step h g k a k' : kact_fair a -> (g = true -> ok_kact a) -> kinvh h g k -> k_step k a = Some k' -> node_ok (k_chains k') -> kinvh h g k'.
  Proof.
    intros Hfair Hga K E Ok. pose proof K as ((l & Hl & Hg) & (s & D & W & Ha) & (Rp & HR & I) & Hw).
    destruct (k_step_chains _ _ _ E) as [more Hmore].
    assert (Ok0 : node_ok (k_chains k)) by (rewrite Hmore in Ok; eapply node_ok_prefix; [apply k_chains_nonempty|exact Ok]).
    destruct a as [enum| |ok late|c| |enum]; cbn [StackModel.k_step] in E.
    - destruct (k_wait k) as [|] eqn:Ew; [discriminate|]. destruct (ms_checkpoints point_of enum _ _) as [r|cps] eqn:Ecp.
      + destruct (w_step point_of (Some start) (k_world k) (SourceSpec.Pull enum ANone true)) as [w'|] eqn:Ews; [|discriminate]. injection E as <-.
        assert (ER : w_received w' = w_received (k_world k)).
        { cbn in Ews. unfold ms_pull in Ews. rewrite Ecp in Ews. injection Ews as <-. apply app_nil_r. }
        destruct (w_step_ok point_of points_ok_point_of d (Some start) (k_world k) s D (SourceSpec.Pull enum ANone true) w') as (s1 & D1 & W1 & Ha1).
        * exact Hfair.
        * right. reflexivity.
        * exact W.
        * exact Ews.
        * rewrite ER, HR. apply (si_grows _ _ _ _ I).
        * split; [exists l; auto|]. split; [exists s1, D1; split; [exact W1|intro Hh; apply Ha1; [reflexivity|exact (Ha Hh)]]|]. split; [|exact Hw].
          exists Rp. cbn [k_world]. rewrite ER. auto.
      + destruct (step (k_in k) (CardanoModel.Pull (to_point <$> cps))) as [[s' o]|] eqn:Es; [|discriminate]. injection E as <-.
        pose proof (run_snoc _ _ _ _ _ _ _ Hl Es) as Hl'. cbn [CardanoModel.step] in Es. rewrite Hw in Es. destruct (s_open (k_in k)); [|discriminate]. injection Es as <- <-.
        split; [eexists; split; [exact Hl'|intro X; apply Forall_app; split; [auto|constructor; [exact Logic.I|constructor]]]|]. split; [exists s, D; auto|]. split; [|split; [exact Hfair|]; exists cps; split; [exact Ecp|left; reflexivity]].
        exists Rp. cbn [k_world k_seen k_past k_base]. split; [rewrite R_of_app; cbn; by rewrite app_nil_r|].
        eapply sinv_snoc; [by rewrite Hl'|exact Ok|discriminate|exact I].
    - apply (kinvh_inner h g k Caller); eauto.
    - apply (kinvh_inner h g k (Handler ok late)); eauto.
    - apply (kinvh_inner h g k (Node c)); eauto.
    - destruct (k_wait k) as [enum|]; [|discriminate]. destruct (step (k_in k) Cancel) as [[s' o]|] eqn:Es; [|discriminate]. injection E as <-.
      pose proof (run_snoc _ _ _ _ _ _ _ Hl Es) as Hl'. cbn [CardanoModel.step] in Es.
      assert (s' = set_c (k_in k) CIdle /\ o = []) as [-> ->] by (destruct (s_c (k_in k)); [discriminate| | |]; injection Es as <- <-; auto).
      rewrite app_nil_r in *. split; [eexists; split; [exact Hl'|intro X; apply Forall_app; split; [auto|constructor; [exact Logic.I|constructor]]]|]. split; [exists s, D; auto|]. split; [|reflexivity]. exists Rp. auto.
    - destruct (w_step point_of (Some start) (k_world k) (Reopen enum)) as [w'|] eqn:Ews; [|discriminate]. injection E as <-.
      assert (ER : w_received w' = w_received (k_world k)).
      { cbn in Ews. destruct (mv_load_from _ _); [|discriminate..]. destruct (ms_new _ _ _); [|discriminate..]. injection Ews as <-. reflexivity. }
      destruct (w_step_ok point_of points_ok_point_of d (Some start) (k_world k) s D (Reopen enum) w') as (s1 & D1 & W1 & Ha1).
      + exact Hfair.
      + right. exact Logic.I.
      + exact W.
      + exact Ews.
      + rewrite ER, HR. apply (si_grows _ _ _ _ I).
      + split; [exists []; split; [reflexivity|constructor]|]. split; [exists s1, D1; split; [exact W1|intro Hh; apply Ha1; [exact Logic.I|exact (Ha Hh)]]|]. split; [|reflexivity].
        exists (R_of Rp (k_seen k)). cbn [k_world k_seen k_past k_base]. split; [rewrite ER, HR; symmetry; apply app_nil_r|].
        apply sinv_restart; [exact I|exact Ok0].
  Qed.

  Lemma kinv_start g : kinv g (k_start d c0).
  Proof. apply kinvh_start. Qed.
  Lemma kinv_step g k a k' : kact_fair a -> (g = true -> ok_kact a) -> kinv g k -> k_step k a = Some k' -> node_ok (k_chains k') -> kinv g k'.
  Proof. apply kinvh_step. Qed.

  Lemma k_run_chains l : forall k, exists more, k_chains (k_run k l) = k_chains k ++ more.
  Proof.
    induction l as [|a l IH]; intro k; [exists []; by rewrite app_nil_r|].
    cbn [StackModel.k_run]. destruct (k_step k a) as [k'|] eqn:E; [|apply IH]. destruct (IH k') as [m1 E1]. destruct (k_step_chains _ _ _ E) as [m2 E2].
    exists (m2 ++ m1). rewrite E1, E2, app_assoc. reflexivity.
  Qed.
  Lemma kinvh_run h g l : Forall kact_fair l -> (g = true -> Forall ok_kact l) -> forall k, kinvh h g k -> node_ok (k_chains (k_run k l)) -> kinvh h g (k_run k l).
  Proof.
    induction 1 as [|a l Ha _ IH]; intros Hg k K Ok; cbn [StackModel.k_run] in *; [exact K|].
    assert (Hga : g = true -> ok_kact a) by (intro X; specialize (Hg X); by inversion Hg). assert (Hgl : g = true -> Forall ok_kact l) by (intro X; specialize (Hg X); by inversion Hg).
    destruct (k_run_chains l (match k_step k a with Some k' => k' | None => k end)) as [more M].
    apply (IH Hgl); [|exact Ok]. rewrite M in Ok. apply node_ok_prefix in Ok; [|apply k_chains_nonempty].
    destruct (k_step k a) as [k'|] eqn:E; [|exact K]. eapply kinvh_step; eauto.
  Qed.
  Lemma kinv_run g l : Forall kact_fair l -> (g = true -> Forall ok_kact l) -> forall k, kinv g k -> node_ok (k_chains (k_run k l)) -> kinv g (k_run k l).
  Proof. apply kinvh_run. Qed.

  (** ** what the consumer has *)
  Lemma lookup_window {A} (D C : list A) n : (forall i x, D !! i = Some x -> C !! (n + i)%nat = Some x) -> exists rest, drop n C = D ++ rest.
  Proof.
    clear. intro K. exists (drop (length D) (drop n C)). rewrite <- (take_drop (length D) (drop n C)) at 1. f_equal. apply list_eq. intro i.
    destruct (decide (i < length D)%nat) as [Hi|Hi].
    - rewrite lookup_take by done. rewrite lookup_drop. destruct (lookup_lt_is_Some_2 D i Hi) as [x Hx]. rewrite Hx. by apply K.
    - rewrite lookup_take_ge by lia. symmetry. apply lookup_ge_None. lia.
  Qed.

  Lemma kh_node h g k : kinvh h g k -> last (k_chains k) = Some (s_node (k_in k)).
  Proof.
    intros ((l & Hl & _) & _). assert (I := reach read_id decode_block cfg chk false (k_base k) l ltac:(discriminate) ltac:(discriminate)). rewrite Hl in I. cbn [fst snd] in I.
    rewrite (i_node _ _ _ _ _ _ _ I), looks_node. cbn [fst]. rewrite k_chains_had. unfold had. rewrite last_app.
    assert (K : forall (x : list nblock) l, last (x :: l) = Some (List.last l x)).
    { clear. intros x l. revert x. induction l as [|y l IH]; intro x; [reflexivity|]. change (last (x :: y :: l)) with (last (y :: l)). rewrite IH. f_equal. apply last_cons_default. }
    rewrite K. reflexivity.
  Qed.
  Lemma k_node g k : kinv g k -> last (k_chains k) = Some (s_node (k_in k)).
  Proof. apply kh_node. Qed.

  Lemma kh_accepted h g k : kinvh h g k -> node_ok (k_chains k) ->
    exists Rp s D, w_received (k_world k) = R_of Rp (k_seen k) /\ sinv (k_past k) (k_base k) Rp (k_seen k) /\ inv d (s_blocks s) (R_of Rp (k_seen k)) D /\ winv (k_world k) s D /\ (h = true -> w_accepted (k_world k) = D) /\
    (forall x, x ∈ D -> exists c i b, c ∈ k_chains k /\ c !! i = Some b /\ x = blk b /\ (i + d < length c)%nat) /\
    (forall i x, D !! i = Some x -> map blk (s_node (k_in k)) !! (length pre + 1 + i)%nat = Some x).
  Proof.
    intros K Ok. pose proof (kh_node h g k K) as Hlast. destruct K as (_ & (s & D & W & Ha) & (Rp & HR & I) & _).
    pose proof W as (Rl & _ & Iv & _). rewrite HR in Iv. exists Rp, s, D. do 5 (split; [assumption|]).
    set (R := R_of Rp (k_seen k)) in *. pose proof (i_chain _ _ _ _ Iv) as Sc.
    assert (HP : forall x, x ∈ R -> prov (k_chains k) (length (k_chains k) - 1) x).
    { intros x Hx. eapply prov_mono; [|apply (si_prov _ _ _ _ I (k_seen k) [] ltac:(by rewrite app_nil_r) x Hx)].
      rewrite k_chains_had. unfold had. rewrite app_length. cbn [length]. lia. }
    set (n := (length (k_chains k) - 1)%nat) in *.
    assert (Hn : (map blk <$> k_chains k) !! n = Some (map blk (s_node (k_in k)))). { rewrite list_lookup_fmap. unfold n. rewrite Nat.sub_1_r, <- last_lookup, Hlast. reflexivity. }
    assert (Hdeep : forall x, x ∈ D -> exists t i c j, (j <= n)%nat /\ k_chains k !! j = Some c /\ map blk c !! i = Some t /\ (d <= i)%nat /\ map blk c !! (i - d)%nat = Some x /\ (exists i', map blk (s_node (k_in k)) !! i' = Some x)).
    { intros x Hx. apply (sc_exact _ _ _ Sc) in Hx as (P & Q & EPQ & t & [Ht _] & Hb).
      assert (HPP : forall y, y ∈ P -> prov (k_chains k) n y) by (intros y Hy; apply HP; rewrite EPQ; apply elem_of_app; by left).
      destruct (HPP t Ht) as (j & C & i & Hj & HC & Hi & Hx). pose proof HC as HC'. rewrite list_lookup_fmap in HC'. apply fmap_Some in HC' as (c & Hc & ->).
      destruct (back_on_chain (H_of (k_chains k)) (map blk pre) (blk b0) (blk b1) (n_start _ Ok) (n_linked _ Ok) (n_ids _ Ok) P n HPP d t x Hb (map blk c) i) as [Hd Hix].
      { by eapply elem_of_list_lookup_2. } { done. }
      exists t, i, c, j. do 5 (split; [done|]).
      destruct (deep_stays d (H_of (k_chains k)) (map blk pre) (blk b0) (blk b1) (n_start _ Ok) (n_linked _ Ok) (n_ids _ Ok) (n_common _ Ok) P n t x n _ HPP Ht Hb Hn) as (i' & Hi' & _); [|eauto].
      exists j, (map blk c), i. done. }
    split.
    - intros x Hx. destruct (Hdeep x Hx) as (t & i & c & j & _ & Hc & Hi & Hd & Hix & _). apply n_lookup in Hix as (b & Hb & ->).
      exists c, (i - d)%nat, b. split; [by eapply elem_of_list_lookup_2|]. split; [done|]. split; [done|]. apply lookup_lt_Some in Hi. rewrite List.map_length in Hi. lia.
    - intros i x Hi. destruct (Hdeep x) as (_ & _ & _ & _ & _ & _ & _ & _ & _ & i' & Hi'); [by eapply elem_of_list_lookup_2|].
      assert (HC : map blk (s_node (k_in k)) ∈ H_of (k_chains k)) by (by eapply elem_of_list_lookup_2).
      destruct (sc_first _ _ _ Sc) as [HD|HD]; [rewrite HD in Hi; discriminate|].
      destruct (si_head _ _ _ _ I) as [HRn|HRh]. { fold R in HRn. rewrite HRn in HD. destruct D; discriminate. } fold R in HRh. rewrite HRh in HD.
      pose proof (linked_nums _ (sc_linked _ _ _ Sc) i x (blk b1) Hi HD) as Hnum.
      pose proof (idx (H_of (k_chains k)) (map blk pre) (blk b0) (blk b1) (n_start _ Ok) (n_linked _ Ok) _ _ _ HC Hi') as Hx.
      destruct (n_start _ Ok _ HC) as [_ S1].
      pose proof (idx (H_of (k_chains k)) (map blk pre) (blk b0) (blk b1) (n_start _ Ok) (n_linked _ Ok) _ _ _ HC S1) as H1.
      rewrite List.map_length in *. replace (length pre + 1 + i)%nat with i' by lia. done.
  Qed.

  Lemma k_accepted g k : kinv g k -> node_ok (k_chains k) ->
    exists Rp s D, w_received (k_world k) = R_of Rp (k_seen k) /\ sinv (k_past k) (k_base k) Rp (k_seen k) /\ inv d (s_blocks s) (R_of Rp (k_seen k)) D /\ w_accepted (k_world k) = D /\
    (forall x, x ∈ D -> exists c i b, c ∈ k_chains k /\ c !! i = Some b /\ x = blk b /\ (i + d < length c)%nat) /\
    (forall i x, D !! i = Some x -> map blk (s_node (k_in k)) !! (length pre + 1 + i)%nat = Some x).
  Proof.
    intros K Ok. destruct (kh_accepted _ _ _ K Ok) as (Rp & s & D & H1 & H2 & H3 & _ & H4 & H5). exists Rp, s, D. do 3 (split; [assumption|]). split; [by apply H4|exact H5].
  Qed.

  (** ** the fork-handling source over the Cardano source *)
  Lemma back_ext R F n t x : (forall y, y ∈ R <-> y ∈ F) -> back R n t x -> back F n t x.
  Proof. intros E. apply back_mono. intros y Hy. by apply E. Qed.
  Lemma settled_ext R F x : (forall y, y ∈ R <-> y ∈ F) -> settled d R x -> settled d F x.
  Proof.
    intros E (t & [Ht Hm] & Hb). exists t. split; [|by eapply back_ext]. split; [by apply E|]. intros y Hy. apply Hm. by apply E.
  Qed.
  Lemma grows_ext_snoc R F b : (forall y, y ∈ R <-> y ∈ F) -> grows d F -> b ∉ F -> grows d (R ++ [b]) -> grows d (F ++ [b]).
  Proof.
    intros E G Hb Gr. apply grows_snoc_inv in Gr as [_ [(-> & H1 & H2)|[H|(p & Hp & H1 & H2 & H3 & H4 & H5)]]].
    - destruct F as [|x F]; [by apply grows_first|]. assert (x ∈ []) as X by (apply E; left). inversion X.
    - exfalso. apply Hb. by apply E.
    - apply (grows_child _ _ p); [done|by apply E|done|done|done| |].
      + intros x Hx. apply H4. by apply E.
      + intros x Hx. destruct (H5 x) as [n Hn]; [eapply settled_ext; [|exact Hx]; intro; by rewrite E|]. exists n. by eapply back_ext.
  Qed.
  Lemma well_asked_ext R F f : (forall y, y ∈ R <-> y ∈ F) -> well_asked F f -> well_asked R f.
  Proof.
    intros E (W1 & W2 & W3). split; [|split].
    - intros q Hq. destruct (W1 q Hq) as (p & -> & [-> |(x & Hx & Hp)]); [eauto|]. exists p. split; [done|]. right. exists x. split; [by apply E|done].
    - intros x Hx. apply W2. by eapply settled_ext.
    - intro X. destruct (W3 X) as [[x Hx]|?]; [left|by right]. exists x. eapply settled_ext; [|exact Hx]. intro. by rewrite E.
  Qed.

  Lemma f_run_snoc (w : fworld (point := opoint)) acts a : f_run point_of w (acts ++ [a]) = f_step point_of (f_run point_of w acts) a.
  Proof. revert w. induction acts as [|b acts IH]; intro w; [reflexivity|]. cbn [app f_run]. apply IH. Qed.
  Lemma first_snoc acts : forall (w : fworld (point := opoint)) enum from ans, first_has_point point_of w acts -> from <> None ->
    first_has_point point_of w (acts ++ [FPull enum from ans]).
  Proof.
    induction acts as [|[e f a] acts IH]; intros w enum from ans H Hf; cbn [app first_has_point] in *; [auto|]. destruct H as [H1 H2]. split; [exact H1|]. by apply IH.
  Qed.

  (** what a pull of the fork-handling source receives *)
  Lemma fh_received (w : fworld (point := opoint)) enum from ans cps : fh_events (f_source w) = [] -> fh_checkpoints point_of enum (f_source w) from = inr cps ->
    f_received (f_step point_of w (FPull enum from ans)) = f_received w ++
      match ans with AEvent (EvBlock b) => match mv_get (fh_mv (f_source w)) (b_id b) with Some _ => [] | None => [b] end | _ => [] end.
  Proof.
    intros Hq Hc. unfold f_step, fh_pull. rewrite Hq, Hc. destruct ans as [| |[t|b]]; try reflexivity.
    destruct (mv_get (fh_mv (f_source w)) (b_id b)); [reflexivity|].
    destruct (insert_and_gc enum (fh_mv (f_source w)) b (fh_depth (f_source w))) as [[m' sel]| |]; [|reflexivity..].
    destruct (fh_switch point_of m' [] (fh_last (f_source w)) b from) as [q' r'] eqn:Esw.
    pose proof (fh_switch_not_none point_of m' [] (fh_last (f_source w)) b from) as Hn. rewrite Esw in Hn. cbn in Hn |- *. by destruct r'.
  Qed.
  Lemma fh_quiet (k : fstack) enum from ans : kf_asks enum from k = None -> f_received (f_step point_of (f_world k) (FPull enum from ans)) = f_received (f_world k).
  Proof.
    unfold kf_asks, f_step, fh_pull. destruct (fh_events (f_source (f_world k))); [|intros _; apply app_nil_r].
    destruct (fh_checkpoints _ _ _ _); [|discriminate]. intros _. apply app_nil_r.
  Qed.

  Definition finv_acts (w : fworld (point := opoint)) : Prop :=
    (exists s, finv point_of w s) /\ Forall fine (f_results w).
  Lemma finv_acts_step w a : finv_acts w -> fpull_fair a -> grows d (f_received (f_step point_of w a)) -> fork_point_stored point_of w a -> finv_acts (f_step point_of w a).
  Proof.
    intros [[s F] Fi] Ha G Hfork. destruct (f_step_ok point_of points_ok_point_of w s a F Ha (tree_sane _ (grows_tree _ _ G)) Hfork) as (r & s' & Er & Hfine & _ & F').
    split; [by exists s'|]. rewrite Er. apply Forall_app. split; [done|]. by constructor.
  Qed.
  (** past: the chains that the node had before the process was started; Rp: the blocks that the Cardano source had given before *)
  Section sessions.
  Context (past : list (list nblock)) (Rp : list block).
  Definition rchains (k : fstack) : list (list nblock) := past ++ kf_chains k.
  Definition kfinvp (k : fstack) : Prop :=
    (exists l, run (initial (f_base k)) l = (f_in k, f_seen k)) /\
    finv_acts (f_world k) /\
    (exists s D, ginv d (f_world k) s D) /\
    sinv past (f_base k) Rp (f_seen k) /\
    ((forall x, x ∈ R_of Rp (f_seen k) <-> x ∈ f_received (f_world k)) /\ grows d (f_received (f_world k)) /\ NoDup (f_received (f_world k)) /\
     head (f_received (f_world k)) = head (R_of Rp (f_seen k))) /\
    match f_wait k with
    | None => s_c (f_in k) = CIdle
    | Some (enum, from) => fair enum /\ from <> None /\ exists cps, kf_asks enum from k = Some cps /\ well_asked (f_received (f_world k)) (to_point <$> cps) /\ cps <> [] /\
        exists cps', (forall p, p ∈ cps' <-> p ∈ cps) /\ (s_c (f_in k) = CRecv (to_point <$> cps') \/ s_c (f_in k) = CSend (to_point <$> cps') \/ s_c (f_in k) = CWait)
    end.

  Lemma fork_consumed w : finv_acts w -> grows d (f_received w) -> NoDup (f_received w) ->
    follows (f_received w) (consumed point_of w) /\ (forall b, b ∈ consumed point_of w -> b ∈ f_received w) /\ Forall fine (f_results w).
  Proof.
    intros [[s F] Fi] _ _. split; [apply (fi_follows _ _ _ F)|]. split; [apply (fi_chain _ _ _ F)|exact Fi].
  Qed.

  Lemma fh_asks enum k s D cps : anchored = false -> fair enum -> finv_acts (f_world k) -> grows d (f_received (f_world k)) -> NoDup (f_received (f_world k)) -> ginv d (f_world k) s D ->
    kf_asks enum (kf_from (Some start) k) k = Some cps -> well_asked (f_received (f_world k)) (to_point <$> cps) /\ cps <> [].
  Proof.
    intros NA Hf Ac G ND Gi E. unfold kf_asks in E. destruct (fh_events (f_source (f_world k))) eqn:Eq; [|discriminate].
    destruct (fork_consumed _ Ac G ND) as (_ & Hcon & _). unfold consumed in Hcon. rewrite Eq in Hcon. cbn [foldl] in Hcon.
    destruct Gi as [Rl F0 I Hconf Hdep Hlast _].
    assert (conf_ok (fh_mv (f_source (f_world k))) (fh_confirmed (f_source (f_world k)))) as Hco.
    { rewrite Hconf. intros key Hk. destruct (last D) as [c|] eqn:El; [|done]. injection Hk as <-.
      exists c. apply (rel_get_in _ _ _ Rl). apply (i_elem _ _ _ _ I). unfold kept. rewrite El. pose proof (i_top _ _ _ _ I) as Ht. rewrite El in Ht. split; [apply Ht|lia]. }
    rewrite (fh_checkpoints_ok point_of points_ok_point_of enum _ _ s Hf Rl Hco) in E. injection E as <-.
    assert (Hst : forall key x, mv_get (fh_mv (f_source (f_world k))) key = Some x -> x ∈ f_received (f_world k)).
    { intros key x Hx. apply (rel_get_some _ _ _ _ Rl) in Hx as [Hx _]. by apply (i_elem _ _ _ _ I) in Hx. }
    assert (Hfrom : exists p, kf_from (Some start) k = Some p /\ (p = start \/ exists x, x ∈ f_received (f_world k) /\ point_of x = Some p)).
    { unfold kf_from. destruct (last (f_chain (f_world k))) as [b|] eqn:El; [|eauto]. eexists. split; [reflexivity|]. right. exists b. split; [|reflexivity].
      apply Hcon. apply last_Some in El as [q ->]. apply elem_of_app. right. left. }
    destruct Hfrom as (p & Hp & Hpo). rewrite Hp. cbn [option_list]. split.
    2:{ intro X. apply app_eq_nil in X as [_ X]. by apply app_eq_nil in X as [_ X]. }
    split; [|split; [|congruence]].
    - intros q Hq. apply elem_of_list_fmap in Hq as (p' & -> & Hq). exists p'. split; [done|]. apply elem_of_app in Hq as [Hq|Hq]; [|apply elem_of_app in Hq as [Hq|Hq]].
      + right. apply elem_of_list_omap in Hq as (key & _ & Hk). destruct (mv_get (fh_mv (f_source (f_world k))) key) as [x|] eqn:Eg; [|discriminate]. cbn in Hk. eauto.
      + right. destruct (fh_confirmed (f_source (f_world k))) as [key|]; [|inversion Hq]. cbn in Hq.
        destruct (mv_get (fh_mv (f_source (f_world k))) key) as [x|] eqn:Eg; [|inversion Hq]. cbn in Hq. apply elem_of_list_singleton in Hq as ->. exists x. split; [eauto|reflexivity].
      + apply elem_of_list_singleton in Hq as ->. exact Hpo.
    - intros x Hx. pose proof Hx as Hx'. apply (inv_settled _ _ _ _ x I) in Hx'. exists (slot_of x, b_id x). split; [reflexivity|].
      apply elem_of_list_fmap_1. apply elem_of_app. right. apply elem_of_app. left. rewrite Hconf, Hx'. cbn.
      rewrite (rel_get_in _ _ _ Rl); [left|]. apply (i_elem _ _ _ _ I). unfold kept. rewrite Hx'. pose proof (i_top _ _ _ _ I) as Ht. rewrite Hx' in Ht. split; [apply Ht|lia].
  Qed.


  Lemma rchains_had k : rchains k = had past (f_base k) (f_seen k).
  Proof. reflexivity. Qed.

  Lemma kfinvp_inner k a k' : kfinvp k -> a = Caller \/ (exists ok late, a = Handler ok late) \/ (exists c, a = Node c) ->
    kf_inner read_id decode_block cfg chk k a = Some k' -> node_ok (rchains k') -> kfinvp k'.
  Proof.
    intros ((l & Hl) & Ac & (s & D & Gi) & I & (Hs & G & ND & Hh) & Hw) Hact E Ok. unfold kf_inner in E.
    destruct (step (f_in k) a) as [[s' o]|] eqn:Es; [|discriminate]. pose proof (run_snoc _ _ _ _ _ _ _ Hl Es) as Hl'.
    assert (Quiet : forall w', k' = FStack (f_world k) w' s' (f_seen k ++ o) (f_base k) -> blocks o = [] ->
      (forall f, o = [Asked f] -> well_asked (f_received (f_world k)) f) ->
      match w' with
      | None => s_c s' = CIdle
      | Some (enum, from) => fair enum /\ from <> None /\ exists cps, kf_asks enum from k = Some cps /\ well_asked (f_received (f_world k)) (to_point <$> cps) /\ cps <> [] /\
        exists cps', (forall p, p ∈ cps' <-> p ∈ cps) /\ (s_c s' = CRecv (to_point <$> cps') \/ s_c s' = CSend (to_point <$> cps') \/ s_c s' = CWait)
      end -> kfinvp k').
    { intros w' -> Hb Hk Hw'. split; [exists (l ++ [a]); exact Hl'|]. split; [exact Ac|]. split; [exists s, D; exact Gi|].
      assert (ER : R_of Rp (f_seen k ++ o) = R_of Rp (f_seen k)) by (rewrite R_of_app, Hb; apply app_nil_r).
      split; [|split; [cbn [f_world f_seen]; rewrite ER; auto|exact Hw']].
      cbn [f_world f_seen f_base]. destruct (step_seen _ _ _ _ _ _ _ _ Es) as [-> |[x ->]]; [by rewrite app_nil_r|].
      apply (sinv_snoc _ _ _ (l ++ [a])); [by rewrite Hl'|exact Ok| |exact I]. intros f ->. eapply well_asked_ext; [exact Hs|]. by apply Hk. }
    destruct Hact as [-> |[(ok & late & ->)|(c & ->)]]; cbn [CardanoModel.step] in Es.
    - destruct (caller_cases _ _ _ Es) as [(f & C1 & C2 & Ho)|[(f & C1 & C2 & Ho)|(C1 & C2 & x & ans & Ho & Hx & Hc & Hans & Hb)]].
      + destruct (f_wait k) as [[enum from]|] eqn:Ew; [|congruence]. destruct Hw as (Hf & Hfr & cps & Hcp & Hwa & Hne & cps' & Hcc' & Hcc).
        assert (f = to_point <$> cps') as -> by (rewrite C1 in Hcc; destruct Hcc as [X|[X|X]]; congruence).
        assert (An : answer_of o = None) by (destruct Ho as [-> | ->]; reflexivity). rewrite An in E. injection E as <-.
        eapply Quiet; [reflexivity|destruct Ho as [-> | ->]; reflexivity|intros f ->; destruct Ho; discriminate|].
        split; [exact Hf|]. split; [exact Hfr|]. exists cps. do 3 (split; [assumption|]). exists cps'. auto.
      + destruct (f_wait k) as [[enum from]|] eqn:Ew; [|congruence]. destruct Hw as (Hf & Hfr & cps & Hcp & Hwa & Hne & cps' & Hcc' & Hcc).
        assert (f = to_point <$> cps') as -> by (rewrite C1 in Hcc; destruct Hcc as [X|[X|X]]; congruence).
        assert (Hne' : cps' <> []). { intros ->. destruct cps as [|p cps]; [done|]. assert (X : p ∈ []) by (apply Hcc'; left). inversion X. }
        assert (Ef : match to_point <$> cps' with [] => [cf_from cfg] | _ => to_point <$> cps' end = to_point <$> cps') by (destruct cps'; [done|reflexivity]).
        rewrite Ef in Ho. subst o. cbn [answer_of] in E. injection E as <-.
        assert (Hin : forall q, q ∈ to_point <$> cps' <-> q ∈ to_point <$> cps).
        { intro q. rewrite !elem_of_list_fmap. split; intros (p & ? & Hp); exists p; (split; [done|]); by apply Hcc'. }
        eapply Quiet; [reflexivity|reflexivity| |].
        * intros f X. injection X as <-. destruct Hwa as (Wa & Wb & Wc). split; [intros q Hq; apply Wa, Hin, Hq|]. split.
          { intros y Hy. destruct (Wb y Hy) as (p & ? & ?). exists p. split; [done|]. by apply Hin. }
          intro X. destruct (Wc X); [by left|right; by apply Hin].
        * split; [exact Hf|]. split; [exact Hfr|]. exists cps. do 3 (split; [assumption|]). exists cps'. auto.
      + subst o. rewrite Hans in E. destruct (f_wait k) as [[enum from]|] eqn:Ew; [|congruence]. destruct Hw as (Hf & Hfr & cps & Hcp & Hwa & Hne & _).
        injection E as <-.
        assert (I' : sinv past (f_base k) Rp (f_seen k ++ [x])).
        { apply (sinv_snoc _ _ _ (l ++ [Caller])); [by rewrite Hl'|exact Ok| |exact I]. intros f X. by destruct (Hx f). }
        unfold kf_asks in Hcp. destruct (fh_events (f_source (f_world k))) eqn:Eq; [|discriminate]. destruct (fh_checkpoints point_of enum (f_source (f_world k)) from) as [|cps0] eqn:Ecp; [discriminate|].
        pose proof (fh_received (f_world k) enum from ans cps0 Eq Ecp) as EF.
        set (new := match ans with AEvent (EvBlock b) => match mv_get (fh_mv (f_source (f_world k))) (b_id b) with Some _ => [] | None => [b] end | _ => [] end) in *.
        assert (ER : R_of Rp (f_seen k ++ [x]) = R_of Rp (f_seen k) ++ block_of_answer ans) by (rewrite R_of_app, Hb; reflexivity).
        assert (Inv : (forall y, y ∈ R_of Rp (f_seen k ++ [x]) <-> y ∈ f_received (f_world k) ++ new) /\ grows d (f_received (f_world k) ++ new) /\ NoDup (f_received (f_world k) ++ new) /\
                      head (f_received (f_world k) ++ new) = head (R_of Rp (f_seen k ++ [x]))).
        { rewrite ER. destruct ans as [| |[t|b]]; cbn [block_of_answer] in *; unfold new; try (rewrite !app_nil_r; auto).
          assert (exists e, x = Got (MBlock e) /\ of_event e = b) as (e & -> & Eb).
          { destruct x as [| |[|e|]| | | |]; try discriminate Hb. exists e. split; [reflexivity|]. by injection Hb. }
          destruct (got_step past (f_base k) Rp (l ++ [Caller]) (f_seen k) e) as (Gb & Hhb & Pb & Hnum); [by rewrite Hl'|exact Ok|exact I|].
          rewrite Eb in *. destruct Gi as [Rl F0 Iv Hconf Hdep Hlast _].
          destruct (mv_get (fh_mv (f_source (f_world k))) (b_id b)) as [z|] eqn:Eg.
          - (* already stored, so already received *)
            apply (rel_get_some _ _ _ _ Rl) in Eg as [Ez Eid]. apply (i_elem _ _ _ _ Iv) in Ez.
            assert (Ok0 : node_ok (had past (f_base k) (f_seen k))).
            { unfold rchains, kf_chains in Ok. cbn [f_base f_seen] in Ok. change (node_ok (had past (f_base k) (f_seen k ++ [Got (MBlock e)]))) in Ok. rewrite had_app in Ok. change (chains [Got (MBlock e)]) with (@nil (list nblock)) in Ok. rewrite app_nil_r in Ok. exact Ok. }
            assert (z = b) as ->.
            { apply Hs in Ez. assert (Pz := si_prov _ _ _ _ I (f_seen k) [] ltac:(by rewrite app_nil_r) z Ez).
              destruct (prov_block _ _ _ Pz) as (cz & bz & Hcz & Hbz & ->). destruct (prov_block _ _ _ Pb) as (cb & bb & Hcb & Hbb & Ebb).
              rewrite Ebb in *. f_equal. by apply (n_hash _ Ok0 cz cb). }
            rewrite !app_nil_r. split; [|split; [done|split; [done|]]].
            + intro y. rewrite elem_of_app, <- Hs. split; [intros [?|Hy]; [done|apply elem_of_list_singleton in Hy as ->; by apply Hs]|auto].
            + rewrite Hh. apply Hs in Ez. destruct (R_of Rp (f_seen k)); [inversion Ez|reflexivity].
          - assert (Hnew : b ∉ f_received (f_world k)).
            { intro Hin. apply (rel_get_none _ _ _ Rl) in Eg. apply Eg. apply elem_of_list_fmap_1. apply (i_elem _ _ _ _ Iv). split; [done|]. unfold kept.
              destruct (last D) as [c|] eqn:El; [|done]. assert (settled d (f_received (f_world k)) c) as Hc' by (by apply (inv_settled _ _ _ _ c Iv)).
              assert (b_num c < b_num b); [|lia]. apply Hnum. eapply settled_ext; [|exact Hc']. intro. by rewrite Hs. }
            split; [|split; [|split]].
            + intro y. rewrite !elem_of_app. by rewrite Hs.
            + by apply (grows_ext_snoc (R_of Rp (f_seen k))).
            + apply NoDup_app. split; [done|]. split; [|apply NoDup_singleton]. intros y Hy Hy'. apply elem_of_list_singleton in Hy' as ->. done.
            + destruct (R_of Rp (f_seen k)) as [|r R]; cbn in Hh |- *; [|destruct (f_received (f_world k)); [discriminate|exact Hh]].
              destruct (f_received (f_world k)); [reflexivity|discriminate]. }
        destruct Inv as (Hs' & G' & ND' & Hh'). rewrite <- EF in Hs', G', ND', Hh'.
        destruct (g_step point_of points_ok_point_of d (f_world k) s D (FPull enum from ans) Gi Hf G' ND') as (Hfork & s1 & D1 & Gi1).
        { intros ? ? ? X _. by injection X as _ <- _. }
        split; [exists (l ++ [Caller]); exact Hl'|]. split.
        { by apply (finv_acts_step _ (FPull enum from ans)). }
        split; [exists s1, D1; exact Gi1|]. split; [exact I'|]. split; [|exact C2]. auto.
    - destruct (handler read_id decode_block cfg chk (f_in k) ok late) as [s1|] eqn:Eh; [|discriminate]. injection Es as -> <-. apply handler_c in Eh.
      destruct (f_wait k) as [[enum from]|]; cbn [answer_of] in E; injection E as <-; (eapply Quiet; [reflexivity|reflexivity|discriminate|]); rewrite Eh; exact Hw.
    - injection Es as <- <-. destruct (f_wait k) as [[enum from]|]; cbn [answer_of] in E; injection E as <-; (eapply Quiet; [reflexivity|reflexivity|discriminate|]); exact Hw.
  Qed.

  Notation kf_step := (kf_step read_id decode_block cfg chk (Some start)).
  Notation kf_run := (kf_run read_id decode_block cfg chk (Some start)).

  Lemma rstep_chains k a k' : kf_step k a = Some k' -> exists more, rchains k' = rchains k ++ more.
  Proof.
    intro E. assert (K : forall w wt s o, exists more, rchains (FStack w wt s (f_seen k ++ o) (f_base k)) = rchains k ++ more).
    { intros. rewrite !rchains_had. cbn [f_base f_seen]. rewrite had_app. eauto. }
    assert (Ki : forall a, kf_inner read_id decode_block cfg chk k a = Some k' -> exists more, rchains k' = rchains k ++ more).
    { intros a' E'. unfold kf_inner in E'. destruct (step (f_in k) a') as [[s' o]|]; [|discriminate].
      destruct (f_wait k) as [[enum from]|], (answer_of o) as [ans|]; injection E' as <-; apply K. }
    destruct a as [enum order| |ok late|c|]; cbn [StackModel.kf_step] in E; [|by apply Ki in E..|].
    - destruct (f_wait k); [discriminate|]. destruct (kf_asks _ _ _) as [cps|].
      + destruct (step (f_in k) _) as [[s' o]|]; [|discriminate]. injection E as <-. apply K.
      + injection E as <-. exists []. by rewrite app_nil_r.
    - destruct (f_wait k); [|discriminate]. destruct (step (f_in k) _) as [[s' o]|]; [|discriminate]. injection E as <-. apply K.
  Qed.

  Lemma kfinvp_step k a k' : anchored = false -> fact_fair a -> kfinvp k -> kf_step k a = Some k' -> node_ok (rchains k') -> kfinvp k'.
  Proof.
    intros NA Hfair K E Ok. pose proof K as ((l & Hl) & Ac & (s & D & Gi) & I & (Hs & G & ND & Hh) & Hw).
    assert (Hfrom : kf_from (Some start) k <> None) by (unfold kf_from; destruct (last _); discriminate).
    destruct a as [enum order| |ok late|c|]; cbn [StackModel.kf_step] in E.
    - destruct Hfair as [Hf Hord]. destruct (f_wait k) as [|] eqn:Ew; [discriminate|]. destruct (kf_asks enum (kf_from (Some start) k) k) as [cps|] eqn:Ecp.
      + destruct (step (f_in k) (CardanoModel.Pull (to_point <$> order cps))) as [[s' o]|] eqn:Es; [|discriminate]. injection E as <-.
        pose proof (run_snoc _ _ _ _ _ _ _ Hl Es) as Hl'. cbn [CardanoModel.step] in Es. rewrite Hw in Es. destruct (s_open (f_in k)); [|discriminate]. injection Es as <- <-.
        assert (ER : forall f, R_of Rp (f_seen k ++ [Called f]) = R_of Rp (f_seen k)) by (intro f; rewrite R_of_app; apply app_nil_r).
        destruct (fh_asks enum k s D cps NA Hf Ac G ND Gi Ecp) as [Hwa Hne].
        split; [eexists; exact Hl'|]. split; [exact Ac|]. split; [exists s, D; exact Gi|]. cbn [f_world f_seen f_base f_wait f_in]. rewrite ER.
        split; [eapply sinv_snoc; [by rewrite Hl'|exact Ok|discriminate|exact I]|]. split; [auto|].
        split; [exact Hf|]. split; [exact Hfrom|]. exists cps. split; [exact Ecp|]. split; [exact Hwa|]. split; [exact Hne|]. exists (order cps). split; [apply Hord|]. left. reflexivity.
      + apply (inj Some) in E as <-. pose proof (fh_quiet k enum (kf_from (Some start) k) ANone Ecp) as EF.
        assert (G' := G). assert (ND' := ND). rewrite <- EF in G', ND'.
        destruct (g_step point_of points_ok_point_of d (f_world k) s D (FPull enum (kf_from (Some start) k) ANone) Gi Hf G' ND') as (Hfork & s1 & D1 & Gi1).
        { intros ? ? ? X _. by injection X as _ <- _. }
        split; [exists l; exact Hl|]. split.
        { by apply (finv_acts_step _ (FPull enum (kf_from (Some start) k) ANone)). }
        split; [exists s1, D1; exact Gi1|]. split; [exact I|]. cbn [f_world f_seen f_base f_wait f_in]. rewrite EF. auto.
    - apply (kfinvp_inner k Caller); eauto.
    - apply (kfinvp_inner k (Handler ok late)); eauto.
    - apply (kfinvp_inner k (Node c)); eauto.
    - destruct (f_wait k) as [[enum from]|]; [|discriminate]. destruct (step (f_in k) Cancel) as [[s' o]|] eqn:Es; [|discriminate]. injection E as <-.
      pose proof (run_snoc _ _ _ _ _ _ _ Hl Es) as Hl'. cbn [CardanoModel.step] in Es.
      assert (s' = set_c (f_in k) CIdle /\ o = []) as [-> ->] by (destruct (s_c (f_in k)); [discriminate| | |]; injection Es as <- <-; auto).
      rewrite app_nil_r in *. split; [eexists; exact Hl'|]. split; [exact Ac|]. split; [exists s, D; exact Gi|]. split; [exact I|]. split; [auto|reflexivity].
  Qed.

  Lemma rrun_chains l : forall k, exists more, rchains (kf_run k l) = rchains k ++ more.
  Proof.
    induction l as [|a l IH]; intro k; [exists []; by rewrite app_nil_r|].
    cbn [StackModel.kf_run]. destruct (kf_step k a) as [k'|] eqn:E; [|apply IH]. destruct (IH k') as [m1 E1]. destruct (rstep_chains _ _ _ E) as [m2 E2].
    exists (m2 ++ m1). rewrite E1, E2, app_assoc. reflexivity.
  Qed.
  Lemma kfinvp_run l : anchored = false -> Forall fact_fair l -> forall k, kfinvp k -> node_ok (rchains (kf_run k l)) -> kfinvp (kf_run k l).
  Proof.
    intro NA. induction 1 as [|a l Ha _ IH]; intros k K Ok; cbn [StackModel.kf_run] in *; [exact K|].
    destruct (rrun_chains l (match kf_step k a with Some k' => k' | None => k end)) as [more M].
    apply IH; [|exact Ok]. rewrite M in Ok. apply node_ok_prefix in Ok; [|unfold rchains; intro Y; apply app_eq_nil in Y as [_ Y]; discriminate Y].
    destruct (kf_step k a) as [k'|] eqn:E; [|exact K]. eapply kfinvp_step; eauto.
  Qed.

  (** ** what the consumer has *)
  Lemma rchain k : kfinvp k -> node_ok (rchains k) ->
    (f_received (f_world k) = [] /\ consumed point_of (f_world k) = []) \/
    exists c del rest, c ∈ rchains k /\ c = pre ++ b0 :: del ++ rest /\ consumed point_of (f_world k) = map blk del /\ last (map blk del) = last (f_received (f_world k)) /\ del <> [].
  Proof.
    intros (_ & Ac & _ & I & (Hs & G & ND & Hh) & _) Ok. destruct (fork_consumed _ Ac G ND) as (Fo & Hin & _).
    destruct Fo as [[-> ->]|(first & lst & Hf & Hl & HCh & HCl & Hpl)]; [by left|right].
    set (C := consumed point_of (f_world k)) in *.
    assert (HP : forall x, x ∈ C -> prov (rchains k) (length past + length (chains (f_seen k))) x).
    { intros x Hx. apply (si_prov _ _ _ _ I (f_seen k) [] ltac:(by rewrite app_nil_r) x). by apply Hs, Hin. }
    assert (first = blk b1) as ->. { rewrite Hh in Hf. destruct (si_head _ _ _ _ I) as [X|X]; rewrite X in Hf; [discriminate|congruence]. }
    assert (Hlc : lst ∈ C) by (apply last_Some in HCl as [z ->]; apply elem_of_app; right; left).
    destruct (HP _ Hlc) as (j & C' & i & _ & Hj & Hi & Hx). pose proof Hj as Hj'. rewrite list_lookup_fmap in Hj'. apply fmap_Some in Hj' as (c & Hc & ->).
    assert (HC' : map blk c ∈ H_of (rchains k)) by (by eapply elem_of_list_lookup_2). assert (Hcin : c ∈ rchains k) by (by eapply elem_of_list_lookup_2).
    destruct (stretch_of (H_of (rchains k)) (map blk pre) (blk b0) (blk b1) (n_start _ Ok) (n_linked _ Ok) (n_ids _ Ok) _ _ i lst C HC' Hx Hpl HP HCl) as (P & Q & E & _).
    destruct (n_start _ Ok _ HC') as [_ S1].
    assert (length P = S (length pre)) as HP1.
    { rewrite <- (List.map_length blk pre). apply (same_idx (H_of (rchains k)) (map blk pre) (blk b0) (blk b1) (n_start _ Ok) (n_linked _ Ok) _ _ _ _ (blk b1) HC' HC'); [|exact S1].
      rewrite E. destruct C as [|x C]; [discriminate|]. injection HCh as ->. by apply list_lookup_middle. }
    apply List.map_eq_app in E as (P1 & X & -> & EP1 & E). apply List.map_eq_app in E as (del & rest & -> & Ed & _).
    exists (P1 ++ del ++ rest), del, rest. split; [done|]. split; [|split; [done|split; [rewrite Ed, Hl; exact HCl|intros ->; cbn in Ed; rewrite <- Ed in HCh; discriminate]]].
    destruct (n_prefix _ Ok _ Hcin) as [z Ez]. assert (P1 = pre ++ [b0]) as ->; [|by rewrite <- app_assoc].
    replace (pre ++ [b0; b1]) with ((pre ++ [b0]) ++ [b1]) in Ez by (by rewrite <- app_assoc). rewrite <- app_assoc in Ez. apply app_inj_1 in Ez as [Ez _]; [exact Ez|].
    rewrite <- EP1, List.map_length in HP1. rewrite app_length. cbn. lia.
  Qed.
  (** if the block received last is the last one of a chain of the node, the consumer has that chain *)
  Lemma rchain_at k c x : kfinvp k -> node_ok (rchains k) -> c ∈ rchains k -> last c = Some x -> last (f_received (f_world k)) = Some (blk x) ->
    exists del, c = pre ++ b0 :: del /\ consumed point_of (f_world k) = map blk del.
  Proof.
    intros (_ & Ac & _ & I & (Hs & G & ND & Hh) & _) Ok Hcin Hx Hlr. destruct (fork_consumed _ Ac G ND) as (Fo & Hin & _).
    destruct Fo as [[X _]|(first & lst & Hf & Hl & HCh & HCl & Hpl)]; [rewrite X in Hlr; discriminate|].
    set (C := consumed point_of (f_world k)) in *.
    assert (HP : forall y, y ∈ C -> prov (rchains k) (length past + length (chains (f_seen k))) y).
    { intros y Hy. apply (si_prov _ _ _ _ I (f_seen k) [] ltac:(by rewrite app_nil_r) y). by apply Hs, Hin. }
    assert (first = blk b1) as ->. { rewrite Hh in Hf. destruct (si_head _ _ _ _ I) as [X|X]; rewrite X in Hf; [discriminate|congruence]. }
    assert (lst = blk x) as -> by congruence.
    assert (HC' : map blk c ∈ H_of (rchains k)) by (apply n_elem; eauto).
    assert (Hi : map blk c !! (length c - 1)%nat = Some (blk x)) by (rewrite list_lookup_fmap, Nat.sub_1_r, <- last_lookup, Hx; reflexivity).
    destruct (stretch_of (H_of (rchains k)) (map blk pre) (blk b0) (blk b1) (n_start _ Ok) (n_linked _ Ok) (n_ids _ Ok) _ _ _ (blk x) C HC' Hi Hpl HP HCl) as (P & Q & E & Hlen).
    destruct (n_start _ Ok _ HC') as [_ S1].
    assert (length P = S (length pre)) as HP1.
    { rewrite <- (List.map_length blk pre). apply (same_idx (H_of (rchains k)) (map blk pre) (blk b0) (blk b1) (n_start _ Ok) (n_linked _ Ok) _ _ _ _ (blk b1) HC' HC'); [|exact S1].
      rewrite E. destruct C as [|y C]; [discriminate|]. injection HCh as ->. by apply list_lookup_middle. }
    assert (Q = []) as ->.
    { apply (f_equal length) in E. rewrite List.map_length, !app_length in E. assert (length c <> 0%nat) by (destruct c; discriminate). destruct Q; [done|cbn in E; lia]. }
    rewrite app_nil_r in E. apply List.map_eq_app in E as (P1 & del & -> & EP1 & Ed).
    exists del. split; [|done].
    destruct (n_prefix _ Ok _ Hcin) as [z Ez]. assert (P1 = pre ++ [b0]) as ->; [|by rewrite <- app_assoc].
    replace (pre ++ [b0; b1]) with ((pre ++ [b0]) ++ [b1]) in Ez by (by rewrite <- app_assoc). rewrite <- app_assoc in Ez. apply app_inj_1 in Ez as [Ez _]; [exact Ez|].
    rewrite <- EP1, List.map_length in HP1. rewrite app_length. cbn. lia.
  Qed.

  Lemma rnode k : (exists l, run (initial (f_base k)) l = (f_in k, f_seen k)) -> last (rchains k) = Some (s_node (f_in k)).
  Proof.
    intros (l & Hl). assert (I := reach read_id decode_block cfg chk false (f_base k) l ltac:(discriminate) ltac:(discriminate)). rewrite Hl in I. cbn [fst snd] in I.
    rewrite (i_node _ _ _ _ _ _ _ I), looks_node. cbn [fst]. rewrite rchains_had. unfold had. rewrite last_app.
    assert (K : forall (x : list nblock) l, last (x :: l) = Some (List.last l x)).
    { clear. intros x l. revert x. induction l as [|y l IH]; intro x; [reflexivity|]. change (last (x :: y :: l)) with (last (y :: l)). rewrite IH. f_equal. apply last_cons_default. }
    rewrite K. reflexivity.
  Qed.

  End sessions.

  (** ** one process *)
  Definition kfinv (k : fstack) : Prop := kfinvp [] [] k.
  Lemma kfinv_start : kfinv (kf_start d c0).
  Proof.
    split; [exists []; reflexivity|]. split; [split; [exists (empty_store 0); apply finv_start|constructor]|]. split; [exists (empty_store 0), []; apply ginv_start|].
    split; [|split; [|reflexivity]].
    - split; [constructor|left; reflexivity| |].
      + intros t1 t2 E x Hx. symmetry in E. apply app_eq_nil in E as [-> ->]. inversion Hx.
      + intros t1 f t2 E. destruct t1; discriminate.
    - cbn. split; [done|]. split; [constructor|]. split; [constructor|reflexivity].
  Qed.
  Lemma kf_chains_had k : kf_chains k = had [] (f_base k) (f_seen k).
  Proof. reflexivity. Qed.
  Lemma kf_step_chains k a k' : kf_step read_id decode_block cfg chk (Some start) k a = Some k' -> exists more, kf_chains k' = kf_chains k ++ more.
  Proof. apply (rstep_chains []). Qed.
  Lemma kf_run_chains l : forall k, exists more, kf_chains (kf_run read_id decode_block cfg chk (Some start) k l) = kf_chains k ++ more.
  Proof. apply (rrun_chains []). Qed.
  Lemma kfinv_step k a k' : anchored = false -> fact_fair a -> kfinv k -> kf_step read_id decode_block cfg chk (Some start) k a = Some k' -> node_ok (kf_chains k') -> kfinv k'.
  Proof. apply (kfinvp_step [] []). Qed.
  Lemma kfinv_run l : anchored = false -> Forall fact_fair l -> forall k, kfinv k -> node_ok (kf_chains (kf_run read_id decode_block cfg chk (Some start) k l)) -> kfinv (kf_run read_id decode_block cfg chk (Some start) k l).
  Proof. apply (kfinvp_run [] []). Qed.
  (** ** what the consumers have *)
  Lemma run_nodes l c : forall s, Node c ∈ l -> c ∈ chains (snd (run s l)).
  Proof.
    induction l as [|a l IH]; intros s Hc; [inversion Hc|]. cbn [CardanoModel.run]. apply elem_of_cons in Hc as [<- |Hc].
    - cbn [CardanoModel.step]. destruct (run _ l) as [s' o]. cbn [snd]. rewrite chains_app. apply elem_of_app. left. left.
    - destruct (step s a) as [[s' o]|]; [|by apply IH]. specialize (IH s' Hc). destruct (run s' l) as [s'' o']. cbn [snd] in *. rewrite chains_app. apply elem_of_app. by right.
  Qed.
  Lemma k_caught_up k t1 f t2 e t3 : anchored = true -> kinv true k -> node_ok (k_chains k) -> k_seen k = t1 ++ Asked f :: t2 ++ e :: t3 -> Forall not_asked t2 -> e = Ended \/ e = GotNone ->
    (exists c1 c2, after (in_force (k_base k) t1 :: chains t2) c1 c2 /\ ~ c1 `prefix_of` c2) \/
    (exists c1, c1 ∈ in_force (k_base k) t1 :: chains t2 /\ forall i b, c1 !! i = Some b -> (length pre < i)%nat -> (i + d < length c1)%nat -> blk b ∈ w_accepted (k_world k)).
  Proof.
    intros An K Ok E Nt He. pose proof (k_node _ _ K) as Hlast. destruct (k_accepted _ _ K Ok) as (Rp & s & D & HR & I & Iv & Ha & _ & HD).
    destruct K as ((l & Hl & Hok) & _).
    assert (Gd : forall c, c ∈ k_chains k -> Forall (good decode_block cfg chk) c).
    { intros c Hc. apply Forall_forall. intros b Hb. destruct (gc_block _ _ _ _ _ (n_good _ Ok c Hc) b Hb) as (_ & _ & m & e' & _ & _ & _ & _ & Hev). exists (MBlock e'). exact Hev. }
    assert (Cl : Forall (clean decode_block cfg chk) l).
    { apply Forall_forall. intros a Hin. pose proof (proj1 (Forall_forall _ _) (Hok eq_refl) a Hin) as Hoa. destruct a as [f'| | | | |ok late|c]; try exact Logic.I; [exact Hoa|].
      apply Gd. rewrite k_chains_had. unfold had. apply elem_of_app. right. right. pose proof (run_nodes l c (initial (k_base k)) Hin) as X. by rewrite Hl in X. }
    rewrite E in I. destruct (ended_tip (k_past k) (k_base k) Rp l t1 f t2 e t3) as [S|(c1 & k1 & x & Hc1 & Hk1 & Hlx & Hx)]; [|by rewrite Hl|done|done| |done| |done|by left|].
    { intros c1 k1 _ Hk Hk1. apply (asked_on (k_past k) (k_base k) Rp t1 f (t2 ++ e :: t3)) with (k1 := k1); [rewrite <- E; exact Ok|exact I| |exact Hk|exact Hk1].
      destruct (si_asked _ _ _ _ I t1 f (t2 ++ e :: t3) eq_refl) as (_ & _ & X). by apply X. }
    { apply Gd. rewrite k_chains_had. unfold had. apply elem_of_app. right. left. }
    { rewrite <- E. exact Ok. }
    right. exists c1. split; [done|]. intros i b Hi Hpre Hd. rewrite Ha. rewrite <- E in *. rewrite <- k_chains_had in Hk1. set (R := R_of Rp (k_seen k)) in *.
    assert (HC1 : map blk c1 ∈ H_of (k_chains k)) by (apply n_elem; exists c1; split; [by eapply elem_of_list_lookup_2|done]).
    assert (Hix : c1 !! (length c1 - 1)%nat = Some x) by (rewrite Nat.sub_1_r, <- last_lookup; exact Hlx).
    destruct (n_start _ Ok _ HC1) as [_ S1].
    assert (N1 := idx (H_of (k_chains k)) (map blk pre) (blk b0) (blk b1) (n_start _ Ok) (n_linked _ Ok) _ _ _ HC1 S1).
    assert (Nx := idx (H_of (k_chains k)) (map blk pre) (blk b0) (blk b1) (n_start _ Ok) (n_linked _ Ok) _ (length c1 - 1)%nat (blk x) HC1 ltac:(by rewrite list_lookup_fmap, Hix)).
    rewrite List.map_length in *.
    assert (HRh : head R = Some (blk b1)). { destruct (si_head _ _ _ _ I) as [X|X]; [|exact X]. fold R in X. rewrite X in Hx. inversion Hx. }
    pose proof (i_top _ _ _ _ Iv) as Top. pose proof (i_chain _ _ _ _ Iv) as Sc. destruct (last D) as [c|] eqn:El.
    2:{ specialize (Top _ _ HRh Hx). lia. }
    destruct Top as (_ & _ & Top). destruct (Top _ Hx) as [Htop _]. clear Top.
    destruct (sc_first _ _ _ Sc) as [HDn|HDh]; [rewrite HDn in El; discriminate|]. rewrite HRh in HDh.
    assert (Hlc : D !! (length D - 1)%nat = Some c) by (rewrite Nat.sub_1_r, <- last_lookup; exact El).
    pose proof (linked_nums _ (sc_linked _ _ _ Sc) _ _ (blk b1) Hlc HDh) as Nc.
    assert (HDne : (0 < length D)%nat) by (destruct D; [discriminate|cbn; lia]).
    destruct (lookup_lt_is_Some_2 D (i - (length pre + 1))%nat) as [y Hy]; [lia|].
    pose proof (HD _ _ Hy) as Hy'. replace (length pre + 1 + (i - (length pre + 1)))%nat with i in Hy' by lia.
    enough (s_node (k_in k) !! i = Some b) as Hb. { rewrite list_lookup_fmap, Hb in Hy'. injection Hy' as ->. by eapply elem_of_list_lookup_2. }
    rewrite last_lookup in Hlast. destruct (decide (k1 = Nat.pred (length (k_chains k)))) as [-> |Hne]; [congruence|].
    assert ((k1 < Nat.pred (length (k_chains k)))%nat) as Hlt by (apply lookup_lt_Some in Hk1; lia).
    destruct (gn_prefix _ _ _ _ _ _ (proj1 Ok) _ _ _ _ Hk1 Hlast Hlt) as [z ->]. apply lookup_app_l_Some. rewrite lookup_take by lia. exact Hi.
  Qed.

  Lemma kf_chain k : kfinv k -> node_ok (kf_chains k) ->
    (f_received (f_world k) = [] /\ consumed point_of (f_world k) = []) \/
    exists c del rest, c ∈ kf_chains k /\ c = pre ++ b0 :: del ++ rest /\ consumed point_of (f_world k) = map blk del /\ last (map blk del) = last (f_received (f_world k)) /\ del <> [].
  Proof. apply (rchain [] []). Qed.
  Lemma kf_chain_at k c x : kfinv k -> node_ok (kf_chains k) -> c ∈ kf_chains k -> last c = Some x -> last (f_received (f_world k)) = Some (blk x) ->
    exists del, c = pre ++ b0 :: del /\ consumed point_of (f_world k) = map blk del.
  Proof. apply (rchain_at [] []). Qed.
End Run.
