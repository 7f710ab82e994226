(** * Proofs about the confirming source *)
From Coq Require Import Lia NArith List.
From stdpp Require Import prelude numbers list gmap sorting.
From Verif Require Import MultiverseModel MultiverseSpec MultiverseProofs MultiverseHistProofs
  MultiverseQueryProofs SourceModel SourceSpec.

Local Open Scope N_scope.

(** ** Lists *)

Lemma filter_ext_in {A} (P Q : A -> Prop) `{!forall x, Decision (P x)}
    `{!forall x, Decision (Q x)} (l : list A) :
  (forall x, x ∈ l -> P x <-> Q x) -> filter P l = filter Q l.
Proof.
  induction l as [|x l IH]; intros HH; [done|]. rewrite !filter_cons.
  rewrite (IH ltac:(intros y Hy; apply HH; by right)).
  pose proof (HH x ltac:(by left)). destruct (decide (P x)), (decide (Q x)); tauto.
Qed.

Lemma filter_all {A} (P : A -> Prop) `{!forall x, Decision (P x)} (l : list A) :
  (forall x, x ∈ l -> P x) -> filter P l = l.
Proof.
  induction l as [|x l IH]; intros HH; [done|]. rewrite filter_cons.
  rewrite decide_True by (apply HH; by left). f_equal. apply IH. intros y Hy. apply HH. by right.
Qed.

Lemma filter_twice {A} (P Q : A -> Prop) `{!forall x, Decision (P x)}
    `{!forall x, Decision (Q x)} (l : list A) :
  filter P (filter Q l) = filter (fun x => P x /\ Q x) l.
Proof.
  induction l as [|x l IH]; [done|]. rewrite !(filter_cons _ x).
  destruct (decide (Q x)) as [q|q].
  - rewrite filter_cons. destruct (decide (P x)), (decide (P x /\ Q x)); try tauto.
    by rewrite IH.
  - destruct (decide (P x /\ Q x)); [tauto|]. done.
Qed.

(** ** Collecting *)

Lemma unlink_arcs m held p k m' : mv_unlink m held p k = Done m' ->
  forall q e', m_all m' !! q = Some e' ->
  exists e, m_all m !! q = Some e /\ e_arc e = e_arc e'.
Proof.
  unfold mv_unlink. intros H q e' Hq.
  destruct (mv_upgrade m held p) as [[p' x]|]; [|injection H as <-; eauto].
  destruct (m_all m !! p') as [pe|] eqn:Ep; [|injection H as <-; eauto].
  destruct (decide (k ∈ e_children pe)); [|done].
  destruct (decide (e_children pe ∖ {[k]} = ∅)).
  - destruct (decide (p' ∈ m_tips m)); [done|]. injection H as <-. cbn in Hq.
    destruct (decide (q = p')) as [-> | Hne].
    + rewrite lookup_insert in Hq. injection Hq as <-. exists pe. done.
    + rewrite lookup_insert_ne in Hq by done. eauto.
  - injection H as <-. cbn in Hq.
    destruct (decide (q = p')) as [-> | Hne].
    + rewrite lookup_insert in Hq. injection Hq as <-. exists pe. done.
    + rewrite lookup_insert_ne in Hq by done. eauto.
Qed.

Lemma remove_arcs held m k m' b : mv_remove held m k = Done (m', b) ->
  forall q e', m_all m' !! q = Some e' ->
  exists e, m_all m !! q = Some e /\ e_arc e = e_arc e'.
Proof.
  unfold mv_remove. intros H q e' Hq.
  destruct (m_all m !! k) as [e|] eqn:Ek; [|done]. cbv zeta in H.
  match type of H with match ?x with _ => _ end = _ => destruct x as [m2| |] eqn:E2 end; try done.
  assert (m_all m2 = delete k (m_all m)) as A2.
  { destruct (decide (k ∈ m_roots m)).
    - match type of E2 with (if ?c then _ else _) = _ => destruct c end; [|done].
      by injection E2 as <-.
    - by injection E2 as <-. }
  destruct (mv_unlink m2 held (e_parent e) k) as [m3| |] eqn:E3; try done.
  injection H as <- <-. cbn in Hq.
  destruct (unlink_arcs _ _ _ _ _ E3 _ _ Hq) as (e2 & H2 & A). rewrite A2 in H2.
  apply lookup_delete_Some in H2 as [_ H2]. eauto.
Qed.

(** Every reference in [l] is to a stored key's present allocation. *)
Definition live (m : mv) (l : list ref) : Prop :=
  forall k a, (k, a) ∈ l -> exists e, m_all m !! k = Some e /\ e_arc e = a.

Lemma live_current m l : live m l -> current_refs m l.
Proof. intros H k a e Hin He. destruct (H _ _ Hin) as (e' & He' & <-). congruence. Qed.

Lemma current_mono held m k m' b l : mv_remove held m k = Done (m', b) ->
  current_refs m l -> current_refs m' l.
Proof.
  intros H C k' a e' Hin He'. destruct (remove_arcs _ _ _ _ _ H _ _ He') as (e & He & <-).
  by apply (C k').
Qed.

Lemma gc_ok ds : forall m s sel, rel m s -> current_refs m (ds ++ sel) ->
  NoDup ds.*1 -> (forall k, k ∈ ds.*1 -> has (s_blocks s) k) ->
  exists m' s', gc m sel ds = Done m' /\ rel m' s' /\ s_from s' = s_from s /\
    s_blocks s' = filter (fun b => b_id b ∉ ds.*1) (s_blocks s).
Proof.
  induction ds as [|[k a] ds IH]; intros m s sel R C N Hin.
  - exists m, s. split; [done|]. split; [done|]. split; [done|].
    symmetry. apply filter_all. intros x _ H. by apply elem_of_nil in H.
  - pose proof (rel_remove m s k ((k, a) :: ds ++ sel) R C) as Hr.
    destruct (lookup_block (s_blocks s) k) as [b|] eqn:El.
    2:{ apply lookup_block_none in El. destruct El. apply Hin. by left. }
    destruct Hr as (m1 & E & R1). cbn [gc]. rewrite E. apply NoDup_cons in N as [Nk N].
    destruct (IH m1 _ sel R1) as (m' & s' & E' & R' & Hf & Hb).
    + eapply current_mono; [exact E|]. intros k' a' e Hin'. apply C. by right.
    + done.
    + intros k' Hk'. cbn [s_blocks]. assert (k' <> k) as Hne by (intros ->; done).
      destruct (proj1 (has_elem _ _) (Hin k' ltac:(by right))) as (x & Hx & <-).
      apply has_elem. exists x. split; [|done]. by apply elem_of_without.
    + exists m', s'. split; [done|]. split; [done|]. split; [done|].
      rewrite Hb. cbn [s_blocks]. unfold without. rewrite filter_twice.
      apply filter_ext_in. intros x _. cbn. rewrite not_elem_of_cons. tauto.
Qed.

Lemma refs_of_live m ks : live m (refs_of m ks).
Proof.
  intros k a H. unfold refs_of in H. apply elem_of_list_omap in H as (k' & _ & H).
  destruct (m_all m !! k') as [e|] eqn:E; [|done]. cbn in H. injection H as <- <-. eauto.
Qed.

Lemma refs_of_keys m ks : (forall k, k ∈ ks -> is_Some (m_all m !! k)) ->
  (refs_of m ks).*1 = ks.
Proof.
  induction ks as [|k ks IH]; intros H; [done|]. unfold refs_of. cbn.
  destruct (H k ltac:(by left)) as [e He]. rewrite He. cbn. f_equal.
  apply IH. intros k' Hk'. apply H. by right.
Qed.

Lemma rel_stored m s k : rel m s -> has (s_blocks s) k -> is_Some (m_all m !! k).
Proof.
  intros R H. apply has_elem in H as (b & Hb & <-).
  pose proof (rel_get _ _ (b_id b) R) as G.
  rewrite (proj2 (lookup_block_some _ _ b (rel_nodup _ _ R))) in G by done.
  unfold mv_get in G. destruct (m_all m !! b_id b); [eauto|done].
Qed.

Lemma top_highest R t : top R t <-> highest R t.
Proof. done. Qed.

Lemma insert_gc_ok enum m s b d : rel m s -> fair enum -> b_num b < 2 ^ 64 ->
  ~ has (s_blocks s) (b_id b) ->
  exists m' s' sel tip, insert_and_gc enum m b d = Done (m', sel) /\ rel m' s' /\
    s_from s' = s_from s /\ top (s_blocks s ++ [b]) tip /\
    match sel with
    | Some k => exists a, nth_ancestor (s_blocks s ++ [b]) d tip a /\ b_id a = k /\
        s_blocks s' = filter (fun x => b_num a <= b_num x + 1) (s_blocks s ++ [b])
    | None => (forall a, ~ nth_ancestor (s_blocks s ++ [b]) d tip a) /\
        s_blocks s' = s_blocks s ++ [b]
    end.
Proof.
  intros R Hf Hn Hh. unfold insert_and_gc.
  destruct (rel_insert m s b R Hn) as (m1 & E1 & R1).
  { intros b' Hb' Hid. destruct Hh. apply has_elem. eauto. }
  rewrite E1. cbn [spec_step fst] in R1. rewrite decide_False in R1 by done.
  match type of R1 with rel _ ?x => set (s1 := x) in * end.
  assert (s_blocks s1 = s_blocks s ++ [b]) as Hs1 by done.
  assert (s_blocks s1 <> []) as Hne by (rewrite Hs1; by destruct (s_blocks s)).
  destruct (rel_select m1 s1 enum [] d 1 R1 Hf) as (r & disc & E2 & _ & H2).
  { intros k a e H. by apply elem_of_nil in H. }
  { intros k a H. by apply elem_of_nil in H. }
  rewrite E2. destruct (H2 Hne) as (tip & Ht & Hr). clear H2.
  rewrite Hs1 in Ht. destruct r as [k|].
  - destruct Hr as (a & Ha & Hk & Hd).
    assert (forall k, k ∈ enum disc -> is_Some (m_all m1 !! k)) as Hst.
    { intros k' Hk'. rewrite (Hf disc), elem_of_elements in Hk'.
      apply Hd in Hk' as (x & Hx & <- & _). eapply rel_stored; [exact R1|].
      apply has_elem. eauto. }
    destruct (gc_ok (refs_of m1 (enum disc)) m1 s1 (refs_of m1 (option_list (Some k))))
      as (m2 & s2 & E3 & R3 & F3 & B3).
    + done.
    + intros k' x e Hin He. apply elem_of_app in Hin as [Hin|Hin];
        destruct (refs_of_live _ _ _ _ Hin) as (e' & He' & <-); congruence.
    + rewrite refs_of_keys by done. rewrite (Hf disc). apply NoDup_elements.
    + rewrite refs_of_keys by done. intros k' Hk'.
      rewrite (Hf disc), elem_of_elements in Hk'. apply Hd in Hk' as (x & Hx & <- & _).
      apply has_elem. eauto.
    + rewrite E3. exists m2, s2, (Some k), tip. do 2 (split; [done|]).
      split; [by rewrite F3|]. split; [done|]. exists a.
      rewrite Hs1 in Ha. split; [done|]. split; [done|].
      rewrite B3, refs_of_keys by done. rewrite <- Hs1.
      apply filter_ext_in. intros x Hx. rewrite (Hf disc), elem_of_elements, Hd.
      split.
      * intros Hno. destruct (decide (b_num a <= b_num x + 1)); [done|]. destruct Hno.
        exists x. split; [done|]. split; [done|]. lia.
      * intros Hle (y & Hy & Hid & Hlt).
        assert (y = x) as -> by (eapply nodup_id_inj; eauto; by eapply rel_nodup). lia.
  - destruct Hr as [Hno ->].
    assert (enum ∅ = []) as En.
    { pose proof (Hf ∅) as P. rewrite elements_empty in P. by apply Permutation_nil_r in P. }
    rewrite En. cbn. exists m1, s1, None, tip. do 4 (split; [done|]).
    rewrite Hs1 in Hno. done.
Qed.

(** ** Trees of received blocks *)

Record tree (R : list block) : Prop := {
  t_small : forall b, b ∈ R -> b_num b < 2 ^ 64;
  t_id : forall b b', b ∈ R -> b' ∈ R -> b_id b = b_id b' -> b = b';
  t_link : forall p c, p ∈ R -> c ∈ R -> b_parent c = b_id p -> b_num c = b_num p + 1;
  t_first : forall f, head R = Some f -> (forall p, p ∈ R -> b_parent f <> b_id p) /\
    forall b, b ∈ R -> b_num f <= b_num b /\
      (b = f \/ exists p, p ∈ R /\ b_parent b = b_id p) }.

Lemma grows_snoc_inv d R b : grows d (R ++ [b]) -> grows d R /\
  ((R = [] /\ b_num b < 2 ^ 64 /\ b_parent b <> b_id b) \/ b ∈ R \/
   exists p, p ∈ R /\ b_parent b = b_id p /\ b_num b = b_num p + 1 /\ b_num b < 2 ^ 64 /\
    (forall x, x ∈ R -> b_id x <> b_id b /\ b_parent x <> b_id b) /\
    (forall x, settled d R x -> exists n, back R n p x)).
Proof.
  intros H. remember (R ++ [b]) as R' eqn:E. destruct H as [|b' H1 H2|R0 b' H Hin|R0 p b' H Hp H1 H2 H3 H4 H5].
  - by destruct R.
  - destruct R as [|x R]; [|destruct R; done]. injection E as <-. split; [constructor|]. auto.
  - apply app_inj_tail in E as [<- <-]. auto.
  - apply app_inj_tail in E as [<- <-]. split; [done|]. right. right. exists p. do 5 (split; [done|]). done.
Qed.

Lemma grows_prefix d R Q : grows d (R ++ Q) -> grows d R.
Proof.
  induction Q as [|b Q IH] using rev_ind; [by rewrite app_nil_r|].
  rewrite app_assoc. intros H. apply grows_snoc_inv in H as [H _]. auto.
Qed.

Lemma head_app_nonempty {A} (R Q : list A) f : head (R ++ Q) = Some f -> R <> [] -> head R = Some f.
Proof. by destruct R. Qed.

Lemma tree_empty : tree [].
Proof. split; intros; try done; by match goal with H : _ ∈ [] |- _ => apply elem_of_nil in H end. Qed.

Lemma grows_tree d R : grows d R -> tree R.
Proof.
  induction R as [|b R IH] using rev_ind; intros H; [apply tree_empty|].
  apply grows_snoc_inv in H as [H Hb]. specialize (IH H).
  destruct Hb as [(-> & Hn & Hp)|[Hin|(p & Hp & Hl & Hnum & Hs & Hfresh & _)]].
  - split; cbn.
    + intros x ->%elem_of_list_singleton. done.
    + intros x x' ->%elem_of_list_singleton ->%elem_of_list_singleton. done.
    + intros x x' ->%elem_of_list_singleton ->%elem_of_list_singleton. done.
    + intros f [= <-]. split.
      * intros x ->%elem_of_list_singleton. done.
      * intros x ->%elem_of_list_singleton. split; [lia|by left].
  - assert (forall x, x ∈ R ++ [b] <-> x ∈ R) as Hel.
    { intros x. rewrite elem_of_app, elem_of_list_singleton. split; [intros [?| ->]; done|by left]. }
    destruct IH as [I1 I2 I3 I4]. split.
    + intros x. rewrite Hel. auto.
    + intros x x'. rewrite !Hel. auto.
    + intros x x'. rewrite !Hel. auto.
    + intros f Hf. apply head_app_nonempty in Hf; [|intros ->; by apply elem_of_nil in Hin].
      destruct (I4 f Hf) as [J1 J2]. split.
      * intros x. rewrite Hel. auto.
      * intros x. rewrite Hel. intros Hx. destruct (J2 x Hx) as [? [?|(q & ? & ?)]]; [auto|].
        split; [done|]. right. exists q. rewrite Hel. auto.
  - destruct IH as [I1 I2 I3 I4]. split.
    + intros x [Hx| ->%elem_of_list_singleton]%elem_of_app; auto.
    + intros x x' [Hx| ->%elem_of_list_singleton]%elem_of_app
        [Hx'| ->%elem_of_list_singleton]%elem_of_app; auto.
      * intros E. by destruct (Hfresh _ Hx).
      * intros E. by destruct (Hfresh _ Hx').
    + intros x x' [Hx| ->%elem_of_list_singleton]%elem_of_app
        [Hx'| ->%elem_of_list_singleton]%elem_of_app; auto.
      * intros E. rewrite Hl in E. by rewrite <- (I2 p x Hp Hx E).
      * intros E. by destruct (Hfresh _ Hx').
      * intros E. destruct (Hfresh _ Hp). congruence.
    + intros f Hf. apply head_app_nonempty in Hf; [|intros ->; by apply elem_of_nil in Hp].
      destruct (I4 f Hf) as [J1 J2]. split.
      * intros x [Hx| ->%elem_of_list_singleton]%elem_of_app; [auto|].
        apply Hfresh. destruct R; [done|]. injection Hf as ->. by left.
      * intros x [Hx| ->%elem_of_list_singleton]%elem_of_app.
        -- destruct (J2 x Hx) as [? [?|(q & ? & ?)]]; [auto|].
           split; [done|]. right. exists q. rewrite elem_of_app. auto.
        -- destruct (J2 p Hp) as [? _]. split; [lia|]. right. exists p. rewrite elem_of_app. auto.
Qed.

Lemma tree_first_num R f b : tree R -> head R = Some f -> b ∈ R -> b_num b = b_num f -> b = f.
Proof.
  intros T Hf Hb E. destruct (t_first _ T f Hf) as [_ J]. destruct (J b Hb) as [_ [?|(p & Hp & Hl)]];
    [done|]. pose proof (t_link _ T _ _ Hp Hb Hl). destruct (J p Hp). lia.
Qed.

Lemma back_in R n b a : back R n b a -> b ∈ R /\ a ∈ R.
Proof. induction 1; naive_solver. Qed.

Lemma back_num R n b a : tree R -> back R n b a -> b_num b = b_num a + N.of_nat n.
Proof.
  intros T. induction 1 as [b Hb|n b p a Hb Hl Hp IH]; [lia|].
  pose proof (t_link _ T p b (proj1 (back_in _ _ _ _ Hp)) Hb Hl). lia.
Qed.

Lemma back_fun R n : tree R -> forall b a a', back R n b a -> back R n b a' -> a = a'.
Proof.
  intros T. induction n as [|n IH]; intros b a a' H H'.
  - inversion H; subst. inversion H'; subst. done.
  - inversion H as [|? ? p ? Hb Hl Hp]; subst. inversion H' as [|? ? q ? Hb' Hl' Hq]; subst.
    assert (p = q) as ->.
    { apply (t_id _ T); [apply (back_in _ _ _ _ Hp)|apply (back_in _ _ _ _ Hq)|congruence]. }
    by eapply IH.
Qed.

Lemma back_mono R R' n b a : (forall x, x ∈ R -> x ∈ R') -> back R n b a -> back R' n b a.
Proof. intros S. induction 1; econstructor; eauto. Qed.

Lemma back_trans R n m b c a : back R n b c -> back R m c a -> back R (n + m) b a.
Proof. induction 1; intros; [done|]. cbn. econstructor; eauto. Qed.

Lemma back_split R n : forall b c, back R (S n) b c ->
  exists x, back R n b x /\ b_parent x = b_id c /\ x ∈ R /\ c ∈ R.
Proof.
  induction n as [|n IH]; intros b c H; inversion H as [|? ? p ? Hb Hl Hp]; subst.
  - inversion Hp; subst. exists b. split; [by constructor|]. auto.
  - destruct (IH _ _ Hp) as (x & Hx & ?). exists x. split; [|done]. econstructor; eauto.
Qed.

(** Going down to the numbers of the first block. *)
Lemma back_first R f : tree R -> head R = Some f -> forall n b, b ∈ R ->
  b_num b = b_num f + N.of_nat n -> back R n b f.
Proof.
  intros T Hf. destruct (t_first _ T f Hf) as [_ J]. induction n as [|n IH]; intros b Hb E.
  - rewrite (tree_first_num R f b) by (auto; lia). constructor. destruct R; [done|].
    injection Hf as ->. by left.
  - destruct (J b Hb) as [_ [-> |(p & Hp & Hl)]]; [lia|].
    pose proof (t_link _ T _ _ Hp Hb Hl). econstructor; [done|exact Hl|]. apply IH; [done|lia].
Qed.

(** A path stays in any part that keeps all the blocks at least as high as its end. *)
Lemma back_part R S n b a : tree R -> back R n b a ->
  (forall x, x ∈ R -> b_num a <= b_num x -> x ∈ S) -> back S n b a.
Proof.
  intros T. induction 1 as [b Hb|n b p a Hb Hl Hp IH]; intros H.
  - constructor. apply H; [done|lia].
  - econstructor; [|exact Hl|auto]. apply H; [done|].
    pose proof (back_num _ _ _ _ T Hp). pose proof (t_link _ T p b (proj1 (back_in _ _ _ _ Hp)) Hb Hl).
    lia.
Qed.

(** ** Links of the store and parents *)

Lemma nth_ancestor_back S n b a : nth_ancestor S n b a -> back S n b a.
Proof.
  induction 1 as [b Hb|n b p a Hc H IH]; [by constructor|].
  econstructor; [by apply child_of_in in Hc as [_ ?]|by destruct Hc|done].
Qed.

Lemma back_nth_ancestor S n b a : parents_first S -> back S n b a -> nth_ancestor S n b a.
Proof.
  intros P. induction 1 as [b Hb|n b p a Hb Hl Hp IH]; [by constructor|].
  econstructor; [|done]. apply P; [apply (back_in _ _ _ _ Hp)|done|done].
Qed.

Lemma child_of_snoc S b p c : NoDup (b_id <$> (S ++ [b])) ->
  child_of (S ++ [b]) p c <-> child_of S p c \/ (c = b /\ p ∈ S /\ b_parent b = b_id p).
Proof.
  intros N. split.
  - intros (Hl & S1 & S2 & S3 & E). destruct S3 as [|z S3 _] using rev_ind.
    + change (S ++ [b] = S1 ++ [p] ++ S2 ++ [c]) in E. rewrite !app_assoc in E.
      apply app_inj_tail in E as [-> ->]. right. split; [done|]. split; [set_solver|done].
    + left. split; [done|]. exists S1, S2, S3.
      assert (S ++ [b] = (S1 ++ p :: S2 ++ c :: S3) ++ [z]) as E'.
      { rewrite E. rewrite <- !app_assoc. cbn. rewrite <- !app_assoc. done. }
      by apply app_inj_tail in E' as [-> _].
  - intros [(Hl & S1 & S2 & S3 & ->)|(-> & Hp & Hl)].
    + split; [done|]. exists S1, S2, (S3 ++ [b]). rewrite <- app_assoc. cbn. rewrite <- app_assoc. done.
    + split; [done|]. apply elem_of_list_split in Hp as (S1 & S2 & ->).
      exists S1, S2, []. rewrite <- app_assoc. done.
Qed.

Lemma nth_ancestor_snoc S b n t a : NoDup (b_id <$> (S ++ [b])) -> t ∈ S ->
  nth_ancestor (S ++ [b]) n t a <-> nth_ancestor S n t a.
Proof.
  intros N. assert (b ∉ S) as Hb.
  { rewrite fmap_app in N. apply NoDup_app in N as (_ & N & _). intros H.
    apply (N (b_id b)); [by apply elem_of_list_fmap_1|by left]. }
  split.
  - intros H0. revert H. induction H0 as [x Hx|n x p a Hc H0 IH]; intros Hx'; [by constructor|].
    apply child_of_snoc in Hc as [Hc|(-> & _)]; [|done|done].
    econstructor; [exact Hc|]. apply IH. by apply child_of_in in Hc as [? _].
  - intros H0. eapply nth_ancestor_ext; [| |exact H0].
    + intros x Hx. apply elem_of_app. by left.
    + intros p c Hc. apply child_of_snoc; auto.
Qed.

Lemma nth_ancestor_fun S n : NoDup (b_id <$> S) -> forall b a a',
  nth_ancestor S n b a -> nth_ancestor S n b a' -> a = a'.
Proof.
  intros N. induction n as [|n IH]; intros b a a' H H'.
  - inversion H; subst. inversion H'; subst. done.
  - inversion H as [|? ? p ? Hp Ha]; subst. inversion H' as [|? ? q ? Hq Ha']; subst.
    assert (p = q) as -> by (eapply child_of_unique; eauto). by eapply IH.
Qed.

Lemma child_of_filter (P : block -> Prop) `{!forall x, Decision (P x)} S p c :
  P p -> P c -> child_of S p c -> child_of (filter P S) p c.
Proof.
  intros Hp Hc (Hl & S1 & S2 & S3 & ->). split; [done|].
  exists (filter P S1), (filter P S2), (filter P S3).
  rewrite filter_app, filter_cons, decide_True by done.
  by rewrite filter_app, filter_cons, decide_True by done.
Qed.

Lemma parents_first_filter (P : block -> Prop) `{!forall x, Decision (P x)} S :
  parents_first S -> parents_first (filter P S).
Proof.
  intros HF p c Hp Hc Hl. apply elem_of_list_filter in Hp as [Hp1 Hp2].
  apply elem_of_list_filter in Hc as [Hc1 Hc2]. apply child_of_filter; auto.
Qed.

Lemma parents_first_snoc S b : parents_first S -> (forall c, c ∈ S -> b_parent c <> b_id b) ->
  NoDup (b_id <$> (S ++ [b])) -> b_parent b <> b_id b -> parents_first (S ++ [b]).
Proof.
  intros H Hn N Hs p c Hp Hc Hl. apply child_of_snoc; [done|].
  apply elem_of_app in Hp as [Hp| ->%elem_of_list_singleton];
    apply elem_of_app in Hc as [Hc| ->%elem_of_list_singleton].
  - auto.
  - auto.
  - by destruct (Hn c Hc).
  - done.
Qed.

Lemma nodup_filter_ids (P : block -> Prop) `{!forall x, Decision (P x)} S :
  NoDup (b_id <$> S) -> NoDup (b_id <$> filter P S).
Proof.
  induction S as [|x S IH]; intros HN; [done|]. cbn in HN. apply NoDup_cons in HN as [N1 N2].
  rewrite filter_cons. destruct (decide (P x)); [|auto]. cbn. apply NoDup_cons. split; [|auto].
  intros Hin. apply N1. apply elem_of_list_fmap in Hin as (y & -> & Hy).
  apply elem_of_list_filter in Hy as [_ Hy]. by apply elem_of_list_fmap_1.
Qed.

(** ** The invariant: the store, the blocks received and the settled chain *)

Definition kept (D : list block) (b : block) : Prop :=
  match last D with None => True | Some c => b_num c <= b_num b + 1 end.

Record inv (d : nat) (S R D : list block) : Prop := {
  i_grows : grows d R;
  i_elem : forall b, (b ∈ S -> b ∈ R) /\ (b ∈ R /\ kept D b -> b ∈ S);
  i_nodup : NoDup (b_id <$> S);
  i_pf : parents_first S;
  i_chain : settled_chain d R D;
  i_top : match last D with
          | None => forall b f, head R = Some f -> b ∈ R -> b_num b < b_num f + N.of_nat d
          | Some c => c ∈ R /\ (exists t, t ∈ R /\ b_num t = b_num c + N.of_nat d) /\
              forall b, b ∈ R -> b_num b <= b_num c + N.of_nat d /\
                (b_num b = b_num c + N.of_nat d -> back R d b c)
          end }.

Lemma inv_settled d S R D x : inv d S R D -> settled d R x <-> last D = Some x.
Proof.
  intros I. pose proof (grows_tree _ _ (i_grows _ _ _ _ I)) as T.
  pose proof (i_top _ _ _ _ I) as H. destruct (last D) as [c|].
  - destruct H as (Hc & (t & Ht & Et) & Hb). split.
    + intros (t' & [Ht' Hmax] & Hback). f_equal.
      assert (b_num t' = b_num c + N.of_nat d) as E.
      { apply N.le_antisymm; [by apply Hb|]. rewrite <- Et. by apply Hmax. }
      symmetry. eapply back_fun; [done|exact Hback|]. by apply Hb.
    + intros [= <-]. exists t. split; [|by apply Hb]. split; [done|].
      intros y Hy. rewrite Et. by apply Hb.
  - split; [|done]. intros (t & [Ht _] & Hback). exfalso.
    destruct R as [|f R]; [by apply elem_of_nil in Ht|].
    pose proof (H t f eq_refl Ht). pose proof (back_num _ _ _ _ T Hback).
    destruct (t_first _ T f eq_refl) as [_ J]. destruct (J x) as [? _]; [by eapply back_in|]. lia.
Qed.

(** What is selected among the stored blocks. *)
Lemma inv_select d S R D tip : inv d S R D -> top S tip ->
  match last D with
  | Some c => nth_ancestor S d tip c
  | None => forall a, ~ nth_ancestor S d tip a
  end.
Proof.
  intros I [Ht Hmax]. pose proof (grows_tree _ _ (i_grows _ _ _ _ I)) as T.
  pose proof (i_elem _ _ _ _ I) as He. unfold kept in He.
  pose proof (i_top _ _ _ _ I) as H. destruct (last D) as [c|] eqn:El.
  - destruct H as (Hc & (t & Ht' & Et) & Hb).
    assert (t ∈ S) as HtS by (apply He; split; [done|lia]).
    assert (b_num tip = b_num c + N.of_nat d) as E.
    { pose proof (Hmax t HtS). pose proof (proj1 (Hb tip (proj1 (He _) Ht))). lia. }
    apply back_nth_ancestor; [apply I|].
    eapply back_part; [exact T|apply Hb; [by apply He|done]|].
    intros x Hx Hle. apply He. split; [done|lia].
  - intros a Ha. apply nth_ancestor_back in Ha.
    assert (back R d tip a) as Hback.
    { eapply back_mono; [|exact Ha]. intros x Hx. by apply He. }
    assert (tip ∈ R) as HtR by (by apply He).
    destruct R as [|f R]; [by apply elem_of_nil in HtR|].
    pose proof (H tip f eq_refl HtR). pose proof (back_num _ _ _ _ T Hback).
    destruct (t_first _ T f eq_refl) as [_ J]. destruct (J a) as [? _]; [by eapply back_in|]. lia.
Qed.

Lemma sc_same d R b D : settled_chain d R D -> R <> [] \/ D = [] ->
  (forall x, settled d (R ++ [b]) x -> x ∈ D) -> settled_chain d (R ++ [b]) D.
Proof.
  intros [L F E] Hne Hx. split; [done| |].
  - destruct F as [F|F]; [by left|]. destruct Hne as [Hne| ->]; [|by left]. right.
    rewrite F. by destruct R.
  - intros x. rewrite E. split.
    + intros (P & Q & -> & Hs). exists P, (Q ++ [b]). rewrite app_assoc. done.
    + intros (P & Q & EQ & Hs). destruct Q as [|z Q _] using rev_ind.
      * rewrite app_nil_r in EQ. subst P. apply E. by apply Hx.
      * rewrite app_assoc in EQ. apply app_inj_tail in EQ as [-> _]. eauto.
Qed.

Lemma linked_snoc D c : linked D ->
  (forall x, last D = Some x -> b_parent c = b_id x /\ b_num c = b_num x + 1) -> linked (D ++ [c]).
Proof.
  induction D as [|x D IH]; intros L H; [done|]. cbn. destruct D as [|y D].
  - cbn. destruct (H x eq_refl) as [? ?]. done.
  - cbn. cbn in L. destruct L as (L1 & L2 & L3). split; [done|]. split; [done|].
    apply IH; [done|]. intros z Hz. apply H. exact Hz.
Qed.

Lemma sc_more d R b D c : settled_chain d R D -> settled d (R ++ [b]) c ->
  (forall x, settled d (R ++ [b]) x -> x = c) ->
  (forall x, last D = Some x -> b_parent c = b_id x /\ b_num c = b_num x + 1) ->
  (D = [] -> head (R ++ [b]) = Some c) -> settled_chain d (R ++ [b]) (D ++ [c]).
Proof.
  intros [L F E] Hc Hu Hl Hh. split.
  - by apply linked_snoc.
  - right. destruct D as [|x D]; [by rewrite Hh|]. destruct F as [F|F]; [done|].
    cbn in F |- *. rewrite F. by destruct R.
  - intros x. rewrite elem_of_app, elem_of_list_singleton, E. split.
    + intros [(P & Q & -> & Hs)| ->].
      * exists P, (Q ++ [b]). rewrite app_assoc. done.
      * exists (R ++ [b]), []. rewrite app_nil_r. done.
    + intros (P & Q & EQ & Hs). destruct Q as [|z Q _] using rev_ind.
      * rewrite app_nil_r in EQ. subst P. right. by apply Hu.
      * rewrite app_assoc in EQ. apply app_inj_tail in EQ as [-> _]. left. eauto.
Qed.

Lemma last_snoc_some {A} (D : list A) c : last (D ++ [c]) = Some c.
Proof. by rewrite last_snoc. Qed.

(** A block received again changes nothing. *)
Lemma inv_again d S R D b : inv d S R D -> b ∈ R -> grows d (R ++ [b]) -> inv d S (R ++ [b]) D.
Proof.
  intros I Hb G.
  assert (forall x, x ∈ R ++ [b] <-> x ∈ R) as Hel.
  { intros x. rewrite elem_of_app, elem_of_list_singleton. split; [intros [?| ->]; done|by left]. }
  assert (forall n x y, back (R ++ [b]) n x y <-> back R n x y) as Hbk.
  { intros n x y. split; apply back_mono; intros z; by rewrite Hel. }
  assert (R <> []) as Hne by (intros ->; by apply elem_of_nil in Hb).
  split; [done| |apply I|apply I| |].
  - intros x. rewrite Hel. apply I.
  - apply sc_same; [apply I|by left|]. intros x (t & [Ht Hm] & Hs).
    apply (sc_exact _ _ _ (i_chain _ _ _ _ I)). exists R, []. rewrite app_nil_r. split; [done|].
    exists t. rewrite Hel in Ht. rewrite Hbk in Hs. split; [|done]. split; [done|].
    intros y Hy. apply Hm. by rewrite Hel.
  - pose proof (i_top _ _ _ _ I) as H. destruct (last D) as [c|].
    + destruct H as (Hc & (t & Ht & Et) & Hx). rewrite Hel. split; [done|]. split.
      * exists t. by rewrite Hel.
      * intros x. rewrite Hel, Hbk. apply Hx.
    + intros x f Hf. rewrite Hel. apply H. by apply head_app_nonempty in Hf.
Qed.

(** A received block that is no longer stored: it is below the confirmed one. *)
Lemma inv_old d S R D b : inv d S R D -> b ∈ R -> ~ has S (b_id b) ->
  exists c, last D = Some c /\ b_num b + 1 < b_num c.
Proof.
  intros I Hb Hh. assert (b ∉ S) as Hn by (intros H; destruct Hh; apply has_elem; eauto).
  assert (~ kept D b) as Hk by (intros Hk; apply Hn; by apply (i_elem _ _ _ _ I)).
  unfold kept in Hk. destruct (last D) as [c|]; [|by destruct Hk]. exists c. split; [done|]. lia.
Qed.

Lemma nodup_snoc_ids S b : NoDup (b_id <$> S) -> ~ has S (b_id b) -> NoDup (b_id <$> (S ++ [b])).
Proof.
  intros N H. rewrite fmap_app. apply NoDup_app. split; [done|]. split.
  - intros k Hk ->%elem_of_list_singleton. done.
  - apply NoDup_singleton.
Qed.

(** Such a block is inserted and collected at once. *)
Lemma step_old d S R D b tip : inv d S R D -> b ∈ R -> ~ has S (b_id b) ->
  top (S ++ [b]) tip ->
  exists c, last D = Some c /\ nth_ancestor (S ++ [b]) d tip c /\
    inv d (filter (fun x => b_num c <= b_num x + 1) (S ++ [b])) R D.
Proof.
  intros I Hb Hh [Ht Hmax]. destruct (inv_old _ _ _ _ _ I Hb Hh) as (c & El & Hlt).
  exists c. split; [done|].
  pose proof (i_top _ _ _ _ I) as H. rewrite El in H. destruct H as (Hc & (t & HtR & Et) & _).
  pose proof (i_elem _ _ _ _ I) as He. unfold kept in He. rewrite El in He.
  assert (t ∈ S) as HtS by (apply He; split; [done|lia]).
  assert (tip ∈ S) as HtipS.
  { apply elem_of_app in Ht as [Ht| ->%elem_of_list_singleton]; [done|].
    pose proof (Hmax t ltac:(apply elem_of_app; by left)). lia. }
  pose proof (nodup_snoc_ids _ _ (i_nodup _ _ _ _ I) Hh) as N. split.
  - apply nth_ancestor_snoc; [done|done|].
    pose proof (inv_select d S R D tip I) as Hs. rewrite El in Hs. apply Hs.
    split; [done|]. intros x Hx. apply Hmax. apply elem_of_app. by left.
  - rewrite filter_app, filter_cons, decide_False by lia.
    rewrite filter_nil, app_nil_r. split.
    + apply I.
    + intros x. unfold kept. rewrite El, elem_of_list_filter. split; [intros [_ Hx]; by apply He|].
      intros [Hx Hk]. split; [done|]. by apply He.
    + apply nodup_filter_ids. apply I.
    + apply parents_first_filter. apply I.
    + apply I.
    + apply I.
Qed.

(** A new block. *)
Lemma step_new d S R D b tip : inv d S R D -> b ∉ R -> grows d (R ++ [b]) ->
  top (S ++ [b]) tip ->
  ~ has S (b_id b) /\
  ((last D = None /\ (forall a, ~ nth_ancestor (S ++ [b]) d tip a) /\
    inv d (S ++ [b]) (R ++ [b]) D) \/
   (exists c, nth_ancestor (S ++ [b]) d tip c /\
     let S' := filter (fun x => b_num c <= b_num x + 1) (S ++ [b]) in
     ((last D = Some c /\ inv d S' (R ++ [b]) D) \/
      (last D <> Some c /\ inv d S' (R ++ [b]) (D ++ [c]))))).
Proof.
  intros I Hb G [Ht Hmax]. pose proof (grows_tree _ _ (i_grows _ _ _ _ I)) as T0.
  pose proof (grows_tree _ _ G) as T.
  pose proof (grows_snoc_inv _ _ _ G) as (_ & Hnew).
  assert (Hfresh : forall x, x ∈ R -> b_id x <> b_id b /\ b_parent x <> b_id b).
  { destruct Hnew as [(-> & _)|[?|(p & _ & _ & _ & _ & H & _)]]; [|done|exact H].
    intros x Hx. by apply elem_of_nil in Hx. }
  assert (~ has S (b_id b)) as Hh.
  { intros (x & Hx & E)%has_elem. apply (i_elem _ _ _ _ I) in Hx.
    by destruct (Hfresh x Hx). }
  split; [done|].
  pose proof (nodup_snoc_ids _ _ (i_nodup _ _ _ _ I) Hh) as N.
  pose proof (i_elem _ _ _ _ I) as He. unfold kept in He.
  assert (b_parent b <> b_id b) as Hself.
  { destruct Hnew as [(-> & _ & ?)|[?|(p & Hp & Hl & _)]]; [done|done|].
    rewrite Hl. by apply Hfresh. }
  assert (parents_first (S ++ [b])) as PF.
  { apply parents_first_snoc; [apply I| |done|done]. intros c Hc. apply Hfresh. by apply He. }
  assert (forall x, x ∈ R -> x ∈ R ++ [b]) as Hmono by (intros x Hx; apply elem_of_app; by left).
  assert (b ∈ R ++ [b]) as HbR by (apply elem_of_app; right; by left).
  assert (b ∈ S ++ [b]) as HbS by (apply elem_of_app; right; by left).
  destruct (last D) as [c|] eqn:El.
  - (* some block is confirmed *)
    pose proof (i_top _ _ _ _ I) as Htop. rewrite El in Htop.
    destruct Htop as (Hc & (t & HtR & Et) & Hx).
    assert (t ∈ S) as HtS by (apply He; split; [done|lia]).
    destruct Hnew as [(-> & _)|[?|(p & Hp & Hl & Hnum & _ & _ & Hshallow)]];
      [by apply elem_of_nil in Hc|done|].
    destruct (Hshallow c) as (n & Hback); [by apply (inv_settled _ _ _ _ _ I)|].
    pose proof (back_num _ _ _ _ T0 Hback) as Hpn.
    assert (back (R ++ [b]) (Datatypes.S n) b c) as Hbackb.
    { econstructor; [done|exact Hl|]. eapply back_mono; [|exact Hback]. done. }
    pose proof (proj1 (Hx p Hp)) as Hple.
    right. destruct (decide (b_num b <= b_num c + N.of_nat d)) as [Hle|Hgt].
    + (* the same block stays confirmed *)
      assert (forall x, x ∈ R ++ [b] -> b_num x <= b_num c + N.of_nat d /\
        (b_num x = b_num c + N.of_nat d -> back (R ++ [b]) d x c)) as Hx'.
      { intros x [Hin| ->%elem_of_list_singleton]%elem_of_app.
        - destruct (Hx x Hin) as [H1 H2]. split; [done|]. intros E.
          eapply back_mono; [exact Hmono|auto].
        - split; [done|]. intros E. replace d with (Datatypes.S n) by lia. done. }
      assert (b_num tip = b_num c + N.of_nat d) as Etip.
      { pose proof (Hmax t ltac:(apply elem_of_app; by left)).
        apply N.le_antisymm; [|lia]. apply Hx'. apply elem_of_app in Ht as [Ht|Ht];
          apply elem_of_app; [left; by apply He|by right]. }
      exists c. split.
      { apply back_nth_ancestor; [done|]. eapply back_part; [exact T|apply Hx'|].
        - apply elem_of_app in Ht as [Ht|Ht]; apply elem_of_app; [left; by apply He|by right].
        - done.
        - intros x [Hin| ->%elem_of_list_singleton]%elem_of_app Hle'; [|done].
          apply elem_of_app. left. apply He. split; [done|lia]. }
      cbv zeta. left. split; [done|]. split.
      * done.
      * intros x. unfold kept. rewrite El, elem_of_list_filter, !elem_of_app.
        pose proof (He x). tauto.
      * by apply nodup_filter_ids.
      * by apply parents_first_filter.
      * apply sc_same; [apply I|left; intros ER; rewrite ER in Hc; by apply elem_of_nil in Hc |]. intros x (t' & [Ht' Hm'] & Hs').
        assert (x = c) as ->.
        { eapply back_fun; [exact T|exact Hs'|]. apply Hx'; [done|].
          apply N.le_antisymm; [by apply Hx'|]. rewrite <- Et. auto. }
        by eapply last_Some_elem_of.
      * rewrite El. split; [auto|]. split; [exists t; auto|]. exact Hx'.
    + (* the next block is confirmed *)
      assert (n = d) as -> by lia. assert (b_num b = b_num c + N.of_nat d + 1) as Eb by lia.
      assert (tip = b) as ->.
      { apply elem_of_app in Ht as [Ht| ->%elem_of_list_singleton]; [|done]. exfalso.
        apply He in Ht. pose proof (proj1 (Hx _ Ht)). pose proof (Hmax b HbS). lia. }
      destruct (back_split _ _ _ _ Hbackb) as (c' & Hbc' & Hlc & Hc'R & HcR).
      pose proof (t_link _ T _ _ HcR Hc'R Hlc) as Ec'.
      exists c'. split.
      { apply back_nth_ancestor; [done|]. eapply back_part; [exact T|exact Hbc'|].
        intros x [Hin| ->%elem_of_list_singleton]%elem_of_app Hle'; [|done].
        apply elem_of_app. left. apply He. split; [done|lia]. }
      cbv zeta. right. split; [intros [= ->]; lia|].
      assert (forall x, x ∈ R ++ [b] -> b_num x <= b_num c' + N.of_nat d /\
        (b_num x = b_num c' + N.of_nat d -> back (R ++ [b]) d x c')) as Hx'.
      { intros x [Hin| ->%elem_of_list_singleton]%elem_of_app.
        - destruct (Hx x Hin) as [H1 _]. split; [lia|]. lia.
        - split; [lia|]. done. }
      split.
      * done.
      * intros x. unfold kept. rewrite last_snoc, elem_of_list_filter, !elem_of_app.
        split; [pose proof (He x); tauto|]. intros [[H1|H1] H2]; [|tauto]. split; [done|]. left.
        apply He. split; [done|lia].
      * by apply nodup_filter_ids.
      * by apply parents_first_filter.
      * apply sc_more; [apply I| | | |].
        -- exists b. split; [|done]. split; [done|]. intros x Hin.
           pose proof (proj1 (Hx' x Hin)). lia.
        -- intros x (t' & [Ht' Hm'] & Hs'). eapply back_fun; [exact T|exact Hs'|].
           apply Hx'; [done|]. apply N.le_antisymm; [by apply Hx'|].
           pose proof (Hm' b HbR). lia.
        -- intros x. rewrite El. intros [= <-]. done.
        -- intros ->. done.
      * rewrite last_snoc. split; [done|]. split; [exists b; split; [done|lia]|]. exact Hx'.
  - (* nothing is confirmed *)
    assert (D = []) as -> by (by apply last_None).
    assert (forall x, x ∈ S ++ [b] <-> x ∈ R ++ [b]) as Hel.
    { intros x. rewrite !elem_of_app. pose proof (He x). tauto. }
    pose proof (i_top _ _ _ _ I) as Htop. cbn in Htop.
    destruct (R ++ [b]) as [|f R'] eqn:ER; [by destruct R|].
    assert (head (R ++ [b]) = Some f) as Hf by (by rewrite ER). rewrite <- ER in *.
    destruct (t_first _ T f Hf) as [_ Hge].
    assert (forall x, x ∈ R -> b_num x < b_num f + N.of_nat d) as Hlow.
    { intros x Hin. apply Htop; [|done]. eapply head_app_nonempty; [exact Hf|].
      intros ->. by apply elem_of_nil in Hin. }
    assert (b_num b <= b_num f + N.of_nat d) as Hble.
    { destruct Hnew as [(-> & _)|[?|(p & Hp & _ & Hnum & _)]]; [|done|].
      - injection Hf as ->. lia.
      - pose proof (Hlow p Hp). lia. }
    destruct (decide (b_num b < b_num f + N.of_nat d)) as [Hlt|Hnlt].
    + left. split; [done|].
      assert (forall x, x ∈ R ++ [b] -> b_num x < b_num f + N.of_nat d) as Hlow'.
      { intros x [Hin| ->%elem_of_list_singleton]%elem_of_app; auto. }
      assert (forall x y, ~ back (R ++ [b]) d x y) as Hno.
      { intros x y Hxy. pose proof (back_num _ _ _ _ T Hxy).
        destruct (back_in _ _ _ _ Hxy) as [H1 H2]. pose proof (Hlow' x H1).
        pose proof (proj1 (Hge y H2)). lia. }
      split.
      * intros a Ha%nth_ancestor_back. apply (Hno tip a). eapply back_mono; [|exact Ha].
        intros x. by rewrite Hel.
      * split; [done| |done|done| |].
        -- intros x. unfold kept. cbn. rewrite Hel. tauto.
        -- apply sc_same; [apply I|by right|]. intros x (t & _ & Hxy). by destruct (Hno _ _ Hxy).
        -- cbn. intros x f' Hf'. rewrite Hf in Hf'. injection Hf' as <-. auto.
    + right. assert (b_num b = b_num f + N.of_nat d) as Eb by lia.
      assert (tip = b) as ->.
      { apply elem_of_app in Ht as [Ht| ->%elem_of_list_singleton]; [|done]. exfalso.
        apply He in Ht. pose proof (Hlow _ Ht). pose proof (Hmax b HbS). lia. }
      assert (back (R ++ [b]) d b f) as Hbf by (by apply back_first).
      assert (forall x, x ∈ R ++ [b] -> b_num x <= b_num f + N.of_nat d /\
        (b_num x = b_num f + N.of_nat d -> back (R ++ [b]) d x f)) as Hx'.
      { intros x [Hin| ->%elem_of_list_singleton]%elem_of_app.
        - pose proof (Hlow x Hin). split; [lia|]. lia.
        - split; [lia|]. done. }
      exists f. split.
      { apply back_nth_ancestor; [done|]. eapply back_mono; [|exact Hbf].
        intros x. by rewrite Hel. }
      cbv zeta. right. split; [done|]. split.
      * done.
      * intros x. unfold kept. cbn. rewrite elem_of_list_filter, Hel. tauto.
      * by apply nodup_filter_ids.
      * by apply parents_first_filter.
      * apply (sc_more d R b []); [apply I| | | |].
        -- exists b. split; [|done]. split; [done|]. intros x Hin.
           pose proof (proj1 (Hx' x Hin)). lia.
        -- intros x (t' & [Ht' Hm'] & Hs'). eapply back_fun; [exact T|exact Hs'|].
           apply Hx'; [done|]. apply N.le_antisymm; [by apply Hx'|].
           pose proof (Hm' b HbR). lia.
        -- done.
        -- done.
      * cbn. split; [by apply (back_in _ _ _ _ Hbf)|]. split; [exists b; split; [done|lia]|].
        exact Hx'.
Qed.
